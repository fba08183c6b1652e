(** The searches of the vector, with the comparison function as an arbitrary program.  VectorModel.v
    models a comparison as a function of the bytes of its two arguments; here it is called, as in the
    code, with two pointers, may do anything a program can do, and carries a state of its own (a counter,
    a log, a cache): src/Vector.c:653-741, include/Zycore/Comparison.h:46-68. *)
From Verif Require Import Base Status Mem VectorModel.

Section Callback.
  Context {C A : Type}.
  Notation vec := (vector C).
  Notation M := (M C).

  (** A ZyanEqualityComparison, a ZyanComparison: Comparison.h:54 and 67.  First pointer [left], second
      [right]; the client's own state goes in and comes out. *)
  Definition callback (R : Type) : Type := option ptr -> option ptr -> A -> M (R * A).

  (** The loop of ZyanVectorFindEx, src/Vector.c:674-681. *)
  Fixpoint find_loop_by (v : vec) (element : option ptr) (cmp : callback bool) (i : N) (n : nat) (a : A)
      : M (option N * A) :=
    match n with
    | O => ret (None, a)
    | S n =>
        let* (eq, a1) := cmp (offset v i) element a in
        if eq then ret (Some i, a1) else find_loop_by v element cmp (wadd i 1) n a1
    end.

  (** ZyanVectorFindEx, src/Vector.c:653-685.  [None] stands for -1, and for an out-parameter that is not
      written when the status is OUT_OF_RANGE. *)
  Definition vfind_ex_by (v : vec) (element : option ptr) (cmp : callback bool) (index count : N) (a : A)
      : M (status * option N * A) :=
    if (v_size v <? wadd index count) || (index =? v_size v) then ret (ST_OUT_OF_RANGE, None, a) else
    if count =? 0 then ret (ST_FALSE, None, a) else
    assert_valid v ;;;
    let* (r, a1) := find_loop_by v element cmp index (N.to_nat (wadd index count - index)) a in
    match r with
    | Some i => ret (ST_TRUE, Some i, a1)
    | None => ret (ST_FALSE, None, a1)
    end.

  (** ZyanVectorFind, src/Vector.c:642-651. *)
  Definition vfind_by (v : vec) (element : option ptr) (cmp : callback bool) (a : A)
      : M (status * option N * A) := vfind_ex_by v element cmp 0 (v_size v) a.

  (** The loop of ZyanVectorBinarySearchEx, src/Vector.c:722-737.  Fuel: the interval shrinks in every
      iteration. *)
  Fixpoint bs_loop_by (v : vec) (element : option ptr) (cmp : callback Z) (l h : Z)
      (st : status) (fuel : nat) (a : A) : M (status * N * A) :=
    if (l <=? h)%Z then
      match fuel with
      | O => fail OutOfFuel
      | S fuel =>
          let mid := (l + (h - l) / 2)%Z in
          let* (c, a1) := cmp (offset v (Z.to_N mid)) element a in
          if (c <? 0)%Z then bs_loop_by v element cmp (mid + 1) h st fuel a1
          else bs_loop_by v element cmp l (mid - 1) (if (c =? 0)%Z then ST_TRUE else st) fuel a1
      end
    else ret (st, Z.to_N l, a).

  (** ZyanVectorBinarySearchEx, src/Vector.c:698-741. *)
  Definition vbinary_search_ex_by (v : vec) (element : option ptr) (cmp : callback Z)
      (index count : N) (a : A) : M (status * option N * A) :=
    if ((v_size v <=? index) && (0 <? count)) || (v_size v <? wadd index count)
    then ret (ST_OUT_OF_RANGE, None, a) else
    if count =? 0 then ret (ST_FALSE, Some index, a) else
    assert_valid v ;;;
    let* (st, l, a1) := bs_loop_by v element cmp (to_signed index)
                            (to_signed (wsub (wadd index count) 1)) ST_FALSE (N.to_nat count) a in
    ret (st, Some l, a1).

  (** ZyanVectorBinarySearch, src/Vector.c:687-696. *)
  Definition vbinary_search_by (v : vec) (element : option ptr) (cmp : callback Z) (a : A)
      : M (status * option N * A) := vbinary_search_ex_by v element cmp 0 (v_size v) a.
End Callback.

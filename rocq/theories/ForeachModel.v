(** Model of the access macros of include/Zycore/Vector.h and include/Zycore/List.h.  No proofs here.

    The macros are expanded in the caller's code: the caller's variables are the state [A], the
    statements given as [body] a function on them, the vector and the memory.  A body says with [true]
    that it leaves the loop (break, return, goto). *)
From Verif Require Import Base Status Mem VectorModel ListModel.

Section Macros.
  Context {C A : Type}.
  Notation vec := (vector C).

  (** ZYAN_VECTOR_GET, include/Zycore/Vector.h:139-154.  Simplification: [type] has the size of an
      element.  The result of ZyanVectorGet is dereferenced without a test. *)
  Definition vector_get (v : vec) (index : N) : Mem.M C (list C) :=
    let* p := vget v index in mread p (v_esz v).

  (** The loop of ZYAN_VECTOR_FOREACH, include/Zycore/Vector.h:168-176: [size] was read before the
      loop, [i] is the hidden counter, the item is fetched anew by index.  [OutOfFuel]: model only. *)
  Fixpoint foreach_loop (size : N) (body : A -> vec -> list C -> Mem.M C (bool * A * vec)) (fuel : nat) (i : N)
      (a : A) (v : vec) : Mem.M C (A * vec) :=
    if i <? size then
      match fuel with
      | O => fail OutOfFuel
      | S fuel =>
          let* item := vector_get v i in
          let* (stop, a1, v1) := body a v item in
          if stop : bool then ret (a1, v1)
          else foreach_loop size body fuel (wadd i 1) a1 v1
      end
    else ret (a, v).
  (** ZYAN_VECTOR_FOREACH, include/Zycore/Vector.h:156-177. *)
  Definition foreach (body : A -> vec -> list C -> Mem.M C (bool * A * vec)) (a : A) (v : vec) : Mem.M C (A * vec) :=
    foreach_loop (v_size v) body (N.to_nat (v_size v)) 0 a v.

  (** The loop of ZYAN_VECTOR_FOREACH_MUTABLE, include/Zycore/Vector.h:190-198: the item is the pointer
      that ZyanVectorGetMutable returned, possibly NULL. *)
  Fixpoint foreach_mut_loop (size : N) (body : A -> vec -> option ptr -> Mem.M C (bool * A * vec)) (fuel : nat) (i : N)
      (a : A) (v : vec) : Mem.M C (A * vec) :=
    if i <? size then
      match fuel with
      | O => fail OutOfFuel
      | S fuel =>
          let* item := vget v i in
          let* (stop, a1, v1) := body a v item in
          if stop : bool then ret (a1, v1)
          else foreach_mut_loop size body fuel (wadd i 1) a1 v1
      end
    else ret (a, v).
  (** ZYAN_VECTOR_FOREACH_MUTABLE, include/Zycore/Vector.h:179-199. *)
  Definition foreach_mut (body : A -> vec -> option ptr -> Mem.M C (bool * A * vec)) (a : A) (v : vec)
      : Mem.M C (A * vec) :=
    foreach_mut_loop (v_size v) body (N.to_nat (v_size v)) 0 a v.
End Macros.

(** ZYAN_LIST_GET, include/Zycore/List.h:155-171: the data of the node, dereferenced without a test.
    [e] is the size of [type]. *)
Definition list_get (e : N) (node : option ptr) : Mem.M cell (list cell) := mread (lget_node_data node) e.

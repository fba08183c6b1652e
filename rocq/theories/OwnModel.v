(** The vector calls that run the destructor, for destructors that are programs.

    In [VectorModel.v] a destructor changes the bytes of its element and nothing else.  Here it is any program [d] that gets the
    address of the element (ZyanMemberProcedure, include/Zycore/Object.h:51) and may use all of the memory.  The destructor is
    an argument of these functions; the field [v_dtor] of the vector is not used.  Calls that run no destructor are those of
    [VectorModel.v]. *)
From Verif Require Import Base Status Mem VectorModel.

Section Own.
  Context {C : Type}.
  Notation vec := (vector C).
  Notation M := (M C).
  Variable d : option ptr -> M unit.

  (** "for (i = first; i < first + n; ++i) destructor(OFFSET(i))", src/Vector.c:248-251, 586-589, 765-768. *)
  Fixpoint own_loop (v : vec) (first : N) (n : nat) : M unit :=
    match n with
    | O => ret tt
    | S n => d (offset v first) ;;; own_loop v (wadd first 1) n
    end.

  (** ZyanVectorDestroy, src/Vector.c:236-263. *)
  Definition odestroy (v : vec) : M (status * vec) :=
    assert_valid v ;;;
    own_loop v 0 (N.to_nat (v_size v)) ;;;
    if v_alloc v && negb (v_cap v =? 0) then
      let* st := dealloc (v_data v) (v_esz v) (v_cap v) in
      if st_success st then ret (ST_SUCCESS, set_data v None) else ret (st, v)
    else ret (ST_SUCCESS, set_data v None).

  (** ZyanVectorSet, src/Vector.c:394-416. *)
  Definition oset (v : vec) (index : N) (value : option ptr) : M (status * vec) :=
    if negb (nonnull value) then ret (ST_INVALID_ARGUMENT, v) else
    if v_size v <=? index then ret (ST_OUT_OF_RANGE, v) else
    assert_valid v ;;;
    d (offset v index) ;;;
    memcpy (offset v index) value (v_esz v) ;;;
    ret (ST_SUCCESS, v).

  (** ZyanVectorDeleteRange, src/Vector.c:573-605. *)
  Definition odelete_range (v : vec) (index count : N) : M (status * vec) :=
    if count =? 0 then ret (ST_INVALID_ARGUMENT, v) else
    if v_size v <? wadd index count then ret (ST_OUT_OF_RANGE, v) else
    own_loop v index (N.to_nat (wadd index count - index)) ;;;
    let* st := (if wadd index count <? v_size v then vshift_left v index count
                else ret ST_SUCCESS) in
    if negb (st_success st) then ret (st, v) else
    vmaybe_shrink (set_size v (wsub (v_size v) count)).

  (** ZyanVectorDelete, src/Vector.c:568-571. *)
  Definition odelete (v : vec) (index : N) : M (status * vec) := odelete_range v index 1.

  (** ZyanVectorPopBack, src/Vector.c:607-631. *)
  Definition opop_back (v : vec) : M (status * vec) :=
    if v_size v =? 0 then ret (ST_OUT_OF_RANGE, v) else
    d (offset v (wsub (v_size v) 1)) ;;;
    vmaybe_shrink (set_size v (wsub (v_size v) 1)).

  (** ZyanVectorResizeEx, src/Vector.c:752-789, without an initialiser, that is ZyanVectorResize, src/Vector.c:747-750. *)
  Definition oresize (v : vec) (size : N) : M (status * vec) :=
    if size =? v_size v then ret (ST_SUCCESS, v) else
    (if size <? v_size v then own_loop v size (N.to_nat (v_size v - size)) else ret tt) ;;;
    let* (st, v) :=
      (if should_grow size (v_cap v) || should_shrink size (v_cap v) (v_shrink v)
       then assert (1 <=? v_growth v) ;;; vreallocate v (wmul size (v_growth v))
       else ret (ST_SUCCESS, v)) in
    if negb (st_success st) then ret (st, v) else
    ret (ST_SUCCESS, set_size v size).

  (** ZyanVectorClear, src/Vector.c:633-636. *)
  Definition oclear (v : vec) : M (status * vec) := oresize v 0.
End Own.

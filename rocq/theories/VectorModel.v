(** Model of src/Vector.c, function by function.  No proofs here.

    Simplifications that hold for the whole file:
    - the [ZyanVector*] parameter is a record that is passed in and returned, so the
      "vector is NULL" checks of the C code have no counterpart;
    - results that C stores through an out-pointer are returned. *)
From Verif Require Import Base Status Mem.

(** struct ZyanVector_, include/Zycore/Vector.h:75-109.  [v_alloc] tells whether the allocator
    field is non-NULL (the allocator itself is the oracle of the world). *)
Record vector (C : Type) := mkvec {
  v_alloc  : bool;
  v_growth : N;                        (* ZyanU8 *)
  v_shrink : N;                        (* ZyanU8 *)
  v_size   : N;
  v_cap    : N;
  v_esz    : N;
  v_dtor   : option (list C -> list C);
  v_data   : option ptr
}.
Arguments mkvec {C}. Arguments v_alloc {C}. Arguments v_growth {C}. Arguments v_shrink {C}.
Arguments v_size {C}. Arguments v_cap {C}. Arguments v_esz {C}. Arguments v_dtor {C}.
Arguments v_data {C}.

(** ZYAN_VECTOR_MIN_CAPACITY, _DEFAULT_GROWTH_FACTOR, _DEFAULT_SHRINK_THRESHOLD,
    include/Zycore/Vector.h:53-63. *)
Definition VECTOR_MIN_CAPACITY : N := 1.
Definition VECTOR_DEFAULT_GROWTH : N := 2.
Definition VECTOR_DEFAULT_SHRINK : N := 4.

Section Vector.
  Context {C : Type}.
  Notation vec := (vector C).
  Notation M := (M C).

  Definition set_size (v : vec) (n : N) : vec :=
    mkvec (v_alloc v) (v_growth v) (v_shrink v) n (v_cap v) (v_esz v) (v_dtor v) (v_data v).
  Definition set_cap (v : vec) (n : N) : vec :=
    mkvec (v_alloc v) (v_growth v) (v_shrink v) (v_size v) n (v_esz v) (v_dtor v) (v_data v).
  Definition set_data (v : vec) (p : option ptr) : vec :=
    mkvec (v_alloc v) (v_growth v) (v_shrink v) (v_size v) (v_cap v) (v_esz v) (v_dtor v) p.

  Definition nonnull {A} (p : option A) : bool := match p with Some _ => true | None => false end.

  (** ZYCORE_VECTOR_SHOULD_GROW, src/Vector.c:42-43. *)
  Definition should_grow (size cap : N) : bool := cap <? size.
  (** ZYCORE_VECTOR_SHOULD_SHRINK, src/Vector.c:54-55. *)
  Definition should_shrink (size cap threshold : N) : bool :=
    negb (threshold =? 0) && (wmul size threshold <? cap).
  (** ZYCORE_VECTOR_OFFSET, src/Vector.c:65-66. *)
  Definition offset (v : vec) (index : N) : option ptr := padd (v_data v) (wmul index (v_esz v)).

  (** The asserts "element_size" and "data" that open most functions. *)
  Definition assert_valid (v : vec) : M unit :=
    assert (negb (v_esz v =? 0)) ;;; assert (nonnull (v_data v)).

  (** The tail of ZyanVectorReallocate, src/Vector.c:114-118.  Note that [capacity] is stored before
      the allocator is asked. *)
  Definition vreallocate_to (v : vec) (capacity : N) : M (status * vec) :=
    let v1 := set_cap v capacity in
    let* (st, p) := realloc (v_data v1) (v_esz v1) (v_cap v1) in
    ret (if st_success st then ST_SUCCESS else st, set_data v1 p).

  (** ZyanVectorReallocate, src/Vector.c:84-119. *)
  Definition vreallocate (v : vec) (capacity : N) : M (status * vec) :=
    assert (VECTOR_MIN_CAPACITY <=? v_cap v) ;;;
    assert_valid v ;;;
    if negb (v_alloc v) then
      if v_cap v <? capacity then ret (ST_INSUFFICIENT_BUFFER_SIZE, v) else ret (ST_SUCCESS, v)
    else if capacity <? VECTOR_MIN_CAPACITY then
      if VECTOR_MIN_CAPACITY <? v_cap v then vreallocate_to v VECTOR_MIN_CAPACITY
      else ret (ST_SUCCESS, v)
    else vreallocate_to v capacity.

  (** ZyanVectorShiftLeft, src/Vector.c:130-144. *)
  Definition vshift_left (v : vec) (index count : N) : M status :=
    assert_valid v ;;;
    assert (0 <? count) ;;;
    memmove (offset v index) (offset v (wadd index count))
            (wmul (wsub (wsub (v_size v) index) count) (v_esz v)) ;;;
    ret ST_SUCCESS.

  (** ZyanVectorShiftRight, src/Vector.c:155-169. *)
  Definition vshift_right (v : vec) (index count : N) : M status :=
    assert_valid v ;;;
    assert (0 <? count) ;;;
    assert (wadd (v_size v) count <=? v_cap v) ;;;
    memmove (offset v (wadd index count)) (offset v index)
            (wmul (wsub (v_size v) index) (v_esz v)) ;;;
    ret ST_SUCCESS.

  (** ZyanVectorInitEx, src/Vector.c:192-214.  [allocator = false] stands for a NULL allocator;
      on INVALID_ARGUMENT the vector is left untouched, hence no vector is returned. *)
  Definition vinit_ex (esz cap : N) (dtor : option (list C -> list C)) (allocator : bool)
      (growth shrink : N) : M (status * option vec) :=
    if (esz =? 0) || negb allocator || (growth <? 1) then ret (ST_INVALID_ARGUMENT, None)
    else
      let v := mkvec true growth shrink 0 (N.max VECTOR_MIN_CAPACITY cap) esz dtor None in
      let* (st, p) := alloc (v_esz v) (v_cap v) in
      ret (st, Some (set_data v p)).

  (** ZyanVectorInit, src/Vector.c:183-188. *)
  Definition vinit (esz cap : N) (dtor : option (list C -> list C)) : M (status * option vec) :=
    vinit_ex esz cap dtor true VECTOR_DEFAULT_GROWTH VECTOR_DEFAULT_SHRINK.

  (** ZyanVectorInitCustomBuffer, src/Vector.c:216-234. *)
  Definition vinit_custom (esz : N) (buffer : option ptr) (cap : N)
      (dtor : option (list C -> list C)) : M (status * option vec) :=
    if (esz =? 0) || negb (nonnull buffer) || (cap =? 0) then ret (ST_INVALID_ARGUMENT, None)
    else ret (ST_SUCCESS, Some (mkvec false 1 0 0 cap esz dtor buffer)).

  (** The destructor loops "for (i = first; i < first + n; ++i) destructor(OFFSET(i))",
      src/Vector.c:248-251, 586-589, 765-768. *)
  Fixpoint dtor_loop (f : list C -> list C) (v : vec) (first : N) (n : nat) : M unit :=
    match n with
    | O => ret tt
    | S n => call_dtor f (offset v first) (v_esz v) ;;; dtor_loop f v (wadd first 1) n
    end.
  (** The same loop guarded by "if (vector->destructor)"; the loop runs while
      [first <= i < last]. *)
  Definition destroy_range (v : vec) (first last : N) : M unit :=
    match v_dtor v with
    | None => ret tt
    | Some f => dtor_loop f v first (N.to_nat (last - first))
    end.

  (** ZyanVectorDestroy, src/Vector.c:236-263. *)
  Definition vdestroy (v : vec) : M (status * vec) :=
    assert_valid v ;;;
    destroy_range v 0 (v_size v) ;;;
    if v_alloc v && negb (v_cap v =? 0) then
      let* st := dealloc (v_data v) (v_esz v) (v_cap v) in
      if st_success st then ret (ST_SUCCESS, set_data v None) else ret (st, v)
    else ret (ST_SUCCESS, set_data v None).

  (** ZyanVectorDuplicateEx, src/Vector.c:280-299. *)
  Definition vduplicate_ex (src : vec) (cap : N) (allocator : bool) (growth shrink : N)
      : M (status * option vec) :=
    let len := v_size src in
    let cap := N.max cap len in
    let* (st, d) := vinit_ex (v_esz src) cap (v_dtor src) allocator growth shrink in
    if negb (st_success st) then ret (st, d) else
    match d with
    | None => fail NullDeref
    | Some d =>
        assert (len <=? v_cap d) ;;;
        memcpy (v_data d) (v_data src) (wmul len (v_esz src)) ;;;
        ret (ST_SUCCESS, Some (set_size d len))
    end.

  (** ZyanVectorDuplicate, src/Vector.c:271-276. *)
  Definition vduplicate (src : vec) (cap : N) : M (status * option vec) :=
    vduplicate_ex src cap true VECTOR_DEFAULT_GROWTH VECTOR_DEFAULT_SHRINK.

  (** ZyanVectorDuplicateCustomBuffer, src/Vector.c:301-324. *)
  Definition vduplicate_custom (src : vec) (buffer : option ptr) (cap : N)
      : M (status * option vec) :=
    let len := v_size src in
    if cap <? len then ret (ST_INSUFFICIENT_BUFFER_SIZE, None) else
    let* (st, d) := vinit_custom (v_esz src) buffer cap (v_dtor src) in
    if negb (st_success st) then ret (st, d) else
    match d with
    | None => fail NullDeref
    | Some d =>
        assert (len <=? v_cap d) ;;;
        memcpy (v_data d) (v_data src) (wmul len (v_esz src)) ;;;
        ret (ST_SUCCESS, Some (set_size d len))
    end.

  (** ZyanVectorGet / ZyanVectorGetMutable, src/Vector.c:330-354. *)
  Definition vget (v : vec) (index : N) : M (option ptr) :=
    if v_size v <=? index then ret None
    else assert_valid v ;;; ret (offset v index).

  (** ZyanVectorGetPointer / ZyanVectorGetPointerMutable, src/Vector.c:356-392. *)
  Definition vget_pointer (v : vec) (index : N) : M (status * option ptr) :=
    if v_size v <=? index then ret (ST_OUT_OF_RANGE, None)
    else assert_valid v ;;; ret (ST_SUCCESS, offset v index).

  (** ZyanVectorSet, src/Vector.c:394-416. *)
  Definition vset (v : vec) (index : N) (value : option ptr) : M (status * vec) :=
    if negb (nonnull value) then ret (ST_INVALID_ARGUMENT, v) else
    if v_size v <=? index then ret (ST_OUT_OF_RANGE, v) else
    assert_valid v ;;;
    (match v_dtor v with
     | None => ret tt
     | Some f => call_dtor f (offset v index) (v_esz v)
     end) ;;;
    memcpy (offset v index) value (v_esz v) ;;;
    ret (ST_SUCCESS, v).

  (** The growth step shared by PushBack, InsertRange and EmplaceEx
      (src/Vector.c:432-436, 466-470, 509-513). *)
  Definition vgrow (v : vec) (count : N) : M (status * vec) :=
    if should_grow (wadd (v_size v) count) (v_cap v)
    then vreallocate v (N.max 1 (wmul (wadd (v_size v) count) (v_growth v)))
    else ret (ST_SUCCESS, v).

  (** ZyanVectorPushBack, src/Vector.c:422-444. *)
  Definition vpush_back (v : vec) (element : option ptr) : M (status * vec) :=
    if negb (nonnull element) then ret (ST_INVALID_ARGUMENT, v) else
    assert_valid v ;;;
    let* (st, v) := vgrow v 1 in
    if negb (st_success st) then ret (st, v) else
    memcpy (offset v (v_size v)) element (v_esz v) ;;;
    ret (ST_SUCCESS, set_size v (wadd (v_size v) 1)).

  (** ZyanVectorInsertRange, src/Vector.c:451-482. *)
  Definition vinsert_range (v : vec) (index : N) (elements : option ptr) (count : N)
      : M (status * vec) :=
    if negb (nonnull elements) || (count =? 0) then ret (ST_INVALID_ARGUMENT, v) else
    if v_size v <? index then ret (ST_OUT_OF_RANGE, v) else
    assert_valid v ;;;
    let* (st, v) := vgrow v count in
    if negb (st_success st) then ret (st, v) else
    let* st := (if index <? v_size v then vshift_right v index count else ret ST_SUCCESS) in
    if negb (st_success st) then ret (st, v) else
    memcpy (offset v index) elements (wmul count (v_esz v)) ;;;
    ret (ST_SUCCESS, set_size v (wadd (v_size v) count)).

  (** ZyanVectorInsert, src/Vector.c:446-449. *)
  Definition vinsert (v : vec) (index : N) (element : option ptr) : M (status * vec) :=
    vinsert_range v index element 1.

  (** ZyanVectorEmplaceEx, src/Vector.c:494-529.  The constructor callback
      ([ZyanMemberFunction]) is a function from the bytes it finds in the slot to a status and the
      bytes it leaves there.  The result carries the pointer stored in [*element]. *)
  Definition vemplace_ex (v : vec) (index : N) (ctor : option (list C -> status * list C))
      : M (status * vec * option ptr) :=
    if v_size v <? index then ret (ST_OUT_OF_RANGE, v, None) else
    assert_valid v ;;;
    let* (st, v) := vgrow v 1 in
    if negb (st_success st) then ret (st, v, None) else
    let* st := (if index <? v_size v then vshift_right v index 1 else ret ST_SUCCESS) in
    if negb (st_success st) then ret (st, v, None) else
    let element := offset v index in
    let* st := (match ctor with
                | None => ret ST_SUCCESS
                | Some f =>
                    let* x := mread element (v_esz v) in
                    let '(st, y) := f x in
                    mwrite element y ;;; ret st
                end) in
    if negb (st_success st) then ret (st, v, element) else
    ret (ST_SUCCESS, set_size v (wadd (v_size v) 1), element).

  (** ZyanVectorEmplace, src/Vector.c:484-492. *)
  Definition vemplace (v : vec) (ctor : option (list C -> status * list C))
      : M (status * vec * option ptr) :=
    vemplace_ex v (v_size v) ctor.

  (** ZyanVectorSwapElements, src/Vector.c:535-562. *)
  Definition vswap (v : vec) (i j : N) : M (status * vec) :=
    if (v_size v <=? i) || (v_size v <=? j) then ret (ST_OUT_OF_RANGE, v) else
    if v_size v =? v_cap v then ret (ST_INSUFFICIENT_BUFFER_SIZE, v) else
    assert_valid v ;;;
    memcpy (offset v (v_size v)) (offset v i) (v_esz v) ;;;
    memcpy (offset v i) (offset v j) (v_esz v) ;;;
    memcpy (offset v j) (offset v (v_size v)) (v_esz v) ;;;
    ret (ST_SUCCESS, v).

  (** The shrink step shared by DeleteRange and PopBack (src/Vector.c:598-604, 624-630). *)
  Definition vmaybe_shrink (v : vec) : M (status * vec) :=
    if should_shrink (v_size v) (v_cap v) (v_shrink v)
    then vreallocate v (N.max 1 (wmul (v_size v) (v_growth v)))
    else ret (ST_SUCCESS, v).

  (** ZyanVectorDeleteRange, src/Vector.c:573-605.  The sums [index + count] wrap. *)
  Definition vdelete_range (v : vec) (index count : N) : M (status * vec) :=
    if count =? 0 then ret (ST_INVALID_ARGUMENT, v) else
    if v_size v <? wadd index count then ret (ST_OUT_OF_RANGE, v) else
    destroy_range v index (wadd index count) ;;;
    let* st := (if wadd index count <? v_size v then vshift_left v index count
                else ret ST_SUCCESS) in
    if negb (st_success st) then ret (st, v) else
    vmaybe_shrink (set_size v (wsub (v_size v) count)).

  (** ZyanVectorDelete, src/Vector.c:568-571. *)
  Definition vdelete (v : vec) (index : N) : M (status * vec) := vdelete_range v index 1.

  (** ZyanVectorPopBack, src/Vector.c:607-631. *)
  Definition vpop_back (v : vec) : M (status * vec) :=
    if v_size v =? 0 then ret (ST_OUT_OF_RANGE, v) else
    (match v_dtor v with
     | None => ret tt
     | Some f => call_dtor f (offset v (wsub (v_size v) 1)) (v_esz v)
     end) ;;;
    vmaybe_shrink (set_size v (wsub (v_size v) 1)).

  (** The initialiser loop of ResizeEx, src/Vector.c:780-783. *)
  Fixpoint init_loop (v : vec) (first : N) (initializer : option ptr) (n : nat) : M unit :=
    match n with
    | O => ret tt
    | S n => memcpy (offset v first) initializer (v_esz v) ;;; init_loop v (wadd first 1) initializer n
    end.

  (** ZyanVectorResizeEx, src/Vector.c:752-789. *)
  Definition vresize_ex (v : vec) (size : N) (initializer : option ptr) : M (status * vec) :=
    if size =? v_size v then ret (ST_SUCCESS, v) else
    (if size <? v_size v then destroy_range v size (v_size v) else ret tt) ;;;
    let* (st, v) :=
      (if should_grow size (v_cap v) || should_shrink size (v_cap v) (v_shrink v)
       then assert (1 <=? v_growth v) ;;; vreallocate v (wmul size (v_growth v))
       else ret (ST_SUCCESS, v)) in
    if negb (st_success st) then ret (st, v) else
    (if nonnull initializer && (v_size v <? size)
     then init_loop v (v_size v) initializer (N.to_nat (size - v_size v))
     else ret tt) ;;;
    ret (ST_SUCCESS, set_size v size).

  (** ZyanVectorResize, src/Vector.c:747-750. *)
  Definition vresize (v : vec) (size : N) : M (status * vec) := vresize_ex v size None.
  (** ZyanVectorClear, src/Vector.c:633-636. *)
  Definition vclear (v : vec) : M (status * vec) := vresize_ex v 0 None.

  (** ZyanVectorReserve, src/Vector.c:791-804. *)
  Definition vreserve (v : vec) (capacity : N) : M (status * vec) :=
    if v_cap v <? capacity then vreallocate v capacity else ret (ST_SUCCESS, v).
  (** ZyanVectorShrinkToFit, src/Vector.c:806-814. *)
  Definition vshrink_to_fit (v : vec) : M (status * vec) := vreallocate v (v_size v).

  (** ZyanVectorGetCapacity, src/Vector.c:820-830; ZyanVectorGetSize, src/Vector.c:832-842. *)
  Definition vget_capacity (v : vec) : status * N := (ST_SUCCESS, v_cap v).
  Definition vget_size (v : vec) : status * N := (ST_SUCCESS, v_size v).

  (** The search loop of ZyanVectorFindEx, src/Vector.c:674-681.  The comparison callback sees the
      bytes of the element and of the key ([esz] cells each). *)
  Fixpoint find_loop (v : vec) (element : option ptr) (cmp : list C -> list C -> bool) (i : N)
      (n : nat) : M (option N) :=
    match n with
    | O => ret None
    | S n =>
        let* x := mread (offset v i) (v_esz v) in
        let* y := mread element (v_esz v) in
        if cmp x y then ret (Some i) else find_loop v element cmp (wadd i 1) n
    end.

  (** ZyanVectorFindEx, src/Vector.c:653-685.  [None] as found index stands for -1.  On
      OUT_OF_RANGE the out-parameter is not written. *)
  Definition vfind_ex (v : vec) (element : option ptr) (cmp : list C -> list C -> bool)
      (index count : N) : M (status * option N) :=
    if (v_size v <? wadd index count) || (index =? v_size v) then ret (ST_OUT_OF_RANGE, None) else
    if count =? 0 then ret (ST_FALSE, None) else
    assert_valid v ;;;
    let* r := find_loop v element cmp index (N.to_nat (wadd index count - index)) in
    match r with
    | Some i => ret (ST_TRUE, Some i)
    | None => ret (ST_FALSE, None)
    end.

  (** ZyanVectorFind, src/Vector.c:642-651. *)
  Definition vfind (v : vec) (element : option ptr) (cmp : list C -> list C -> bool)
      : M (status * option N) := vfind_ex v element cmp 0 (v_size v).

  (** Conversion of a ZyanUSize to ZyanISize. *)
  Definition to_signed (n : N) : Z :=
    if n <? 9223372036854775808 then Z.of_N n else (Z.of_N n - Z.of_N W64)%Z.

  (** The loop of ZyanVectorBinarySearchEx, src/Vector.c:722-737, with [l], [h] as signed
      integers.  Fuel: the interval shrinks in every iteration. *)
  Fixpoint bs_loop (v : vec) (element : option ptr) (cmp : list C -> list C -> Z) (l h : Z)
      (st : status) (fuel : nat) : M (status * N) :=
    if (l <=? h)%Z then
      match fuel with
      | O => fail OutOfFuel
      | S fuel =>
          let mid := (l + (h - l) / 2)%Z in
          let* x := mread (offset v (Z.to_N mid)) (v_esz v) in
          let* y := mread element (v_esz v) in
          let c := cmp x y in
          if (c <? 0)%Z then bs_loop v element cmp (mid + 1) h st fuel
          else bs_loop v element cmp l (mid - 1) (if (c =? 0)%Z then ST_TRUE else st) fuel
      end
    else ret (st, Z.to_N l).

  (** ZyanVectorBinarySearchEx, src/Vector.c:698-741.  [None]: out-parameter not written. *)
  Definition vbinary_search_ex (v : vec) (element : option ptr) (cmp : list C -> list C -> Z)
      (index count : N) : M (status * option N) :=
    if ((v_size v <=? index) && (0 <? count)) || (v_size v <? wadd index count)
    then ret (ST_OUT_OF_RANGE, None) else
    if count =? 0 then ret (ST_FALSE, Some index) else
    assert_valid v ;;;
    let* (st, l) := bs_loop v element cmp (to_signed index)
                            (to_signed (wsub (wadd index count) 1)) ST_FALSE (N.to_nat count) in
    ret (st, Some l).

  (** ZyanVectorBinarySearch, src/Vector.c:687-696. *)
  Definition vbinary_search (v : vec) (element : option ptr) (cmp : list C -> list C -> Z)
      : M (status * option N) := vbinary_search_ex v element cmp 0 (v_size v).
End Vector.

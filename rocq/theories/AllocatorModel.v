(** The default allocator, src/Allocator.c:40-130, on top of malloc, realloc and free. *)
From Verif Require Import Base Status Mem.

Section Allocator.
  Context {C : Type}.

  (** malloc: the system (oracle) refuses, or hands out a fresh block of the requested size. *)
  Definition malloc (size : N) : M C (option ptr) := fun w =>
    match orc w (tick w) with
    | AFail _ => Ok None (mkbuild (heap w) (nextb w) (orc w) (tick w + 1) (dlog w) (checked w))
    | AOk fill =>
        Ok (Some (mkptr (nextb w) 0))
           (mkbuild (hset (heap w) (nextb w) (Some (fresh fill size)))
                    (nextb w + 1) (orc w) (tick w + 1) (dlog w) (checked w))
    end.
  (** realloc of a live block: for size 0 the block is released and NULL returned (glibc); otherwise the system
      refuses and the block is unchanged, or the data moves to a fresh block of the new size. *)
  Definition c_realloc (p : option ptr) (size : N) : M C (option ptr) := fun w =>
    match p with
    | None => malloc size w
    | Some q =>
        match heap w (pb q) with
        | None => Fault UseAfterFree
        | Some buf =>
            if negb (po q =? 0) then Fault UseAfterFree
            else if size =? 0 then Ok None (set_heap w (hset (heap w) (pb q) None))
            else match orc w (tick w) with
            | AFail _ => Ok None (mkbuild (heap w) (nextb w) (orc w) (tick w + 1) (dlog w) (checked w))
            | AOk fill =>
                Ok (Some (mkptr (nextb w) 0))
                   (mkbuild (hset (hset (heap w) (pb q) None) (nextb w)
                               (Some (nfirst size buf ++ nskip (nlen buf) (fresh fill size))))
                            (nextb w + 1) (orc w) (tick w + 1) (dlog w) (checked w))
            end
        end
    end.
  (** free. *)
  Definition c_free (p : option ptr) : M C unit := fun w =>
    match p with
    | None => Ok tt w
    | Some q =>
        match heap w (pb q) with
        | None => Fault UseAfterFree
        | Some _ => if negb (po q =? 0) then Fault UseAfterFree
                    else Ok tt (set_heap w (hset (heap w) (pb q) None))
        end
    end.

  (** ZyanAllocatorDefaultAllocate, src/Allocator.c:40-57; [allocator] and [p] are valid pointers.  Returns the
      status and the new value of [*p]. *)
  Definition default_allocate (element_size n : N) : M C (status * option ptr) :=
    assert (negb (element_size =? 0)) ;;;
    assert (negb (n =? 0)) ;;;
    let* p := malloc (wmul element_size n) in
    match p with
    | None => ret (ST_NOT_ENOUGH_MEMORY, None)
    | Some _ => ret (ST_SUCCESS, p)
    end.
  (** ZyanAllocatorDefaultReallocate, src/Allocator.c:59-77; [p] is the value of [*p]. *)
  Definition default_reallocate (p : option ptr) (element_size n : N) : M C (status * option ptr) :=
    assert (negb (element_size =? 0)) ;;;
    assert (negb (n =? 0)) ;;;
    let* x := c_realloc p (wmul element_size n) in
    match x with
    | None => ret (ST_NOT_ENOUGH_MEMORY, p)
    | Some _ => ret (ST_SUCCESS, x)
    end.
  (** ZyanAllocatorDefaultDeallocate, src/Allocator.c:79-94. *)
  Definition default_deallocate (p : option ptr) (element_size n : N) : M C status :=
    assert (match p with Some _ => true | None => false end) ;;;
    assert (negb (element_size =? 0)) ;;;
    assert (negb (n =? 0)) ;;;
    c_free p ;;;
    ret ST_SUCCESS.
End Allocator.

(** ZyanAllocatorInit, src/Allocator.c:104-117: which of the four pointers are non-null, the callbacks stored. *)
Definition allocator_init {F : Type} (allocator : bool) (allocate reallocate deallocate : option F)
  : status * option (F * F * F) :=
  if negb allocator then (ST_INVALID_ARGUMENT, None)
  else match allocate, reallocate, deallocate with
       | Some a, Some r, Some d => (ST_SUCCESS, Some (a, r, d))
       | _, _, _ => (ST_INVALID_ARGUMENT, None)
       end.

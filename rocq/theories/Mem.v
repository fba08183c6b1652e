(** The world the modelled C code runs in: memory blocks, allocator oracle, destructor log.
    No proofs here. *)
From Verif Require Import Base Status.

(** Undefined behaviour and failing assertions are distinct outcomes. *)
Inductive fault :=
| OutOfBounds      (* access outside a live block *)
| UseAfterFree     (* access to / release of a block that is not live *)
| NullDeref
| Overlapping      (* memcpy on overlapping ranges *)
| BadPointer       (* memory that holds no pointer is used as one *)
| AssertFailed     (* a ZYAN_ASSERT that does not hold *)
| OutOfFuel.       (* model-only: a loop exceeded its fuel *)

(** A pointer: block identifier and byte offset.  NULL is [None] of [option ptr]. *)
Record ptr := mkptr { pb : N; po : N }.

(** Answer of the allocator to one request: an error status, or success together with the
    (arbitrary) contents of the fresh memory. *)
Inductive aresp (C : Type) :=
| AFail (st : N)
| AOk (fill : N -> C).
Arguments AFail {C}. Arguments AOk {C}.

Record world (C : Type) := mkbuild {
  heap  : N -> option (list C);   (* live blocks *)
  nextb : N;                      (* next fresh block identifier *)
  orc   : N -> aresp C;           (* answers to the allocator requests, by request number *)
  tick  : N;                      (* number of allocator requests so far *)
  dlog  : list (list C);          (* elements passed to the destructor callback, oldest first *)
  checked : bool                  (* assertions are compiled in (debug build) or not (release build) *)
}.
Arguments heap {C}. Arguments nextb {C}. Arguments orc {C}. Arguments tick {C}.
Arguments dlog {C}. Arguments checked {C}. Arguments mkbuild {C}.
(** A debug build. *)
Definition mkworld {C : Type} (h : N -> option (list C)) (n : N) (o : N -> aresp C) (t : N) (d : list (list C))
  : world C := mkbuild h n o t d true.

(** The same memory and allocator in a release build, in which assertions are compiled out. *)
Definition release {C : Type} (w : world C) : world C :=
  mkbuild (heap w) (nextb w) (orc w) (tick w) (dlog w) false.

Inductive res (C A : Type) :=
| Ok (a : A) (w : world C)
| Fault (f : fault).
Arguments Ok {C A}. Arguments Fault {C A}.

Definition M (C A : Type) := world C -> res C A.

Section Mem.
  Context {C : Type}.

  Definition ret {A} (a : A) : M C A := fun w => Ok a w.
  Definition fail {A} (f : fault) : M C A := fun _ => Fault f.
  Definition bind {A B} (m : M C A) (k : A -> M C B) : M C B := fun w =>
    match m w with
    | Ok a w' => k a w'
    | Fault f => Fault f
    end.

  (** ZYAN_ASSERT, include/Zycore/Defines.h:275-283: aborts the program in debug builds and does nothing in release
      builds (NDEBUG or ZYAN_NO_LIBC). *)
  Definition assert (b : bool) : M C unit :=
    if b then ret tt else fun w => if checked w then Fault AssertFailed else Ok tt w.

  Definition hset (h : N -> option (list C)) (b : N) (x : option (list C)) : N -> option (list C) :=
    fun b' => if b' =? b then x else h b'.

  Definition set_heap (w : world C) (h : N -> option (list C)) : world C :=
    mkbuild h (nextb w) (orc w) (tick w) (dlog w) (checked w).

  (** Load [n] cells. *)
  Definition mread (p : option ptr) (n : N) : M C (list C) := fun w =>
    match p with
    | None => Fault NullDeref
    | Some p =>
        match heap w (pb p) with
        | None => Fault UseAfterFree
        | Some buf =>
            if po p + n <=? nlen buf then Ok (nsub (po p) n buf) w else Fault OutOfBounds
        end
    end.

  (** Store cells. *)
  Definition mwrite (p : option ptr) (x : list C) : M C unit := fun w =>
    match p with
    | None => Fault NullDeref
    | Some p =>
        match heap w (pb p) with
        | None => Fault UseAfterFree
        | Some buf =>
            if po p + nlen x <=? nlen buf
            then Ok tt (set_heap w (hset (heap w) (pb p) (Some (nsplice (po p) x buf))))
            else Fault OutOfBounds
        end
    end.

  (** Two [n]-cell ranges overlap. *)
  Definition overlap (p q : option ptr) (n : N) : bool :=
    match p, q with
    | Some p, Some q => (pb p =? pb q) && (po p <? po q + n) && (po q <? po p + n) && (0 <? n)
    | _, _ => false
    end.

  (** ZYAN_MEMMOVE. *)
  Definition memmove (dst src : option ptr) (n : N) : M C unit :=
    bind (mread src n) (fun x => mwrite dst x).
  (** ZYAN_MEMCPY: undefined for overlapping ranges. *)
  Definition memcpy (dst src : option ptr) (n : N) : M C unit :=
    if overlap dst src n then fail Overlapping else memmove dst src n.

  (** Fresh memory as handed out by an allocator. *)
  Definition fresh (fill : N -> C) (n : N) : list C :=
    map (fun k => fill (N.of_nat k)) (seq 0 (N.to_nat n)).

  (** An arbitrary status that has the error bit set. *)
  Definition err_status (st : N) : status := 2147483648 + st mod 2147483648.

  (** [allocator->allocate(&p, element_size, n)]: modelled after ZyanAllocatorDefaultAllocate,
      src/Allocator.c:40-57, with malloc replaced by the oracle.  The request size
      [element_size * n] wraps.  On failure the default allocator stores NULL in [*p]. *)
  Definition alloc (esz n : N) : M C (status * option ptr) := fun w =>
    if ((esz =? 0) || (n =? 0)) && checked w then Fault AssertFailed else
    match orc w (tick w) with
    | AFail st =>
        Ok (err_status st, None)
           (mkbuild (heap w) (nextb w) (orc w) (tick w + 1) (dlog w) (checked w))
    | AOk fill =>
        Ok (ST_SUCCESS, Some (mkptr (nextb w) 0))
           (mkbuild (hset (heap w) (nextb w) (Some (fresh fill (wmul esz n))))
                    (nextb w + 1) (orc w) (tick w + 1) (dlog w) (checked w))
    end.

  (** [allocator->reallocate(&p, element_size, n)]: ZyanAllocatorDefaultReallocate,
      src/Allocator.c:59-77.  Success always moves the data to a fresh block and releases the old one
      (the most adversarial behaviour realloc may show); failure keeps the old block. *)
  Definition realloc (p : option ptr) (esz n : N) : M C (status * option ptr) := fun w =>
    if ((esz =? 0) || (n =? 0)) && checked w then Fault AssertFailed else
    match p with
    | None => Fault NullDeref
    | Some q =>
        match heap w (pb q) with
        | None => Fault UseAfterFree
        | Some buf =>
            if negb (po q =? 0) then Fault UseAfterFree else
            match orc w (tick w) with
            | AFail st =>
                Ok (err_status st, p)
                   (mkbuild (heap w) (nextb w) (orc w) (tick w + 1) (dlog w) (checked w))
            | AOk fill =>
                let n' := wmul esz n in
                let buf' := nfirst n' buf ++ nskip (nlen buf) (fresh fill n') in
                Ok (ST_SUCCESS, Some (mkptr (nextb w) 0))
                   (mkbuild (hset (hset (heap w) (pb q) None) (nextb w) (Some buf'))
                            (nextb w + 1) (orc w) (tick w + 1) (dlog w) (checked w))
            end
        end
    end.

  (** [allocator->deallocate(p, element_size, n)]: ZyanAllocatorDefaultDeallocate,
      src/Allocator.c:79-94.  Releasing a block twice, or the inside of a block, faults. *)
  Definition dealloc (p : option ptr) (esz n : N) : M C status := fun w =>
    if ((esz =? 0) || (n =? 0)) && checked w then Fault AssertFailed else
    match p with
    | None => if checked w then Fault AssertFailed else Ok ST_SUCCESS w
    | Some q =>
        match heap w (pb q) with
        | None => Fault UseAfterFree
        | Some _ =>
            if negb (po q =? 0) then Fault UseAfterFree
            else Ok ST_SUCCESS (set_heap w (hset (heap w) (pb q) None))
        end
    end.

  (** Call of a destructor callback ([ZyanMemberProcedure], include/Zycore/Object.h:51) on the element
      of [esz] cells at [p]: the call is logged with the element it sees, and may change the element. *)
  Definition call_dtor (f : list C -> list C) (p : option ptr) (esz : N) : M C unit := fun w =>
    match mread p esz w with
    | Fault e => Fault e
    | Ok x w => mwrite p (f x) (mkbuild (heap w) (nextb w) (orc w) (tick w) (dlog w ++ [x]) (checked w))
    end.

  (** Pointer arithmetic on a byte pointer. *)
  Definition padd (p : option ptr) (d : N) : option ptr :=
    match p with
    | None => None
    | Some q => Some (mkptr (pb q) (po q + d))
    end.
End Mem.

Notation "'let*' x ':=' m 'in' k" := (bind m (fun x => k))
  (at level 200, x pattern, m at level 100, k at level 200, right associativity).
Notation "m ';;;' k" := (bind m (fun _ => k))
  (at level 199, k at level 200, right associativity).

(** A vector whose elements own memory: the client, and what it expects.  No proofs here.

    Every element stands for an object with memory of its own, as a ZyanString or an allocated pointer does: the element names
    a block, and the destructor of the vector releases that block (for strings: ZyanStringDestroy, src/String.c:106-118). *)
From Verif Require Import Base Status Mem VectorModel VectorSpec VectorDriver OwnModel.

Section Client.
  Context {C : Type}.
  Notation vec := (vector C).
  Notation M := (M C).
  (** The element that names a block, and the block an element names. *)
  Variables (e : N) (name : N -> list C) (own : list C -> N).

  (** Names are elements and can be read back. *)
  Definition names_ok : Prop := (forall b, nlen (name b) = e) /\ (forall b, own (name b) = b).

  (** The destructor: reads the element and releases the block it names. *)
  Definition release (p : option ptr) : M unit :=
    let* x := mread p e in
    let* _ := dealloc (Some (mkptr (own x) 0)) 1 1 in
    ret tt.

  (** A new object with the given contents, in a block of its own. *)
  Definition new_object (buf : list C) : M N := fun w =>
    Ok (nextb w) (mkbuild (hset (heap w) (nextb w) (Some buf)) (nextb w + 1) (orc w) (tick w) (dlog w) (checked w)).
  (** An object that no vector took is released by the client. *)
  Definition unless_taken (b : N) (rv : status * vec) : M (status * vec) :=
    if st_success (fst rv) then ret rv else let* _ := dealloc (Some (mkptr b 0)) 1 1 in ret rv.

  (** The calls of the client. [WEmplace i]: EmplaceEx with a constructor that stores the element.  [WSwap i j]: SwapElements
      after a Reserve that makes room for the element it needs.  [WShorten n]: Resize to [n] unless the vector is shorter. *)
  Inductive wop :=
  | WPush (buf : list C)
  | WInsert (i : N) (buf : list C)
  | WEmplace (i : N) (buf : list C)
  | WSwap (i j : N)
  | WSet (i : N) (buf : list C)
  | WDelete (i n : N)
  | WPop
  | WClear
  | WShorten (n : N)
  | WReserve (n : N)
  | WShrinkToFit.

  Definition run_wop (v : vec) (o : wop) : M (status * vec) :=
    match o with
    | WPush buf => let* b := new_object buf in let* rv := run_op v (OPushBack (name b)) in unless_taken b rv
    | WInsert i buf => let* b := new_object buf in let* rv := run_op v (OInsert i (name b)) in unless_taken b rv
    | WEmplace i buf =>
        let* b := new_object buf in let* rv := run_op v (OEmplaceEx i (Some (fun _ => (ST_SUCCESS, name b)))) in unless_taken b rv
    | WSwap i j => let* (r, v) := vreserve v (snd (vget_size v) + 1) in if st_success r then vswap v i j else ret (r, v)
    | WSet i buf => let* b := new_object buf in let* rv := with_arg (name b) (fun p => oset release v i p) in unless_taken b rv
    | WDelete i n => odelete_range release v i n
    | WPop => opop_back release v
    | WClear => oclear release v
    | WShorten n => oresize release v (N.min n (snd (vget_size v)))
    | WReserve n => vreserve v n
    | WShrinkToFit => vshrink_to_fit v
    end.
  Fixpoint run_wops (v : vec) (ops : list wop) : M (list status * vec) :=
    match ops with
    | [] => ret ([], v)
    | o :: ops =>
        let* (r, v1) := run_wop v o in
        let* (rs, v2) := run_wops v1 ops in
        ret (r :: rs, v2)
    end.

  (** The object at an index: Get, the element, and the contents of the block it names. *)
  Definition read_object (v : vec) (i : N) : M (option (list C)) :=
    let* x := read_elem v i in
    match x with
    | None => ret None
    | Some x => fun w => match heap w (own x) with Some buf => Ok (Some buf) w | None => Fault UseAfterFree end
    end.
  (** The vector shows the objects with the contents [l]. *)
  Definition owns (w : world C) (v : vec) (l : list (list C)) : Prop :=
    vget_size v = (ST_SUCCESS, nlen l) /\ forall i, read_object v i w = Ok (nnth i l) w.

  (** ** Specification: a list of contents *)
  Definition wspec (o : wop) (l : list (list C)) : status * list (list C) :=
    match o with
    | WPush buf => (ST_SUCCESS, l ++ [buf])
    | WInsert i buf => if nlen l <? i then (ST_OUT_OF_RANGE, l) else (ST_SUCCESS, nfirst i l ++ [buf] ++ nskip i l)
    | WEmplace i buf => if nlen l <? i then (ST_OUT_OF_RANGE, l) else (ST_SUCCESS, nfirst i l ++ [buf] ++ nskip i l)
    | WSwap i j => if (nlen l <=? i) || (nlen l <=? j) then (ST_OUT_OF_RANGE, l) else (ST_SUCCESS, lswap i j l)
    | WSet i buf => if nlen l <=? i then (ST_OUT_OF_RANGE, l) else (ST_SUCCESS, nfirst i l ++ [buf] ++ nskip (i + 1) l)
    | WDelete i n =>
        if n =? 0 then (ST_INVALID_ARGUMENT, l)
        else if nlen l <? i + n then (ST_OUT_OF_RANGE, l)
        else (ST_SUCCESS, nfirst i l ++ nskip (i + n) l)
    | WPop => if nlen l =? 0 then (ST_OUT_OF_RANGE, l) else (ST_SUCCESS, nfirst (nlen l - 1) l)
    | WClear => (ST_SUCCESS, [])
    | WShorten n => (ST_SUCCESS, nfirst n l)
    | WReserve _ | WShrinkToFit => (ST_SUCCESS, l)
    end.
  Fixpoint wspecs (ops : list wop) (l : list (list C)) : list status * list (list C) :=
    match ops with
    | [] => ([], l)
    | o :: ops => let (r, l1) := wspec o l in let (rs, l2) := wspecs ops l1 in (r :: rs, l2)
    end.

  (** In a buffer of [cap] elements: a call that needs more room is refused and changes nothing. *)
  Definition wfull (cap : N) (o : wop) (l : list (list C)) : bool :=
    match o with
    | WPush _ | WSwap _ _ => cap <? nlen l + 1
    | WInsert i _ | WEmplace i _ => (i <=? nlen l) && (cap <? nlen l + 1)
    | WReserve n => cap <? n
    | _ => false
    end.
  Definition wbspec (cap : N) (o : wop) (l : list (list C)) : status * list (list C) :=
    if wfull cap o l then (ST_INSUFFICIENT_BUFFER_SIZE, l) else wspec o l.
  Fixpoint wbspecs (cap : N) (ops : list wop) (l : list (list C)) : list status * list (list C) :=
    match ops with
    | [] => ([], l)
    | o :: ops => let (r, l1) := wbspec cap o l in let (rs, l2) := wbspecs cap ops l1 in (r :: rs, l2)
    end.

  (** The calls that ask the allocator for a block, in a growable vector with the shrink threshold [s] and room for [cap]
      elements; Resize and Clear are left out. *)
  Definition wasks (s cap : N) (o : wop) (l : list (list C)) : bool :=
    let too_big n := negb (s =? 0) && (n * s <? cap) in
    match o with
    | WDelete i n => (0 <? n) && (i + n <=? nlen l) && too_big (nlen l - n)
    | WPop => (0 <? nlen l) && too_big (nlen l - 1)
    | WShrinkToFit => (1 <=? nlen l) || (1 <? cap)
    | _ => wfull cap o l
    end.
  (** The objects that are left when the allocator refuses: a deletion has taken place, any other call changes nothing. *)
  Definition wkept (o : wop) (l : list (list C)) : list (list C) :=
    match o with WDelete _ _ | WPop => snd (wspec o l) | _ => l end.

  (** [index + count] of a deletion does not wrap around, and no element is exchanged with itself; the number of elements a call may ask room for. *)
  Definition warg_ok (o : wop) : Prop := match o with WDelete i n => i + n < W64 | WSwap i j => i <> j | _ => True end.
  Definition wdemand (o : wop) : N := match o with WPush _ | WInsert _ _ | WEmplace _ _ | WSwap _ _ => 1 | WReserve n => n | _ => 0 end.
  Fixpoint wdemands (ops : list wop) : N := match ops with [] => 0 | o :: ops => wdemand o + wdemands ops end.
End Client.
Arguments WPush {C}. Arguments WInsert {C}. Arguments WEmplace {C}. Arguments WSwap {C}. Arguments WSet {C}. Arguments WDelete {C}. Arguments WPop {C}. Arguments WClear {C}.
Arguments WShorten {C}. Arguments WReserve {C}. Arguments WShrinkToFit {C}.

(** Client programs of the vector: how a caller drives the modelled functions.  No proofs here. *)
From Verif Require Import Base Status Mem VectorModel VectorSpec.

Section Driver.
  Context {C : Type}.
  Notation vec := (vector C).

  (** The caller keeps the cells [x] in memory of its own while [k] runs. *)
  Definition with_arg {A} (x : list C) (k : option ptr -> M C A) : M C A := fun w =>
    let b := nextb w in
    match k (Some (mkptr b 0))
            (mkbuild (hset (heap w) b (Some x)) (b + 1) (orc w) (tick w) (dlog w) (checked w)) with
    | Ok a w' => Ok a (set_heap w' (hset (heap w') b None))
    | Fault f => Fault f
    end.

  (** One API call. *)
  Definition run_op (v : vec) (o : vop C) : M C (status * vec) :=
    match o with
    | OPushBack x => with_arg x (fun p => vpush_back v p)
    | OInsert i x => with_arg x (fun p => vinsert v i p)
    | OInsertRange i xs => with_arg (concat xs) (fun p => vinsert_range v i p (nlen xs))
    | OEmplace ctor => let* (r, v', _) := vemplace v ctor in ret (r, v')
    | OEmplaceEx i ctor => let* (r, v', _) := vemplace_ex v i ctor in ret (r, v')
    | OSet i x => with_arg x (fun p => vset v i p)
    | OSwap i j => vswap v i j
    | ODelete i => vdelete v i
    | ODeleteRange i n => vdelete_range v i n
    | OPopBack => vpop_back v
    | OClear => vclear v
    | OResize n => vresize v n
    | OResizeEx n x => with_arg x (fun p => vresize_ex v n p)
    | OReserve n => vreserve v n
    | OShrinkToFit => vshrink_to_fit v
    end.

  Fixpoint run_ops (v : vec) (ops : list (vop C)) : M C (list status * vec) :=
    match ops with
    | [] => ret ([], v)
    | o :: ops =>
        let* (r, v1) := run_op v o in
        let* (rs, v2) := run_ops v1 ops in
        ret (r :: rs, v2)
    end.

  (** Reading element [i] back: ZyanVectorGet, then dereference. *)
  Definition read_elem (v : vec) (i : N) : M C (option (list C)) :=
    let* p := vget v i in
    match p with
    | None => ret None
    | Some _ => let* x := mread p (v_esz v) in ret (Some x)
    end.

  (** Arguments a caller may pass: elements have the element size, constructors succeed and stay
      inside the element, the indices of a swap differ, and [index + count] of a deletion does not
      wrap around. *)
  Definition arg_ok (e : N) (o : vop C) : Prop :=
    let ctor_ok ctor :=
      match ctor with
      | None => True
      | Some f => forall x : list C, nlen x = e ->
          st_success (fst (f x)) = true /\ nlen (snd (f x) : list C) = e
      end in
    match o with
    | OPushBack x | OInsert _ x | OSet _ x | OResizeEx _ x => nlen x = e
    | OInsertRange _ xs => Forall (fun x => nlen x = e) xs
    | OEmplace ctor | OEmplaceEx _ ctor => ctor_ok ctor
    | OSwap i j => i <> j
    | ODelete i => i + 1 < W64
    | ODeleteRange i n => i + n < W64
    | _ => True
    end.

  (** Number of elements a call may ask room for. *)
  Definition demand (o : vop C) : N :=
    match o with
    | OPushBack _ | OInsert _ _ | OEmplace _ | OEmplaceEx _ _ => 1
    | OInsertRange _ xs => nlen xs
    | OResize n | OResizeEx n _ | OReserve n => n
    | _ => 0
    end.
  Fixpoint demands (ops : list (vop C)) : N :=
    match ops with [] => 0 | o :: ops => demand o + demands ops end.

  (** A world in which identifiers not handed out yet are not live. *)
  Definition world_ok (w : world C) : Prop := forall b, nextb w <= b -> heap w b = None.
  (** The allocator never fails. *)
  Definition allocator_ok (w : world C) : Prop := forall t, exists fill, orc w t = AOk fill.
  (** A destructor that stays inside the element. *)
  Definition dtor_ok (e : N) (d : option (list C -> list C)) : Prop :=
    match d with None => True | Some f => forall x, nlen x = e -> nlen (f x) = nlen x end.

  (** [n] elements of [e] cells, times the largest growth factor, fit into the address space. *)
  Definition room (n e : N) : Prop := n * 256 * e < W64.

  (** What the API shows of a vector: GetSize, and every index read through Get. *)
  Definition shows (w : world C) (v : vec) (xs : list (list C)) : Prop :=
    vget_size v = (ST_SUCCESS, nlen xs) /\ forall i, read_elem v i w = Ok (nnth i xs) w.

  (** Legal parameters of ZyanVectorInitEx in a world whose allocator works. *)
  Definition init_args_ok (w : world C) (e cap : N) (d : option (list C -> list C)) (g s : N) : Prop :=
    world_ok w /\ allocator_ok w /\ 1 <= e /\ dtor_ok e d /\ 1 <= g < 256 /\ s < 256 /\
    N.max 1 cap * e < W64.
  (** Legal parameters of ZyanVectorInitCustomBuffer: the caller's block [b] holds [pre], then the
      buffer of [cap] elements, then [post]. *)
  Definition buffer_args_ok (w : world C) (e cap : N) (d : option (list C -> list C)) (b : N)
      (pre buf post : list C) : Prop :=
    world_ok w /\ heap w b = Some (pre ++ buf ++ post) /\ nlen buf = cap * e /\ 1 <= e /\ 1 <= cap /\
    cap * e < W64 /\ dtor_ok e d.

  (** A growable vector in a state reached by some history of calls, holding [xs]. *)
  Definition reached_own (w : world C) (v : vec) (xs : list (list C)) : Prop :=
    exists w0 e cap d g s v0 w1 ops rs,
      init_args_ok w0 e cap d g s /\ Forall (arg_ok e) ops /\ room (demands ops) e /\
      vinit_ex e cap d true g s w0 = Ok (ST_SUCCESS, Some v0) w1 /\
      run_ops v0 ops w1 = Ok (rs, v) w /\ shows w v xs.
  (** A vector on a caller-supplied buffer in a state reached by some history of calls. *)
  Definition reached_buf (w : world C) (v : vec) (xs : list (list C)) : Prop :=
    exists w0 e cap d b pre buf post v0 w1 ops rs,
      buffer_args_ok w0 e cap d b pre buf post /\ Forall (arg_ok e) ops /\ room (demands ops) e /\
      vinit_custom e (Some (mkptr b (nlen pre))) cap d w0 = Ok (ST_SUCCESS, Some v0) w1 /\
      run_ops v0 ops w1 = Ok (rs, v) w /\ shows w v xs.
  Definition reached (w : world C) (v : vec) (xs : list (list C)) : Prop :=
    reached_own w v xs \/ reached_buf w v xs.

  (** The same world with another allocator behaviour from now on. *)
  Definition with_oracle (w : world C) (o : N -> aresp C) : world C :=
    mkbuild (heap w) (nextb w) o (tick w) (dlog w) (checked w).

  (** A whole program: initialise, run the calls. *)
  Definition start_ops (e cap : N) (d : option (list C -> list C)) (g s : N) (ops : list (vop C))
      : M C (list status * vec) :=
    let* (st, ov) := vinit_ex e cap d true g s in
    match ov with
    | None => fail NullDeref
    | Some v => run_ops v ops
    end.

  (** All elements, read through the API. *)
  Fixpoint read_from (v : vec) (i : N) (n : nat) : M C (list (option (list C))) :=
    match n with
    | O => ret []
    | S n => let* x := read_elem v i in let* xs := read_from v (i + 1) n in ret (x :: xs)
    end.
  Definition read_all (v : vec) : M C (list (option (list C))) :=
    read_from v 0 (N.to_nat (snd (vget_size v))).
  (** The elements destroyed so far. *)
  Definition read_log : M C (list (list C)) := fun w => Ok (dlog w) w.

  (** The result of a program without the final world. *)
  Definition result {A} (r : res C A) : fault + A :=
    match r with Ok a _ => inr a | Fault f => inl f end.
End Driver.

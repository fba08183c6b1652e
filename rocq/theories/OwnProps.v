(** Vectors whose elements own memory (C115).  Statements only. *)
From Verif Require Import Base Status Mem VectorModel VectorSpec VectorDriver VectorExamples RefuseSpec
  OwnModel OwnDriver OwnSame OwnProofs OwnProofs2 OwnBuffer OwnRefuse OwnExamples.
From Coq Require Import ZifyBool ZifyNat ZifyN.

(** C115.  A vector of objects with memory of their own, released by the destructor.  For every program of calls: the vector
    shows the objects the specification lists, so none of them was released; the blocks alive besides those from before are the
    buffer and one for each object in the vector, so every other object was released, and none twice, as that is a fault;
    Destroy releases all that is left. *)
Theorem c115_owners :
  forall (C : Type) e (name : N -> list C) own, names_ok e name own ->
  forall (w0 : world C) cap g s (ops : list wop),
    init_args_ok w0 e cap None g s -> Forall warg_ok ops -> room (wdemands ops) e ->
    exists v0 w1 v w, vinit_ex e cap None true g s w0 = Ok (ST_SUCCESS, Some v0) w1 /\
      run_wops e name own v0 ops w1 = Ok (fst (wspecs ops []), v) w /\
      owns own w v (snd (wspecs ops [])) /\
      (exists bs, NoDup bs /\ nlen bs = 1 + nlen (snd (wspecs ops [])) /\
         (forall b, In b bs -> heap w0 b = None /\ heap w b <> None) /\ forall b, ~ In b bs -> heap w b = heap w0 b) /\
      exists v' w', odestroy (release e own) v w = Ok (ST_SUCCESS, v') w' /\ forall b, heap w' b = heap w0 b.
Proof. exact @life_of_owners. Qed.
Print Assumptions c115_owners.
Example c115_owners_met :
  names_ok 2 ex_name ex_own /\ init_args_ok world0 2 4 None 2 4 /\ Forall warg_ok ex_wops /\ room (wdemands ex_wops) 2 /\
  snd (wspecs ex_wops []) = [[2; 2]; [9]; [4; 4; 4]; [8]].
Proof. split; [exact ex_names|]. split; [exact ex_own_init|]. split; [exact ex_wops_args|]. split; [exact ex_wops_room|reflexivity]. Qed.

(** The same in a buffer of the caller, whatever the allocator answers.  An object for which there is no room is refused, the client
    keeps it, and nothing changes; the bytes around the buffer stay as they are; Destroy releases the objects and leaves the
    buffer to the caller. *)
Theorem c115_owners_buffer :
  forall (C : Type) e (name : N -> list C) own, names_ok e name own ->
  forall (w0 : world C) cap b pre buf post (ops : list wop),
    buffer_args_ok w0 e cap None b pre buf post -> Forall warg_ok ops -> room (wdemands ops) e ->
    exists v0 w1 v w, vinit_custom e (Some (mkptr b (nlen pre))) cap None w0 = Ok (ST_SUCCESS, Some v0) w1 /\
      run_wops e name own v0 ops w1 = Ok (fst (wbspecs cap ops []), v) w /\
      owns own w v (snd (wbspecs cap ops [])) /\
      (exists bs buf', NoDup bs /\ nlen bs = nlen (snd (wbspecs cap ops [])) /\
         (forall x, In x bs -> heap w0 x = None /\ heap w x <> None) /\ (forall x, x <> b -> ~ In x bs -> heap w x = heap w0 x) /\
         nlen buf' = nlen buf /\ heap w b = Some (pre ++ buf' ++ post)) /\
      exists v' w' buf', odestroy (release e own) v w = Ok (ST_SUCCESS, v') w' /\ (forall x, x <> b -> heap w' x = heap w0 x) /\
        nlen buf' = nlen buf /\ heap w' b = Some (pre ++ buf' ++ post).
Proof. exact @life_in_buffer. Qed.
Print Assumptions c115_owners_buffer.
Example c115_owners_buffer_met :
  names_ok 2 ex_name ex_own /\ buffer_args_ok world_buf 2 3 None 0 [1; 1] [2; 2; 2; 2; 2; 2] [3; 3] /\ Forall warg_ok ex_wops /\
  room (wdemands ex_wops) 2 /\
  wbspecs 3 ex_wops [] =
  ([ST_SUCCESS; ST_SUCCESS; ST_SUCCESS; ST_SUCCESS; ST_INSUFFICIENT_BUFFER_SIZE; ST_SUCCESS; ST_OUT_OF_RANGE; ST_SUCCESS; ST_SUCCESS;
    ST_INSUFFICIENT_BUFFER_SIZE; ST_SUCCESS; ST_INSUFFICIENT_BUFFER_SIZE; ST_INSUFFICIENT_BUFFER_SIZE],
   [[4; 4; 4]; [9]; [8]]).
Proof.
  split; [exact ex_names|]. split; [exact ex_own_buffer|]. split; [exact ex_wops_args|]. split; [exact ex_wops_room|exact ex_own_buffer_spec].
Qed.

(** With a destructor that only changes the bytes of its element, the calls are those of the other claims about vectors. *)
Theorem c115_same_calls :
  forall (C : Type) (v : vector C) f (w : world C), v_dtor v = Some f ->
    let d := fun p => call_dtor f p (v_esz v) in
    odestroy d v w = vdestroy v w /\
    (forall i p, oset d v i p w = vset v i p w) /\
    (forall i n, odelete_range d v i n w = vdelete_range v i n w) /\
    (forall i, odelete d v i w = vdelete v i w) /\
    opop_back d v w = vpop_back v w /\
    (forall n, oresize d v n w = vresize_ex v n None w) /\
    oclear d v w = vclear v w.
Proof. exact @same_calls. Qed.
Print Assumptions c115_same_calls.
Example c115_same_calls_met : exists v w, vinit_ex 2 4 (Some (map (fun c => c + 1))) true 2 4 world0 = Ok (ST_SUCCESS, Some v) w /\
  v_dtor v = Some (map (fun c => c + 1)).
Proof. eexists _, _. split; [vm_compute; reflexivity|reflexivity]. Qed.

(** Duplicate copies the elements byte by byte: the copy and the original name the same objects.  Whenever there is one,
    destroying both vectors releases it twice. *)
Theorem c115_copies_refuted :
  forall (C : Type) e (name : N -> list C) own, names_ok e name own ->
  forall (w0 : world C) cap g s ops v0 w1 v w rs cap' g' s',
    init_args_ok w0 e cap None g s -> Forall warg_ok ops -> room (wdemands ops) e ->
    vinit_ex e cap None true g s w0 = Ok (ST_SUCCESS, Some v0) w1 -> run_wops e name own v0 ops w1 = Ok (rs, v) w ->
    snd (wspecs ops []) <> [] -> N.max 1 (N.max cap' (nlen (snd (wspecs ops [])))) * e < W64 -> 1 <= g' < 256 -> s' < 256 ->
    exists c w2 c' w3, vduplicate_ex v cap' true g' s' w = Ok (ST_SUCCESS, Some c) w2 /\
      odestroy (release e own) c w2 = Ok (ST_SUCCESS, c') w3 /\
      odestroy (release e own) v w3 = Fault UseAfterFree.
Proof. exact @copies_share. Qed.
Print Assumptions c115_copies_refuted.
Example c115_copies_met : exists v0 w1 rs v w,
  vinit_ex 2 4 None true 2 4 world0 = Ok (ST_SUCCESS, Some v0) w1 /\ run_wops 2 ex_name ex_own v0 ex_wops w1 = Ok (rs, v) w /\
  snd (wspecs ex_wops []) <> [] /\ N.max 1 (N.max 5 (nlen (snd (wspecs ex_wops [])))) * 2 < W64.
Proof.
  destruct ex_own_run as (v0 & w1 & rs & v & w & E & ER & _). exists v0, w1, rs, v, w. split; [exact E|]. split; [exact ER|].
  split; [discriminate|reflexivity].
Qed.

(** Whenever the allocator refuses the smaller block a Resize to fewer elements asks for, the objects behind the new end are
    released but stay in the vector, and Destroy releases them again. *)
Theorem c115_refused_refuted :
  forall (C : Type) e (name : N -> list C) own, names_ok e name own ->
  forall (w0 : world C) cap g s ops v0 w1 v w rs n orc' st,
    init_args_ok w0 e cap None g s -> Forall warg_ok ops -> room (wdemands ops) e ->
    vinit_ex e cap None true g s w0 = Ok (ST_SUCCESS, Some v0) w1 -> run_wops e name own v0 ops w1 = Ok (rs, v) w ->
    n < nlen (snd (wspecs ops [])) -> s <> 0 -> n * s < snd (vget_capacity v) ->
    1 <= n \/ 1 < snd (vget_capacity v) -> orc' (tick w) = AFail st ->
    exists v1 w2, oresize (release e own) v n (with_oracle w orc') = Ok (err_status st, v1) w2 /\
      vget_size v1 = (ST_SUCCESS, nlen (snd (wspecs ops []))) /\
      odestroy (release e own) v1 w2 = Fault UseAfterFree.
Proof. exact @refused_twice_s. Qed.
Print Assumptions c115_refused_refuted.
Example c115_refused_met : exists v0 w1 rs v w,
  vinit_ex 2 4 None true 2 4 world0 = Ok (ST_SUCCESS, Some v0) w1 /\ run_wops 2 ex_name ex_own v0 ex_wops w1 = Ok (rs, v) w /\
  2 < nlen (snd (wspecs ex_wops [])) /\ 2 * 4 < snd (vget_capacity v).
Proof.
  destruct ex_own_run as (v0 & w1 & rs & v & w & E & ER & _ & CP). exists v0, w1, rs, v, w. split; [exact E|]. split; [exact ER|].
  rewrite CP. split; reflexivity.
Qed.

(** Whenever the allocator refuses the request of any other call, nothing is lost and nothing is released twice: the call reports
    the error, the vector shows the objects it had, without those a deletion took out, the client has back the object it
    offered, and Destroy releases all that is left. *)
Theorem c115_refused_kept :
  forall (C : Type) e (name : N -> list C) own, names_ok e name own ->
  forall (w0 : world C) cap g s ops v0 w1 v w rs o orc' st,
    init_args_ok w0 e cap None g s -> Forall warg_ok (ops ++ [o]) -> room (wdemands (ops ++ [o])) e ->
    vinit_ex e cap None true g s w0 = Ok (ST_SUCCESS, Some v0) w1 -> run_wops e name own v0 ops w1 = Ok (rs, v) w ->
    wasks s (snd (vget_capacity v)) o (snd (wspecs ops [])) = true -> orc' (tick w) = AFail st ->
    let l := wkept o (snd (wspecs ops [])) in
    exists v1 w2, run_wop e name own v o (with_oracle w orc') = Ok (err_status st, v1) w2 /\
      owns own w2 v1 l /\
      (exists bs, NoDup bs /\ nlen bs = 1 + nlen l /\
         (forall b, In b bs -> heap w0 b = None /\ heap w2 b <> None) /\ forall b, ~ In b bs -> heap w2 b = heap w0 b) /\
      exists v' w', odestroy (release e own) v1 w2 = Ok (ST_SUCCESS, v') w' /\ forall b, heap w' b = heap w0 b.
Proof. exact @refused_kept. Qed.
Print Assumptions c115_refused_kept.
Example c115_refused_kept_met : exists v0 w1 rs v w,
  vinit_ex 2 4 None true 2 4 world0 = Ok (ST_SUCCESS, Some v0) w1 /\ run_wops 2 ex_name ex_own v0 ex_wops w1 = Ok (rs, v) w /\
  wasks 4 (snd (vget_capacity v)) (WDelete 1 2) (snd (wspecs ex_wops [])) = true /\
  wkept (WDelete 1 2) (snd (wspecs ex_wops [])) = [[2; 2]; [8]] /\
  wasks 4 (snd (vget_capacity v)) (WReserve 30) (snd (wspecs ex_wops [])) = true /\
  Forall warg_ok (ex_wops ++ [WDelete 1 2]) /\ room (wdemands (ex_wops ++ [WReserve 30])) 2.
Proof.
  destruct ex_own_run as (v0 & w1 & rs & v & w & E & ER & _ & CP). exists v0, w1, rs, v, w. split; [exact E|]. split; [exact ER|].
  rewrite CP. repeat split. apply Forall_app. split; [exact ex_wops_args|]. repeat constructor.
Qed.

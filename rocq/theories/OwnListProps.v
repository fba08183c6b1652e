(** Lists whose elements own memory (C116).  Statements only. *)
From Verif Require Import Base Status Mem VectorModel ListModel ListSpec ListDriver ListExamples OwnDriver
  OwnListModel OwnListDriver OwnListSame OwnListProofs3 OwnListExamples.
From Coq Require Import ZifyBool ZifyNat ZifyN.
Notation world := (Mem.world cell).

(** C116.  A list of objects with memory of their own, released by the destructor.  For every program of calls and whatever the
    allocator answers: the list shows the objects the specification lists, so none of them was released; the blocks alive besides
    those from before are a node and an object for each element, so every other object was released, and none twice, as that is a
    fault; Destroy releases all that is left. *)
Theorem c116_owners_growable :
  forall e name own, names_ok e name own ->
  forall (w0 : world) (ops : list qop), linit_args_ok w0 e None -> nlen ops < W64 ->
    exists l0 rs l w bufs, linit_ex e None true w0 = Ok (ST_SUCCESS, Some l0) w0 /\
      run_qops e name own l0 ops w0 = Ok (rs, l) w /\ qspecs None (fails w0) ops [] rs bufs /\
      lowns own w l bufs /\
      (exists bs, NoDup bs /\ nlen bs = 2 * nlen bufs /\
         (forall b, In b bs -> heap w0 b = None /\ heap w b <> None) /\ forall b, ~ In b bs -> heap w b = heap w0 b) /\
      exists w', oldestroy (release e own) l w = Ok (ST_SUCCESS, l) w' /\ forall b, heap w' b = heap w0 b.
Proof. exact life_of_list_owners. Qed.
Print Assumptions c116_owners_growable.
Example c116_owners_growable_met : names_ok 2 ex_lname ex_lown /\ linit_args_ok lworld 2 None /\
  linit_args_ok (lworld_failing [1]) 2 None /\ nlen ex_qops < W64.
Proof.
  split; [exact ex_lnames|]. split; [apply lworld_args; [lia|reflexivity|exact Logic.I]|].
  split; [apply lworld_failing_args; [lia|reflexivity|exact Logic.I]|reflexivity].
Qed.

(** The same for a list in a buffer of the caller, in block [b] between [pre] and [post]: the allocator plays no part, the
    caller's bytes around the buffer stay, and the blocks alive are one for each element. *)
Theorem c116_owners_buffer :
  forall e name own, names_ok e name own ->
  forall (w0 : world) cap b pre buf post (ops : list qop), lbuffer_args_ok w0 e None cap b pre buf post -> nlen ops < W64 ->
    exists l0 rs l w bufs, linit_custom e None (Some (mkptr b (nlen pre))) cap w0 = Ok (ST_SUCCESS, Some l0) w0 /\
      run_qops e name own l0 ops w0 = Ok (rs, l) w /\ qspecs (Some (nodes_in cap e)) False ops [] rs bufs /\
      lowns own w l bufs /\
      (exists bs, NoDup bs /\ nlen bs = nlen bufs /\
         (forall k, In k bs -> heap w0 k = None /\ heap w k <> None) /\ forall k, ~ In k bs -> k <> b -> heap w k = heap w0 k) /\
      exists w', oldestroy (release e own) l w = Ok (ST_SUCCESS, l) w' /\ (forall k, k <> b -> heap w' k = heap w0 k) /\
        exists buf', heap w' b = Some (pre ++ buf' ++ post) /\ nlen buf' = cap.
Proof. exact life_of_buffer_owners. Qed.
Print Assumptions c116_owners_buffer.
Example c116_owners_buffer_met : names_ok 2 ex_lname ex_lown /\
  lbuffer_args_ok (lworld_buf 54) 2 None 54 0 [CByte 1] (lbuf 54) [CByte 2] /\ nodes_in 54 2 = 3 /\ nlen ex_qops < W64.
Proof.
  split; [exact ex_lnames|]. split; [apply lworld_buf_args; [lia|lia|reflexivity|exact Logic.I]|]. split; reflexivity.
Qed.

(** With a destructor that only changes the bytes of its element, the calls are those of the other claims about lists. *)
Theorem c116_same_calls :
  forall (l : zlist) f (w : world), l_dtor l = Some f ->
    let d := fun p => call_dtor f p (l_esz l) in
    oldestroy d l w = ldestroy l w /\
    (forall node p, olset_node_data d l node p w = lset_node_data l node p w) /\
    olpop_back d l w = lpop_back l w /\
    olpop_front d l w = lpop_front l w /\
    (forall n, olresize d l n w = lresize l n w) /\
    olclear d l w = lclear l w.
Proof. exact list_same_calls. Qed.
Print Assumptions c116_same_calls.
Example c116_same_calls_met : exists l, linit_ex 2 (Some (map (fun _ => CByte 0))) true lworld = Ok (ST_SUCCESS, Some l) lworld /\
  l_dtor l = Some (map (fun _ => CByte 0)).
Proof. eexists. split; [vm_compute; reflexivity|reflexivity]. Qed.

(** Property theorems of the list (C30-C33, C63-C65).  Statements only; the counterexamples are in ListRefuted.v. *)
From Verif Require Import Base NListFacts Status Mem VectorModel VectorDriver ListModel ListSpec ListDriver ListFinal2 ListWords ListExamples.
From Coq Require Import ZifyBool ZifyNat ZifyN Permutation.

(** C30.  Any sequence of calls on a growable list, with any behaviour of the allocator, returns statuses and leaves
    elements that the machine [lspecs] over plain lists allows; traversal in both directions and GetSize show exactly
    these elements; the destructor saw the removed elements; memory that existed before is untouched. *)
Theorem c30_growable_list :
  forall (w0 : world cell) e d,
    linit_args_ok w0 e d ->
    exists l0,
      linit_ex e d true w0 = Ok (ST_SUCCESS, Some l0) w0 /\ lshows w0 l0 [] [] /\
      forall ops, Forall (larg_ok e) ops -> ldemands ops < W64 ->
      exists rs l w ps xs gone new,
        run_lops l0 ops w0 = Ok (rs, l) w /\
        lspecs e None (fails w0) ops [] rs xs gone new /\
        lshows w l ps xs /\
        dlog w = dlog w0 ++ seen d gone /\
        (forall k, heap w0 k <> None -> heap w k = heap w0 k).
Proof. exact growable_history. Qed.
Print Assumptions c30_growable_list.
(** What the links are read back from: eight bytes are a pointer exactly if that pointer was stored there
    whole, each byte of it in its place. *)
Theorem c30_links :
  forall x p, (dec x = Some p <-> x = enc p) /\ nlen (enc p) = 8 /\ NoDup (enc p).
Proof. exact links_exact. Qed.
Print Assumptions c30_links.
Example c30_links_met : dec (firstn 4 (enc (Some (mkptr 1 8))) ++ skipn 4 (enc (Some (mkptr 1 0)))) = None /\
  dec (enc (Some (mkptr 1 8))) = Some (Some (mkptr 1 8)).
Proof. split; reflexivity. Qed.
(** The same in a caller's buffer; nothing is allocated and nothing outside the buffer changes. *)
Theorem c30_fixed_list :
  forall (w0 : world cell) e d cap b pre buf post,
    lbuffer_args_ok w0 e d cap b pre buf post ->
    exists l0,
      linit_custom e d (Some (mkptr b (nlen pre))) cap w0 = Ok (ST_SUCCESS, Some l0) w0 /\ lshows w0 l0 [] [] /\
      forall ops, Forall (larg_ok e) ops -> ldemands ops < W64 ->
      exists rs l w ps xs gone new buf',
        run_lops l0 ops w0 = Ok (rs, l) w /\
        lspecs e (Some (nodes_in cap e)) False ops [] rs xs gone new /\
        lshows w l ps xs /\
        dlog w = dlog w0 ++ seen d gone /\ tick w = tick w0 /\
        heap w b = Some (pre ++ buf' ++ post) /\ nlen buf' = cap /\
        (forall k, k <> b -> heap w k = heap w0 k).
Proof. exact fixed_history. Qed.
Print Assumptions c30_fixed_list.
Example c30_hypotheses_met :
  linit_args_ok lworld 2 (Some (fun x => x)) /\ linit_args_ok (lworld_failing [1; 4]) 2 None /\
  lbuffer_args_ok (lworld_buf 54) 2 None 54 0 [CByte 1] (lbuf 54) [CByte 2] /\
  Forall (larg_ok 2) list_history /\ ldemands list_history < W64.
Proof.
  split; [apply lworld_args; [lia|reflexivity|now intros x]|]. split; [apply lworld_failing_args; [lia|reflexivity|exact I]|].
  split; [apply lworld_buf_args; [lia|lia|reflexivity|exact I]|]. apply list_history_ok.
Qed.

(** C31.  In a buffer of [cap] bytes every node is one of the [nodes_in cap e] slots, no two nodes share a slot, and a
    push fails exactly when all slots are taken, leaving the list unchanged. *)
Theorem c31_fixed_slots :
  forall (w0 : world cell) e d cap b pre buf post l0 w1 ops rs l w ps xs,
    lbuffer_args_ok w0 e d cap b pre buf post ->
    linit_custom e d (Some (mkptr b (nlen pre))) cap w0 = Ok (ST_SUCCESS, Some l0) w1 ->
    Forall (larg_ok e) ops -> ldemands ops < W64 ->
    run_lops l0 ops w1 = Ok (rs, l) w -> lshows w l ps xs ->
    NoDup ps /\
    Forall (fun p => exists i, i < nodes_in cap e /\ p = slot b (nlen pre) e i /\
                               po p + (NODE_SIZE + e) <= nlen pre + cap) ps /\
    nlen xs <= nodes_in cap e /\
    forall x, nlen x = e ->
      exists r l' w', run_lop l (LPushBack x) w = Ok (r, l') w' /\
        ((nlen xs < nodes_in cap e /\ r = ST_SUCCESS /\ exists p, lshows w' l' (ps ++ [p]) (xs ++ [x])) \/
         (nlen xs = nodes_in cap e /\ r = ST_INSUFFICIENT_BUFFER_SIZE /\ lshows w' l' ps xs)).
Proof. exact fixed_slots. Qed.
Print Assumptions c31_fixed_slots.
Example c31_hypotheses_met :
  exists l0 rs l w ps xs,
    lbuffer_args_ok (lworld_buf 54) 2 None 54 0 [CByte 1] (lbuf 54) [CByte 2] /\
    linit_custom 2 None (Some (mkptr 0 1)) 54 (lworld_buf 54) = Ok (ST_SUCCESS, Some l0) (lworld_buf 54) /\
    run_lops l0 list_history (lworld_buf 54) = Ok (rs, l) w /\ lshows w l ps xs.
Proof.
  assert (A : lbuffer_args_ok (lworld_buf 54) 2 None 54 0 [CByte 1] (lbuf 54) [CByte 2])
    by (apply lworld_buf_args; [lia|lia|reflexivity|exact I]).
  destruct (c30_fixed_list _ _ _ _ _ _ _ _ A) as (l0 & E & _ & H). destruct list_history_ok as [H1 H2].
  destruct (H _ H1 H2) as (rs & l & w & ps & xs & gone & new & buf' & R & _ & SH & _).
  exists l0, rs, l, w, ps, xs. auto.
Qed.

(** C33.  Over a whole life every element that came is seen by the destructor exactly once (while it is in memory: every
    access to released memory is a fault), and Destroy gives all memory back. *)
Theorem c33_growable_life :
  forall (w0 : world cell) e d l0 w1 ops,
    linit_args_ok w0 e d -> linit_ex e d true w0 = Ok (ST_SUCCESS, Some l0) w1 ->
    Forall (larg_ok e) ops -> ldemands ops < W64 ->
    exists rs l w xs gone new w',
      run_lops l0 ops w1 = Ok (rs, l) w /\
      lspecs e None (fails w0) ops [] rs xs gone new /\
      Permutation new (gone ++ xs) /\
      ldestroy l w = Ok (ST_SUCCESS, l) w' /\
      dlog w' = dlog w0 ++ seen d (gone ++ xs) /\
      forall k, heap w' k = heap w0 k.
Proof. exact growable_destroyed. Qed.
Print Assumptions c33_growable_life.
Theorem c33_fixed_life :
  forall (w0 : world cell) e d cap b pre buf post l0 w1 ops,
    lbuffer_args_ok w0 e d cap b pre buf post ->
    linit_custom e d (Some (mkptr b (nlen pre))) cap w0 = Ok (ST_SUCCESS, Some l0) w1 ->
    Forall (larg_ok e) ops -> ldemands ops < W64 ->
    exists rs l w xs gone new w' buf',
      run_lops l0 ops w1 = Ok (rs, l) w /\
      lspecs e (Some (nodes_in cap e)) False ops [] rs xs gone new /\
      Permutation new (gone ++ xs) /\
      ldestroy l w = Ok (ST_SUCCESS, l) w' /\
      dlog w' = dlog w0 ++ seen d (gone ++ xs) /\
      heap w' b = Some (pre ++ buf' ++ post) /\ nlen buf' = cap /\
      forall k, k <> b -> heap w' k = heap w0 k.
Proof. exact fixed_destroyed. Qed.
Print Assumptions c33_fixed_life.
(** The hypotheses are those of C30: [c30_hypotheses_met].  What the destructor sees, in order, for a concrete history: *)
Example c33_destructor_log :
  match (let* (_, l) := start_list 2 (Some (fun x => x)) list_history in ldestroy l) lworld with
  | Ok (st, _) w => st = ST_SUCCESS /\ dlog w = [el 3 3; el 4 4; el 1 1; el 5 5; el 2 2; el 6 6; el 5 5; el 7 7]
  | Fault _ => False
  end.
Proof. vm_compute. split; reflexivity. Qed.

(** C63, for every call but ResizeEx: a call that fails leaves the nodes and the elements as they were.  For ResizeEx
    it is false: [c63_resize_allocation_refuted], [c63_resize_buffer_refuted]. *)
Theorem c63_failed_call_partial :
  forall limit (w : world cell) l ps xs o r l' w',
    lreached limit w l xs -> lshows w l ps xs -> larg_ok (l_esz l) o -> nlen xs + ldemand o < W64 ->
    (forall n init, o <> LResize n init) ->
    run_lop l o w = Ok (r, l') w' -> st_success r = false ->
    lshows w' l' ps xs.
Proof. exact failed_unchanged. Qed.
Print Assumptions c63_failed_call_partial.
Example c63_hypotheses_met :
  exists w l ps w' l', lreached None w l [] /\ lshows w l ps [] /\
    run_lop l LPopBack w = Ok (ST_INVALID_OPERATION, l') w' /\ st_success ST_INVALID_OPERATION = false.
Proof.
  destruct (c30_growable_list lworld 2 None) as (l0 & E & SH & _); [apply lworld_args; [lia|reflexivity|exact I]|].
  exists lworld, l0, [], lworld, l0. split; [|split; [exact SH|split; [|reflexivity]]].
  - exists lworld, 2, None, l0, lworld, [], [], []. split; [split; [apply lworld_args; [lia|reflexivity|exact I]|exact E]|].
    split; [constructor|]. split; [reflexivity|]. split; [reflexivity|exact SH].
  - injection E as <-. reflexivity.
Qed.

(** C64.  One more call on any reachable list: it follows the specification, nodes that stay in the list stay where they
    are (only the removed ones go, only new ones come), and all nodes are different. *)
Theorem c64_stable_nodes :
  forall limit (w : world cell) l ps xs o,
    lreached limit w l xs -> lshows w l ps xs -> larg_ok (l_esz l) o -> nlen xs + ldemand o < W64 ->
    exists r l' w' ps' xs' gone new,
      run_lop l o w = Ok (r, l') w' /\
      lspec (l_esz l) limit (fails w) o xs r xs' gone new /\
      lshows w' l' ps' xs' /\ lnodes o r ps ps' /\ NoDup ps'.
Proof. exact reached_step. Qed.
Print Assumptions c64_stable_nodes.
Example c64_hypotheses_met :
  exists w l ps, lreached None w l [el 1 2; el 3 4] /\ lshows w l ps [el 1 2; el 3 4] /\
    larg_ok (l_esz l) (LPushFront (el 5 6)) /\ larg_ok (l_esz l) (@LResize cell 7 None) /\ 2 + 7 < W64.
Proof.
  destruct (lreached_any 2 [el 1 2; el 3 4]) as (w & l & ps & R & SH & E); [lia|reflexivity|repeat constructor|reflexivity|].
  exists w, l, ps. rewrite E. repeat split; auto; apply SH.
Qed.

(** C65, when the size of a node does not wrap, is the frame part of [c30_fixed_list] and of [c31_fixed_slots].  For
    element sizes from 2^64 - 16 on it is false: [c65_huge_element_refuted]. *)

(** Concrete lists for the theorems about the memory requests of lists. *)
From Verif Require Import Base NListFacts Status Mem MemFacts VectorModel VectorDriver ListModel ListSpec ListDriver ListFinal ListFinal2 ListExamples
  ListAskSpec ListAskProofs.
From Coq Require Import ZifyBool ZifyNat ZifyN.

(** The only element of a list that shows one. *)
Lemma shown_one w (l : zlist) ps xs x : lshows w l ps xs ->
  result (elements_of l w) = inr [x] -> xs = [x].
Proof.
  intros SH E. pose proof (shows_size _ _ _ _ SH) as SZ. destruct SH as (LP & _ & _ & _ & T & _).
  unfold elements_of in E. rewrite SZ in E. unfold nlen in E. rewrite Nat2N.id in E. rewrite (bind_ok _ _ _ _ _ T) in E. cbn [result ret] in E.
  injection E as E. rewrite <- E. unfold data_of. clear - LP. revert xs LP. induction ps; intros [|y xs] LP; try discriminate LP; [reflexivity|].
  cbn. f_equal. apply IHps. now injection LP.
Qed.
Lemma list_refusing : exists (w : world cell) l ps, lreached None w l [el 1 1] /\ lshows w l ps [el 1 1] /\ l_esz l = 2 /\
  grants_next w 2 /\ refuses w (tick w + 2) 7.
Proof.
  assert (A : linit_args_ok (lworld_failing [3]) 2 None) by (apply lworld_failing_args; [lia|reflexivity|exact I]).
  destruct (growable_history _ 2 None A) as (l0 & EI & _ & H).
  assert (AO : Forall (larg_ok 2) [LPushBack (el 1 1)]) by (repeat constructor).
  destruct (H _ AO) as (rs & l & w & ps & ys & gone & new & R & _ & SH & _); [reflexivity|].
  pose proof EI as EI'. injection EI' as <-. exists w, l, ps.
  assert (K : match run_lops (mklist true 0 2 None None None None 0 None) [LPushBack (el 1 1)] (lworld_failing [3]) with
              | Ok (_, l) w => l_esz l = 2 /\ tick w = 1 /\ result (elements_of l w) = inr [el 1 1]
              | Fault _ => False end) by (vm_compute; auto).
  assert (O : match run_lops (mklist true 0 2 None None None None 0 None) [LPushBack (el 1 1)] (lworld_failing [3]) with
              | Ok (_, l) w => orc w = orc (lworld_failing [3])
              | Fault _ => False end) by (vm_compute; reflexivity).
  rewrite R in K, O. destruct K as (K1 & K2 & K3). apply (shown_one _ _ _ _ _ SH) in K3. subst ys.
  split; [|split; [exact SH|split; [exact K1|]]].
  - exists (lworld_failing [3]), 2, None. eexists _, _, [LPushBack (el 1 1)], rs, ps. split; [split; [exact A|exact EI]|]. split; [exact AO|]. split; [reflexivity|]. split; [exact R|exact SH].
  - unfold grants_next, grants, refuses. rewrite O, K2. split; [|reflexivity]. intros i L. exists (fun _ => CByte 170).
    assert (i = 0 \/ i = 1) as [-> | ->] by lia; reflexivity.
Qed.
Lemma list_in_buffer : exists (w : world cell) l ps, lreached (Some 3) w l [el 1 1] /\ lshows w l ps [el 1 1] /\ l_esz l = 2.
Proof.
  assert (A : lbuffer_args_ok (lworld_buf 54) 2 None 54 0 [CByte 1] (lbuf 54) [CByte 2]) by (apply lworld_buf_args; [lia|lia|reflexivity|exact I]).
  destruct (fixed_history _ _ _ _ _ _ _ _ A) as (l0 & EI & _ & H).
  assert (AO : Forall (larg_ok 2) [LPushBack (el 1 1)]) by (repeat constructor).
  destruct (H _ AO) as (rs & l & w & ps & ys & gone & new & buf' & R & _ & SH & _); [reflexivity|].
  pose proof EI as EI'. injection EI' as <-. exists w, l, ps.
  assert (K : match run_lops (mklist false 0 2 None None None (Some (mkptr 0 1)) 54 None) [LPushBack (el 1 1)] (lworld_buf 54) with
              | Ok (_, l) w => l_esz l = 2 /\ result (elements_of l w) = inr [el 1 1]
              | Fault _ => False end) by (vm_compute; auto).
  change (nlen [CByte 1]) with 1 in R. rewrite R in K. destruct K as (K1 & K3). apply (shown_one _ _ _ _ _ SH) in K3. subst ys.
  split; [|split; [exact SH|exact K1]].
  exists (lworld_buf 54), 2, None. eexists _, _, [LPushBack (el 1 1)], rs, ps.
  split; [exists 54, 0, [CByte 1], (lbuf 54), [CByte 2]; split; [reflexivity|]; split; [exact A|exact EI]|]. split; [exact AO|]. split; [reflexivity|]. split; [exact R|exact SH].
Qed.

(** The lemmas that the vector property theorems are closed with. *)
From Verif Require Import Base NListFacts Status Mem MemFacts VectorModel VectorSpec VectorDriver
  VectorRep VectorProofs VectorProofs2 VectorProofs3 VectorRefine VectorSearch VectorFail VectorMore.
From Coq Require Import ZifyBool ZifyNat ZifyN Permutation.

Section VectorFinal.
  Context {C : Type}.
  Notation vec := (vector C).
  Implicit Types (w : world C) (v : vec).

  Lemma growable_vector_refines w0 e cap d g s ops :
    init_args_ok w0 e cap d g s -> Forall (arg_ok e) ops -> room (demands ops) e ->
    exists v0 w1 rs v w xs,
      vinit_ex e cap d true g s w0 = Ok (ST_SUCCESS, Some v0) w1 /\
      run_ops v0 ops w1 = Ok (rs, v) w /\
      vspecs (mkcfg false g s e d) ops (mkst [] (N.max 1 cap) (dlog w0)) rs
             (mkst xs (snd (vget_capacity v)) (dlog w)) /\
      shows w v xs.
  Proof.
    intros I A RM. destruct (own_run w0 e cap d g s ops I A RM) as
      (v0 & w1 & rs & v & w & xs & E & ER & SP & R & _).
    exists v0, w1, rs, v, w, xs. eauto 10 using rep_shows.
  Qed.

  Lemma fixed_vector_refines w0 e cap d b pre buf post ops :
    buffer_args_ok w0 e cap d b pre buf post -> Forall (arg_ok e) ops -> room (demands ops) e ->
    exists v0 rs v w xs buf',
      vinit_custom e (Some (mkptr b (nlen pre))) cap d w0 = Ok (ST_SUCCESS, Some v0) w0 /\
      run_ops v0 ops w0 = Ok (rs, v) w /\
      vspecs (mkcfg true 1 0 e d) ops (mkst [] cap (dlog w0)) rs (mkst xs cap (dlog w)) /\
      shows w v xs /\ vget_capacity v = (ST_SUCCESS, cap) /\
      v_data v = Some (mkptr b (nlen pre)) /\ tick w = tick w0 /\
      heap w b = Some (pre ++ buf' ++ post) /\ nlen buf' = nlen buf /\
      (forall b', b' <> b -> heap w b' = heap w0 b').
  Proof.
    intros I A RM. destruct (buf_run w0 e cap d b pre buf post ops I A RM) as
      (v0 & rs & v & w & xs & buf' & E & ER & SP & R & F & CF & B & T & D & CP & H & L & FR).
    exists v0, rs, v, w, xs, buf'. rewrite CP in SP. unfold vget_capacity. rewrite CP.
    eauto 15 using rep_shows.
  Qed.

  (** ---- C03 ---- *)
  Lemma growth_failure_keeps_elements w v xs o orc' st :
    reached_own w v xs -> arg_ok (v_esz v) o -> room (nlen xs + demand o) (v_esz v) ->
    wants_room o (nlen xs) (snd (vget_capacity v)) = true -> orc' (tick w) = AFail st ->
    exists v' w', run_op v o (with_oracle w orc') = Ok (err_status st, v') w' /\
      shows w' v' xs /\ dlog w' = dlog w /\ (forall b, heap w' b = heap w b).
  Proof.
    intros RO A RM WR O. destruct (reached_own_rep _ _ _ RO) as (R & F & AL & NF).
    apply (fun R => rep_with_oracle _ _ _ _ _ orc' R (fun _ => NF)) in R.
    destruct (run_op_fail (with_oracle w orc') v [] xs [] o st R AL O A RM WR) as (v' & w' & E & OC).
    exists v', w'. split; [exact E|].
    split; [|split; [apply OC|apply OC]]. split.
    - destruct OC as ((c & -> & _) & _). unfold vget_size. cbn [v_size set_cap].
      now rewrite (r_size _ _ _ _ _ R).
    - intros i. eapply only_cap_read; eauto.
  Qed.

  (** ---- C04 ---- *)
  Lemma capacity_is_storage w v xs : reached w v xs ->
    nlen xs <= snd (vget_capacity v) /\
    (reached_own w v xs -> exists p buf, v_data v = Some p /\ po p = 0 /\ heap w (pb p) = Some buf /\
       nlen buf = snd (vget_capacity v) * v_esz v).
  Proof.
    intros H. split.
    - destruct (reached_rep _ _ _ H) as (pre & post & R & _). cbn. apply R.
    - intros RO. destruct (reached_own_rep _ _ _ RO) as (R & _ & _ & NF).
      destruct (r_heap _ _ _ _ _ R) as (sl & SL & HH). apply (spare_exact _ _ _ (fun _ => NF)) in SL. exists (mkptr (blk v) 0), (concat xs ++ sl).
      split; [apply R|]. split; [reflexivity|]. cbn [app] in HH. rewrite app_nil_r in HH. split; [exact HH|].
      rewrite nlen_app, SL, (nlen_concat _ _ (r_chunk _ _ _ _ _ R)), <- N.mul_add_distr_r.
      cbn. f_equal. pose proof (r_le _ _ _ _ _ R). lia.
  Qed.

  Lemma reserve_then_push w v xs n ys :
    reached_own w v xs -> room (nlen xs + n) (v_esz v) ->
    Forall (fun y => nlen y = v_esz v) ys -> nlen xs + nlen ys <= n ->
    exists v1 w1 v2 w2,
      vreserve v n w = Ok (ST_SUCCESS, v1) w1 /\ n <= snd (vget_capacity v1) /\
      shows w1 v1 xs /\
      run_ops v1 (map OPushBack ys) w1 = Ok (map (fun _ => ST_SUCCESS) ys, v2) w2 /\
      tick w2 = tick w1 /\ v_data v2 = v_data v1 /\ shows w2 v2 (xs ++ ys).
  Proof.
    intros RO RM K L. destruct (reached_own_rep _ _ _ RO) as (R & F & AL & NF).
    destruct (reserve_ok w v [] xs [] n R (fun _ => NF (tick w))) as (r & w1 & v1 & xs1 & E & G & S).
    { unfold room in RM. nia. }
    assert (X : r = ST_SUCCESS /\ xs1 = xs /\ n <= v_cap v1).
    { unfold vspec in S. cbn [s_elems s_cap s_log cfg_of c_fixed] in S. rewrite AL in S. cbn [negb] in S.
      destruct (N.leb_spec n (v_cap v)); destruct S as [-> S]; inv S; repeat split; lia. }
    destruct X as (-> & -> & CP). pose proof (g_rep _ _ _ _ _ _ _ G) as R1.
    destruct (g_cfg _ _ _ _ _ _ _ G) as (_ & _ & _ & SE & _).
    destruct (pushes_room ys w1 v1 [] xs [] R1) as (v2 & w2 & E2 & T2 & D2 & C2 & R2).
    { now rewrite SE. } { lia. }
    exists v1, w1, v2, w2. eauto 12 using rep_shows.
  Qed.

  Lemma shrink_to_fit_capacity w v xs : reached_own w v xs ->
    exists v' w', vshrink_to_fit v w = Ok (ST_SUCCESS, v') w' /\
      vget_capacity v' = (ST_SUCCESS, N.max 1 (nlen xs)) /\ shows w' v' xs.
  Proof.
    intros RO. destruct (reached_own_rep _ _ _ RO) as (R & F & AL & NF).
    destruct (shrink_to_fit_ok w v [] xs [] R (fun _ => NF (tick w))) as (r & w1 & v1 & xs1 & E & G & S).
    cbn [vspec s_elems cfg_of c_fixed] in S. rewrite AL in S. cbn [negb] in S. destruct S as [-> S]. inv S.
    exists v1, w1. unfold vget_capacity. split; [exact E|]. split; [congruence|].
    eapply rep_shows. apply G.
  Qed.

  (** ---- C05 ---- *)
  Lemma sub_perm i n (l : list (list C)) : i + n <= nlen l ->
    Permutation (nsub i n l ++ ldelete i n l) l.
  Proof.
    intros H. destruct (nsplit3 i n l H) as (a & b & c & -> & LA & LB).
    rewrite nsub_mid, ldelete_split by assumption.
    rewrite app_assoc, (Permutation_app_comm b a), <- app_assoc. reflexivity.
  Qed.

  Lemma vspec_conserve c f o (s : vstate C) r s' : c_dtor c = Some f -> vspec c o s r s' ->
    exists ys, adds o r (nlen (s_elems s)) ys /\
      Permutation (s_log s' ++ s_elems s') (s_log s ++ s_elems s ++ ys).
  Proof.
    intros CD. destruct s as [xs cap lg], s' as [xs' cap' lg']. cbn [s_elems s_log].
    assert (DS : forall ys, destroyed c ys = ys) by (intros; unfold destroyed; now rewrite CD).
    assert (NOP : forall ys, (ys : list (list C)) = [] -> (xs', lg') = (xs, lg) ->
       Permutation (lg' ++ xs') (lg ++ xs ++ ys)).
    { intros ys -> E. inv E. now rewrite app_nil_r. }
    assert (INS : forall i ys, spec_insert c i ys (mkst xs cap lg) r (mkst xs' cap' lg') ->
      (st_success r = false /\ (xs', lg') = (xs, lg)) \/
      (r = ST_SUCCESS /\ Permutation (lg' ++ xs') (lg ++ xs ++ ys))).
    { intros i ys H. unfold spec_insert in H. cbn [s_elems s_cap s_log] in H.
      destruct (N.ltb_spec (nlen xs) i); [destruct H as [-> H]; inv H; auto|].
      destruct (regrow _ _ _); destruct H as [-> H]; inv H; [right|left; auto].
      split; [reflexivity|]. apply Permutation_app_head. unfold linsert.
      rewrite (Permutation_app_comm ys). rewrite app_assoc, nfirst_skip. reflexivity. }
    assert (DEL : forall i n, spec_delete c i n (mkst xs cap lg) r (mkst xs' cap' lg') ->
      Permutation (lg' ++ xs') (lg ++ xs ++ [])).
    { intros i n H. unfold spec_delete in H. cbn [s_elems s_cap s_log] in H.
      destruct (n =? 0); [destruct H as [-> H]; inv H; now rewrite app_nil_r|].
      destruct (N.ltb_spec (nlen xs) (i + n)); destruct H as [-> H]; inv H; [now rewrite app_nil_r|].
      rewrite app_nil_r, <- app_assoc, DS. apply Permutation_app_head. now apply sub_perm. }
    assert (RES : forall n ys, nlen ys = n - nlen xs ->
      spec_resize c n ys (mkst xs cap lg) r (mkst xs' cap' lg') ->
      (st_success r = false /\ (xs', lg') = (xs, lg)) \/
      (r = ST_SUCCESS /\ Permutation (lg' ++ xs') (lg ++ xs ++ ys))).
    { intros n ys LY H. unfold spec_resize in H. cbn [s_elems s_cap s_log] in H.
      destruct (N.eqb_spec n (nlen xs)).
      { destruct H as [-> H]; inv H. right. split; [reflexivity|].
        replace ys with (@nil (list C)) by (symmetry; apply nlen_0; lia). now rewrite app_nil_r. }
      destruct (N.ltb_spec n (nlen xs)).
      { destruct H as [-> H]; inv H. right. split; [reflexivity|].
        replace ys with (@nil (list C)) by (symmetry; apply nlen_0; lia). rewrite app_nil_r, DS, <- app_assoc.
        apply Permutation_app_head. rewrite Permutation_app_comm. now rewrite nfirst_skip. }
      destruct (regrow _ _ _); destruct H as [-> H]; inv H; auto. }
    unfold adds. assert (SS : st_success ST_SUCCESS = true) by reflexivity.
    destruct o; cbn [vspec s_elems s_cap s_log]; intros H.
    - apply INS in H as [[-> H]|[-> H]]; [exists []|exists [x]]; rewrite ?SS; auto.
    - apply INS in H as [[-> H]|[-> H]]; [exists []|exists [x]]; rewrite ?SS; auto.
    - destruct xs0 as [|y ys]; [destruct H as [-> H]; inv H; exists []; split; [reflexivity|now rewrite app_nil_r]|].
      apply INS in H as [[-> H]|[-> H]]; [exists []|exists (y :: ys)]; rewrite ?SS; auto.
    - destruct H as (old & x & _ & _ & _ & H).
      apply INS in H as [[-> H]|[-> H]]; [exists []|exists [x]]; rewrite ?SS; auto.
    - destruct H as (old & x & _ & _ & _ & H).
      apply INS in H as [[-> H]|[-> H]]; [exists []|exists [x]]; rewrite ?SS; auto.
    - destruct (nnth i xs) as [y|] eqn:NX; destruct H as [-> H]; inv H; [exists [x]|exists []; split; [reflexivity|now rewrite app_nil_r]].
      split; [reflexivity|]. rewrite DS. rewrite <- app_assoc. apply Permutation_app_head.
      apply nnth_some in NX as (a & b & -> & LA). rewrite lset_split by assumption. cbn [app].
      rewrite (Permutation_app_comm (a ++ y :: b)). cbn [app].
      rewrite <- !Permutation_middle. apply perm_swap.
    - destruct (_ || _); [destruct H as [-> H]; inv H; exists []; split; [reflexivity|now rewrite app_nil_r]|].
      destruct (_ =? _); [destruct H as [-> H]; inv H; exists []; split; [reflexivity|now rewrite app_nil_r]|].
      destruct H as [-> H]; inv H. exists []. split; [reflexivity|]. rewrite app_nil_r.
      apply Permutation_app_head. unfold lswap.
      destruct (nnth i xs) as [x|] eqn:EI; [|reflexivity]. destruct (nnth j xs) as [y|] eqn:EJ; [|reflexivity].
      assert (SW : forall l p q (u t : list C), p < q -> nnth p l = Some u -> nnth q l = Some t ->
                exists a b d, l = a ++ u :: b ++ t :: d /\ nlen a = p /\ p + 1 + nlen b = q).
      { intros l p q u t PQ HP HQ. apply nnth_some in HP as (a & l' & -> & LA).
        rewrite nnth_app2 in HQ by lia. replace (q - nlen a) with (N.succ (q - nlen a - 1)) in HQ by lia.
        unfold nnth in HQ. rewrite Nnat.N2Nat.inj_succ in HQ. cbn [nth_error] in HQ.
        apply (nnth_some (q - nlen a - 1)) in HQ as (b & d & -> & LB).
        exists a, b, d. repeat split; auto. lia. }
      assert (PS : forall a b d (u t : list C), Permutation (a ++ t :: b ++ u :: d) (a ++ u :: b ++ t :: d)).
      { intros. apply Permutation_app_head. rewrite <- !Permutation_middle. apply perm_swap. }
      destruct (N.lt_trichotomy i j) as [LT|[->|GT]].
      + destruct (SW xs i j x y LT EI EJ) as (a & b & d & -> & LA & LB).
        rewrite lset_split by assumption.
        replace (a ++ y :: b ++ y :: d) with ((a ++ y :: b) ++ y :: d) by (rewrite <- app_assoc; reflexivity).
        rewrite lset_split by (nl; lia). rewrite <- app_assoc. cbn [app]. apply PS.
      + assert (x = y) by congruence. subst y. apply nnth_some in EI as (a & b & -> & LA).
        rewrite !lset_split by assumption. reflexivity.
      + destruct (SW xs j i y x GT EJ EI) as (a & b & d & -> & LA & LB).
        replace (a ++ y :: b ++ x :: d) with ((a ++ y :: b) ++ x :: d) at 1 by (rewrite <- app_assoc; reflexivity).
        rewrite lset_split by (nl; lia). rewrite <- app_assoc. cbn [app].
        rewrite lset_split by assumption. apply PS.
    - exists []. split; [now destruct (st_success r)|]. eapply DEL; eauto.
    - exists []. split; [now destruct (st_success r)|]. eapply DEL; eauto.
    - exists []. split; [now destruct (st_success r)|].
      destruct (_ =? _); [destruct H as [-> H]; inv H; now rewrite app_nil_r|]. eapply DEL; eauto.
    - exists []. split; [now destruct (st_success r)|]. apply RES in H; [|change (nlen (@nil (list C))) with 0; lia].
      destruct H as [[_ H]|[_ H]]; auto.
    - destruct H as (ys & LY & _ & H). apply RES in H; [|exact LY].
      destruct H as [[-> H]|[-> H]]; [exists []|exists ys]; rewrite ?SS; auto.
    - apply RES in H; [|apply nlen_repeat].
      destruct H as [[-> H]|[-> H]]; [exists []|exists (nrepeat init (n - nlen xs))]; rewrite ?SS; auto.
    - exists []. split; [now destruct (st_success r)|].
      destruct (_ <=? _); [destruct H as [-> H]; inv H; now rewrite app_nil_r|].
      destruct (c_fixed c); destruct H as [-> H]; inv H; now rewrite app_nil_r.
    - exists []. split; [now destruct (st_success r)|].
      destruct H as [-> H]. destruct (c_fixed c); inv H; now rewrite app_nil_r.
  Qed.

  Lemma vspecs_history c f ops (s : vstate C) rs s' : c_dtor c = Some f -> vspecs c ops s rs s' ->
    exists ys, vhistory c ops s rs s' ys /\
      Permutation (s_log s' ++ s_elems s') (s_log s ++ s_elems s ++ ys).
  Proof.
    intros CD. induction 1 as [s|o ops s r s1 rs s2 H _ (zs & HZ & PZ)].
    - exists []. split; [constructor|]. now rewrite app_nil_r.
    - destruct (vspec_conserve _ _ _ _ _ _ CD H) as (ys & AY & PY).
      exists (ys ++ zs). split; [econstructor; eauto|].
      rewrite PZ, !app_assoc, PY, !app_assoc. reflexivity.
  Qed.

  Lemma destructor_life_cycle w0 e cap f g s ops :
    init_args_ok w0 e cap (Some f) g s -> Forall (arg_ok e) ops -> room (demands ops) e ->
    exists v0 w1 rs v w xs v' w' added,
      vinit_ex e cap (Some f) true g s w0 = Ok (ST_SUCCESS, Some v0) w1 /\
      run_ops v0 ops w1 = Ok (rs, v) w /\ shows w v xs /\
      vhistory (mkcfg false g s e (Some f)) ops (mkst [] (N.max 1 cap) (dlog w0)) rs
               (mkst xs (snd (vget_capacity v)) (dlog w)) added /\
      vdestroy v w = Ok (ST_SUCCESS, v') w' /\ dlog w' = dlog w ++ xs /\
      Permutation (dlog w') (dlog w0 ++ added).
  Proof.
    intros I A RM. destruct (own_run w0 e cap (Some f) g s ops I A RM) as
      (v0 & w1 & rs & v & w & xs & E & ER & SP & R & F & CF & _).
    destruct (vspecs_history (mkcfg false g s e (Some f)) f _ _ _ _ eq_refl SP) as (ys & HY & PY). cbn [s_log s_elems app] in PY.
    destruct (destroy_ok w v [] xs [] R) as (w' & ED & DL & _). rewrite CF in DL. cbn [destroyed c_dtor] in DL.
    exists v0, w1, rs, v, w, xs, (idle v), w', ys.
    do 2 (split; [assumption|]). split; [eapply rep_shows; eauto|]. split; [exact HY|].
    split; [exact ED|]. split; [exact DL|]. now rewrite DL.
  Qed.

  (** ---- C06 ---- *)
  Lemma life_cycle_no_leak w0 e cap d g s ops :
    init_args_ok w0 e cap d g s -> Forall (arg_ok e) ops -> room (demands ops) e ->
    exists v0 w1 rs v w v' w',
      vinit_ex e cap d true g s w0 = Ok (ST_SUCCESS, Some v0) w1 /\
      run_ops v0 ops w1 = Ok (rs, v) w /\
      (forall b, heap w0 b <> None -> heap w b = heap w0 b) /\
      vdestroy v w = Ok (ST_SUCCESS, v') w' /\
      (forall b, heap w' b = heap w0 b).
  Proof.
    intros I A RM. pose proof I as (W & _). destruct (own_run w0 e cap d g s ops I A RM) as
      (v0 & w1 & rs & v & w & xs & E & ER & SP & R & F & CF & _ & HL & HX).
    destruct (destroy_ok w v [] xs [] R) as (w' & ED & DL & HA & _ & HO).
    exists v0, w1, rs, v, w, (idle v), w'. do 2 (split; [assumption|]). split.
    { intros b NB. apply HL. destruct (N.lt_ge_cases b (nextb w0)); [assumption|]. now rewrite W in NB. }
    split; [exact ED|]. intros b. destruct (N.eq_dec b (blk v)) as [->|NE].
    - rewrite HA by (unfold cfg_of in CF; inv CF; now destruct (v_alloc v)).
      destruct (N.lt_ge_cases (blk v) (nextb w0)) as [LT|GE].
      + destruct (HL _ LT) as [_ NE]. congruence.
      + symmetry. now apply W.
    - rewrite HO by assumption. now apply HX.
  Qed.

  Lemma failed_growth_no_leak w0 e cap d g s ops o orc' st v0 w1 rs v w xs :
    init_args_ok w0 e cap d g s -> Forall (arg_ok e) ops -> room (demands ops) e ->
    vinit_ex e cap d true g s w0 = Ok (ST_SUCCESS, Some v0) w1 ->
    run_ops v0 ops w1 = Ok (rs, v) w -> shows w v xs ->
    arg_ok e o -> room (nlen xs + demand o) e ->
    wants_room o (nlen xs) (snd (vget_capacity v)) = true -> orc' (tick w) = AFail st ->
    exists v1 w2 v' w', run_op v o (with_oracle w orc') = Ok (err_status st, v1) w2 /\
      vdestroy v1 w2 = Ok (ST_SUCCESS, v') w' /\ (forall b, heap w' b = heap w0 b).
  Proof.
    intros I A RM E ER SH AO RMO WR O. pose proof I as (W & _).
    destruct (own_run w0 e cap d g s ops I A RM) as
      (v0' & w1' & rs' & v'' & w'' & xs' & E' & ER' & SP & R & F & CF & NF & HL & HX).
    rewrite E in E'. inv E'. rewrite ER in ER'. inv ER'.
    pose proof (rep_shows_eq _ _ _ _ _ _ R SH) as ->.
    apply (fun R => rep_with_oracle _ _ _ _ _ orc' R (fun _ => NF)) in R.
    assert (AL : v_alloc v'' = true) by (unfold cfg_of in CF; inv CF; now destruct (v_alloc v'')).
    assert (ES : v_esz v'' = e) by (unfold cfg_of in CF; inv CF; reflexivity).
    rewrite <- ES in AO, RMO.
    destruct (run_op_fail (with_oracle w'' orc') v'' [] xs' [] o st R AL O AO RMO WR) as (v1 & w2 & EO & OC).
    destruct (only_cap_destroy _ _ _ _ _ _ _ R AL OC) as (w3 & ED & _ & HN & HF).
    exists v1, w2, (set_data v1 None), w3. split; [exact EO|]. split; [exact ED|].
    intros b. destruct (N.eq_dec b (blk v'')) as [->|NE].
    - rewrite HN. destruct (N.lt_ge_cases (blk v'') (nextb w0)) as [LT|GE].
      + destruct (HL _ LT) as [_ NE]. congruence.
      + symmetry. now apply W.
    - rewrite HF by assumption. cbn. now apply HX.
  Qed.
End VectorFinal.

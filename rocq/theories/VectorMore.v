(** Facts about reachable vectors used by the property theorems. *)
From Verif Require Import Base NListFacts Status Mem MemFacts VectorModel VectorSpec VectorDriver
  VectorRep VectorProofs VectorProofs2 VectorProofs3 VectorRefine VectorSearch VectorFail.
From Coq Require Import ZifyBool ZifyNat ZifyN Permutation.

Section VectorMore.
  Context {C : Type}.
  Notation vec := (vector C).
  Implicit Types (w : world C) (v : vec).

  Lemma nnth_ext {A} : forall (xs ys : list A), (forall i, nnth i xs = nnth i ys) -> xs = ys.
  Proof.
    induction xs as [|x xs IH]; intros [|y ys] H; auto.
    - specialize (H 0). discriminate.
    - specialize (H 0). discriminate.
    - f_equal.
      + specialize (H 0). unfold nnth in H. change (N.to_nat 0) with O in H. cbn in H. congruence.
      + apply IH. intros i. specialize (H (N.succ i)). unfold nnth in *.
        rewrite Nnat.N2Nat.inj_succ in H. exact H.
  Qed.

  Lemma rep_shows w v pre xs post : vrep w v pre xs post -> shows w v xs.
  Proof.
    intros R. split.
    - unfold vget_size. now rewrite (r_size _ _ _ _ _ R).
    - intros i. eapply read_elem_ok; eauto.
  Qed.
  Lemma rep_shows_eq w v pre xs post ys : vrep w v pre xs post -> shows w v ys -> ys = xs.
  Proof.
    intros R [_ H]. apply nnth_ext. intros i. specialize (H i).
    rewrite (read_elem_ok _ _ _ _ _ i R) in H. congruence.
  Qed.

  Lemma vspecs_len c ops (s : vstate C) rs s' : vspecs c ops s rs s' ->
    nlen (s_elems s') <= nlen (s_elems s) + demands ops.
  Proof.
    induction 1 as [|o ops s r s1 rs s2 H _ IH]; [lia|]. cbn [demands]. apply vspec_len in H. lia.
  Qed.
  Lemma vspec_fixed_cap c o (s : vstate C) r s' : c_fixed c = true -> vspec c o s r s' ->
    s_cap s' = s_cap s.
  Proof.
    intros CF H. destruct s as [xs cap lg], s' as [xs1 cap1 lg1]. cbn [s_cap].
    unfold vspec, spec_emplace, spec_insert, spec_delete, spec_resize, regrow, reshrink in H.
    cbn [s_elems s_cap s_log] in H. rewrite CF in H. cbn [orb] in H.
    repeat match goal with
    | H : context [match ?x with _ => _ end] |- _ => destruct x eqn:?
    | H : exists _, _ |- _ => destruct H
    | H : _ /\ _ |- _ => destruct H
    end; congruence.
  Qed.
  Lemma vspecs_fixed_cap c ops (s : vstate C) rs s' : c_fixed c = true -> vspecs c ops s rs s' ->
    s_cap s' = s_cap s.
  Proof.
    intros CF. induction 1 as [|o ops s r s1 rs s2 H _ IH]; [reflexivity|].
    apply vspec_fixed_cap in H; congruence.
  Qed.

  Lemma own_run w0 e cap d g s ops :
    init_args_ok w0 e cap d g s -> Forall (arg_ok e) ops -> room (demands ops) e ->
    exists v0 w1 rs v w xs,
      vinit_ex e cap d true g s w0 = Ok (ST_SUCCESS, Some v0) w1 /\
      run_ops v0 ops w1 = Ok (rs, v) w /\
      vspecs (mkcfg false g s e d) ops (mkst [] (N.max 1 cap) (dlog w0)) rs
             (mkst xs (v_cap v) (dlog w)) /\
      vrep w v [] xs [] /\ fits (nlen xs) e /\ cfg_of v = mkcfg false g s e d /\
      (forall t, exists fill, orc w t = AOk fill) /\
      (forall b, b < nextb w0 -> heap w b = heap w0 b /\ b <> blk v) /\
      (forall b, b <> blk v -> heap w b = heap w0 b).
  Proof.
    intros (W & AO & E1 & DK & GB & SB & MM) A RM. destruct (AO (tick w0)) as [fill O].
    destruct (init_ok w0 e cap d g s fill W O E1 MM DK GB SB) as
      (w1 & v0 & E & R & CP & ES & AL & CF & DL & OR & BB & NB & HH).
    assert (NF1 : forall t, exists fl, orc w1 t = AOk fl) by (rewrite OR; exact AO).
    destruct (run_ops_ok ops w1 v0 [] [] [] R (fun _ => NF1)) as (rs & w & v & xs & ER & G & SP).
    { now rewrite ES. } { rewrite ES. exact RM. }
    assert (LX : nlen xs <= demands ops) by apply (vspecs_len _ _ _ _ _ SP).
    destruct (g_frame _ _ _ _ _ _ _ G) as [FA FO FT FN FH FD].
    exists v0, w1, rs, v, w, xs. split; [exact E|]. split; [exact ER|].
    rewrite CF, CP, DL in SP. split; [exact SP|]. split; [apply G|]. split; [eapply fits_le; eauto|].
    split; [rewrite (cfg_of_same _ _ (g_cfg _ _ _ _ _ _ _ G)); exact CF|].
    split; [now rewrite FO|].
    assert (X : forall b, b <> blk v -> heap w b = heap w0 b).
    { intros b Hb. destruct (N.eq_dec b (blk v0)) as [->|NE].
      - destruct (FD ltac:(congruence)) as (_ & -> & _). symmetry. now apply W.
      - rewrite FH by assumption. now apply HH. }
    split; [|exact X]. intros b Hb.
    assert (NE : b <> blk v).
    { destruct (N.eq_dec (blk v) (blk v0)); [lia|]. destruct (FD n) as (_ & _ & ?). lia. }
    auto.
  Qed.

  Lemma buf_run w0 e cap d b pre buf post ops :
    buffer_args_ok w0 e cap d b pre buf post -> Forall (arg_ok e) ops -> room (demands ops) e ->
    exists v0 rs v w xs buf',
      vinit_custom e (Some (mkptr b (nlen pre))) cap d w0 = Ok (ST_SUCCESS, Some v0) w0 /\
      run_ops v0 ops w0 = Ok (rs, v) w /\
      vspecs (mkcfg true 1 0 e d) ops (mkst [] cap (dlog w0)) rs (mkst xs (v_cap v) (dlog w)) /\
      vrep w v pre xs post /\ fits (nlen xs) e /\ cfg_of v = mkcfg true 1 0 e d /\ blk v = b /\
      tick w = tick w0 /\
      v_data v = Some (mkptr b (nlen pre)) /\ v_cap v = cap /\
      heap w b = Some (pre ++ buf' ++ post) /\ nlen buf' = nlen buf /\
      (forall b', b' <> b -> heap w b' = heap w0 b').
  Proof.
    intros (W & HB & LB & E1 & C1 & MM & DK) A RM.
    destruct (init_custom_ok w0 e cap d b pre buf post W HB LB E1 C1 MM DK) as
      (v0 & E & R & CP & ES & AL & CF & BB).
    destruct (run_ops_ok ops w0 v0 pre [] post R) as (rs & w & v & xs & ER & G & SP).
    { intros A'. congruence. } { now rewrite ES. } { rewrite ES. exact RM. }
    assert (LX : nlen xs <= demands ops) by apply (vspecs_len _ _ _ _ _ SP).
    assert (CX : v_cap v = v_cap v0).
    { apply vspecs_fixed_cap in SP; [exact SP|]. now rewrite CF. }
    destruct (g_frame _ _ _ _ _ _ _ G) as [FA FO FT FN FH FD].
    assert (BV : blk v = b).
    { destruct (N.eq_dec (blk v) (blk v0)); [congruence|]. destruct (FD n) as (? & _). congruence. }
    pose proof (g_rep _ _ _ _ _ _ _ G) as RV.
    destruct (r_heap _ _ _ _ _ RV) as (sl & SL & HH).
    apply spare_exact in SL; [|intros AV; congruence].
    destruct (g_cfg _ _ _ _ _ _ _ G) as (_ & _ & _ & CE & _).
    exists v0, rs, v, w, xs, (concat xs ++ sl).
    split; [exact E|]. split; [exact ER|]. rewrite CF, CP in SP. split; [exact SP|].
    split; [exact RV|]. split; [eapply fits_le; eauto|].
    split; [rewrite (cfg_of_same _ _ (g_cfg _ _ _ _ _ _ _ G)); exact CF|]. split; [exact BV|].
    split; [now apply FT|]. split; [rewrite (r_data _ _ _ _ _ RV), BV; reflexivity|].
    split; [congruence|]. split; [rewrite <- BV, HH, <- app_assoc; reflexivity|].
    split.
    { rewrite nlen_app, SL, (nlen_concat _ _ (r_chunk _ _ _ _ _ RV)), LB, <- N.mul_add_distr_r.
      pose proof (r_le _ _ _ _ _ RV). rewrite CE, ES. f_equal. lia. }
    intros b' Hb. apply FH; congruence.
  Qed.

  Lemma reached_own_rep w v xs : reached_own w v xs ->
    vrep w v [] xs [] /\ fits (nlen xs) (v_esz v) /\ v_alloc v = true /\
    forall t, exists fill, orc w t = AOk fill.
  Proof.
    intros (w0 & e & cap & d & g & s & v0 & w1 & ops & rs & I & A & RM & E & ER & SH).
    destruct (own_run w0 e cap d g s ops I A RM) as
      (v0' & w1' & rs' & v' & w' & xs' & E' & ER' & _ & R & F & CF & O & _).
    rewrite E in E'. inv E'. rewrite ER in ER'. inv ER'.
    pose proof (rep_shows_eq _ _ _ _ _ _ R SH) as ->. split; [exact R|].
    unfold cfg_of in CF. inv CF. destruct (v_alloc v'); auto; discriminate.
  Qed.
  Lemma reached_rep w v xs : reached w v xs ->
    exists pre post, vrep w v pre xs post /\ fits (nlen xs) (v_esz v) /\ nofail w v.
  Proof.
    intros [H|H].
    - destruct (reached_own_rep _ _ _ H) as (R & F & A & O). exists [], []. split; [exact R|].
      split; [exact F|]. intros _. exact O.
    - destruct H as (w0 & e & cap & d & b & pre & buf & post & v0 & w1 & ops & rs & I & A & RM & E & ER & SH).
      destruct (buf_run w0 e cap d b pre buf post ops I A RM) as
        (v0' & rs' & v' & w' & xs' & buf' & E' & ER' & _ & R & F & CF & _).
      rewrite E in E'. inv E'. rewrite ER in ER'. inv ER'.
      pose proof (rep_shows_eq _ _ _ _ _ _ R SH) as ->. exists pre, post. split; [exact R|].
      unfold cfg_of in CF. inv CF. split; [exact F|].
      intros AL. rewrite AL in *. discriminate.
  Qed.

  (** ---- read-only calls with a caller-side key ---- *)
  Lemma with_arg_pure {A} w v pre xs post y (k : option ptr -> M C A) a :
    vrep w v pre xs post -> k (Some (mkptr (nextb w) 0)) (argw w y) = Ok a (argw w y) ->
    exists w', with_arg y k w = Ok a w' /\ (forall b, heap w' b = heap w b) /\ dlog w' = dlog w /\
      vrep w' v pre xs post.
  Proof.
    intros R E. exists (dropw (argw w y) (nextb w)).
    assert (H : forall b, heap (dropw (argw w y) (nextb w)) b = heap w b).
    { intros b. cbn. unfold hset. destruct (N.eqb_spec b (nextb w)) as [->|NE]; [|reflexivity].
      symmetry. apply R. lia. }
    split; [|split; [exact H|split; [reflexivity|]]].
    - unfold with_arg, argw in *. rewrite E. reflexivity.
    - destruct R. split; auto.
      + intros b L. rewrite H. apply r_wf. cbn in L. lia.
      + destruct r_heap as (s & SL & HH). exists s. split; [exact SL|]. now rewrite H.
  Qed.

  (** ---- pushing without reallocation ---- *)
  Lemma push_back_room w v pre xs post x :
    vrep w v pre xs post -> nlen x = v_esz v -> nlen xs + 1 <= v_cap v ->
    exists w', run_op v (OPushBack x) w = Ok (ST_SUCCESS, set_size v (nlen xs + 1)) w' /\
      tick w' = tick w /\ vrep w' (set_size v (nlen xs + 1)) pre (xs ++ [x]) post.
  Proof.
    intros R L CP. cbn [run_op]. destruct (argw_rep _ _ _ _ _ x R) as (R1 & S1 & N1).
    pose proof (rep_cap_lt _ _ _ _ _ R) as CL.
    assert (E : exists w2, vpush_back v (Some (mkptr (nextb w) 0)) (argw w x)
               = Ok (ST_SUCCESS, set_size v (nlen xs + 1)) w2 /\ tick w2 = tick w /\
               good (argw w x) v w2 (set_size v (nlen xs + 1)) pre (xs ++ [x]) post).
    { unfold vpush_back. cbn [nonnull negb].
      rewrite (bind_ok _ _ _ _ _ (rep_assert_valid _ _ _ _ _ R1)).
      unfold vgrow, should_grow. rewrite (r_size _ _ _ _ _ R), wadd_small by lia.
      destruct (N.ltb_spec (v_cap v) (nlen xs + 1)); [lia|].
      unfold bind at 1, ret at 1. okst. cbv iota.
      rewrite (r_size _ _ _ _ _ R).
      pose proof (shift_core (argw w x) v pre xs [] post 1) as SC. rewrite app_nil_r in SC.
      destruct (SC R1 ltac:(lia) CP) as (w1 & p & s2 & E1 & Lp & H1 & F1 & D1 & OF & FIN).
      rewrite (r_size _ _ _ _ _ R) in E1. rewrite N.ltb_irrefl in E1. unfold ret in E1. inv E1.
      rewrite (bind_ok _ _ (argw w x) tt (upd (argw w x) (blk v) ((pre ++ concat xs) ++ x ++ concat [] ++ s2 ++ post))).
      - rewrite wadd_small by lia. unfold ret. eexists. split; [reflexivity|]. split; [reflexivity|].
        specialize (FIN [x]). cbn [concat app] in FIN. rewrite app_nil_r in FIN.
        replace (nlen xs + 1) with (nlen (xs ++ [x])) by (nl; reflexivity).
        apply FIN; [|reflexivity]. apply chunked_cons. split; [assumption|apply chunked_nil].
      - rewrite OF. pose proof (src_read _ _ _ S1) as SR. rewrite L in SR.
        eapply memcpy_mid; [exact SR|exact L|exact H1|reflexivity| |].
        + lia.
        + apply overlap_other. cbn. lia. }
    destruct E as (w2 & E & T & G).
    exists (dropw w2 (nextb w)). split; [|split].
    - unfold with_arg, argw in *. rewrite E. reflexivity.
    - exact T.
    - apply (dropw_good _ _ _ _ _ _ _ _ _ R G).
  Qed.

  Lemma pushes_room : forall ys w v pre xs post,
    vrep w v pre xs post -> Forall (fun y => nlen y = v_esz v) ys -> nlen xs + nlen ys <= v_cap v ->
    exists v' w', run_ops v (map OPushBack ys) w = Ok (map (fun _ => ST_SUCCESS) ys, v') w' /\
      tick w' = tick w /\ v_data v' = v_data v /\ v_cap v' = v_cap v /\ vrep w' v' pre (xs ++ ys) post.
  Proof.
    induction ys as [|y ys IH]; intros w v pre xs post R K L.
    - exists v, w. rewrite app_nil_r. do 4 (split; [reflexivity|]). exact R.
    - inv K. rewrite nlen_cons in L.
      destruct (push_back_room w v pre xs post y R H1) as (w1 & E1 & T1 & R1); [lia|].
      destruct (IH w1 (set_size v (nlen xs + 1)) pre (xs ++ [y]) post R1 H2) as
        (v2 & w2 & E2 & T2 & D2 & C2 & R2).
      { nl. cbn [v_cap set_size]. lia. }
      exists v2, w2. split.
      + cbn [map run_ops]. rewrite (bind_ok _ _ _ _ _ E1). rewrite (bind_ok _ _ _ _ _ E2). reflexivity.
      + rewrite <- app_assoc in R2. cbn [app] in R2. rewrite D2, C2. cbn [v_data v_cap set_size].
        split; [congruence|]. split; [reflexivity|]. split; [reflexivity|]. exact R2.
  Qed.

  (** ---- failing constructor at the end ---- *)
  Lemma emplace_end_fail w v pre xs post f st y :
    vrep w v pre xs post -> nofail w v -> (nlen xs + 1) * v_growth v * v_esz v < W64 ->
    regrow (cfg_of v) (v_cap v) (nlen xs + 1) <> None ->
    (forall x, nlen x = v_esz v -> f x = (st, y x) /\ nlen (y x) = v_esz v) -> st_success st = false ->
    exists w' v' p, vemplace v (Some f) w = Ok (st, v', p) w' /\ good w v w' v' pre xs post /\
      dlog w' = dlog w.
  Proof.
    intros R NF SM RG FX ST. unfold vemplace, vemplace_ex. rewrite (r_size _ _ _ _ _ R).
    destruct (N.ltb_spec (nlen xs) (nlen xs)); [lia|].
    rewrite (bind_ok _ _ _ _ _ (rep_assert_valid _ _ _ _ _ R)).
    pose proof (vgrow_ok _ _ _ _ _ 1 R (nofail_grants _ _ NF) ltac:(lia) SM) as G.
    destruct (regrow (cfg_of v) (v_cap v) (nlen xs + 1)) as [cap|]; [|congruence].
    destruct G as (w1 & v1 & G & GD & CC & RM & DD). rewrite (bind_ok _ _ _ _ _ G). okst. cbv iota.
    pose proof (g_rep _ _ _ _ _ _ _ GD) as R1. destruct (g_cfg _ _ _ _ _ _ _ GD) as (_ & _ & _ & SE & _).
    pose proof (shift_core w1 v1 pre xs [] post 1) as SC. rewrite app_nil_r in SC.
    destruct (SC R1 ltac:(lia) ltac:(lia)) as (w2 & p & s2 & E1 & Lp & H2 & F2 & D2 & OF & FIN).
    rewrite (r_size _ _ _ _ _ R1) in *. rewrite N.ltb_irrefl in *. unfold ret in E1. inv E1.
    unfold bind at 1. unfold ret at 1. okst. cbv iota.
    rewrite N.mul_1_l in Lp. destruct (FX p) as [FP LY]; [congruence|].
    assert (RD : mread (offset v1 (nlen xs)) (v_esz v1) w2 = Ok p w2).
    { rewrite OF. eapply mread_mid; [exact H2|reflexivity|exact Lp]. }
    assert (WR : mwrite (offset v1 (nlen xs)) (y p) w2
                 = Ok tt (upd w2 (blk v1) ((pre ++ concat xs) ++ y p ++ concat [] ++ s2 ++ post))).
    { rewrite OF. eapply mwrite_mid; [exact H2|reflexivity|congruence]. }
    unfold bind at 1. unfold bind at 1. rewrite RD. rewrite FP. unfold bind at 1. rewrite WR. unfold ret at 1.
    cbv iota. rewrite ST. cbn [negb]. unfold ret.
    eexists _, _, _. split; [reflexivity|]. split; [|exact DD].
    eapply good_trans; [exact GD|apply R|]. split; [|apply same_cfg_refl|].
    - specialize (FIN [p]). destruct FIN as [FR _ _].
      { apply chunked_cons. split; [exact Lp|apply chunked_nil]. } { reflexivity. }
      destruct (r_heap _ _ _ _ _ R1) as (sl & SL & HH). rewrite HH in H2. inversion H2 as [H3].
      revert H3. cbn [concat app]. napp. intros H3. apply app_inv_head in H3. apply app_inv_head in H3.
      rewrite app_assoc in H3. apply app_inv_tail in H3. subst sl.
      replace v1 with (set_size v1 (nlen xs)) by (apply set_size_self; apply R1).
      eapply (rep_upd w2 v1 pre xs post xs (y p ++ s2)); [exact R1| | | |].
      + now napp.
      + apply R1.
      + apply R1.
      + replace (nlen (y p ++ s2)) with (nlen (p ++ s2)) by (rewrite !nlen_app; congruence). exact SL.
    - apply frame_upd; reflexivity.
  Qed.

  (** ---- swap twice ---- *)
  Lemma lswap_twice i j (l : list (list C)) : lswap i j (lswap i j l) = l.
  Proof.
    unfold lswap. destruct (nnth i l) as [x|] eqn:EI; [|now rewrite EI].
    destruct (nnth j l) as [y|] eqn:EJ; [|now rewrite EI, EJ].
    pose proof (nnth_lt _ _ _ EI) as LI. pose proof (nnth_lt _ _ _ EJ) as LJ.
    assert (LI' : nlen (lset i y l) = nlen l) by now apply nlen_lset.
    destruct (N.eq_dec i j) as [<-|NE].
    - assert (x = y) by congruence. subst y.
      assert (LS : lset i x l = l).
      { apply nnth_some in EI as (a & c & -> & LA). now apply lset_split. }
      rewrite !LS, EI, !LS. reflexivity.
    - rewrite (nnth_lset_other j i) by (try rewrite LI'; auto).
      rewrite (nnth_lset_same i y l LI). rewrite (nnth_lset_same j x (lset i y l)) by (rewrite LI'; auto).
      apply nnth_ext. intros k.
      assert (L1 : nlen (lset j x (lset i y l)) = nlen l) by (rewrite nlen_lset; lia).
      assert (L2 : nlen (lset i x (lset j x (lset i y l))) = nlen l) by (rewrite nlen_lset; lia).
      destruct (N.eq_dec k j) as [->|KJ].
      { rewrite nnth_lset_same by lia. now rewrite EJ. }
      rewrite (nnth_lset_other j k) by lia.
      destruct (N.eq_dec k i) as [->|KI].
      { rewrite nnth_lset_same by lia. now rewrite EI. }
      rewrite (nnth_lset_other i k) by lia. rewrite (nnth_lset_other j k) by lia.
      now rewrite (nnth_lset_other i k) by lia.
  Qed.
End VectorMore.

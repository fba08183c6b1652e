(** Loops that remove elements. *)
From Verif Require Import Base NListFacts Status MemFacts VectorModel VectorSpec VectorDriver
  VectorRep VectorProofs VectorProofs2 VectorProofs3 VectorRefine VectorSearch VectorFail VectorMore PurgeDriver Mem.
From Coq Require Import ZifyBool ZifyNat ZifyN.

Section PurgeProofs.
  Context {C : Type}.
  Implicit Types (w : world C) (v : vector C).

  (** One element out of the middle. *)
  Lemma delete_one w v pre a x b post : vrep w v pre (a ++ x :: b) post -> nofail w v -> fits (nlen (a ++ x :: b)) (v_esz v) ->
    exists w' v', vdelete v (nlen a) w = Ok (ST_SUCCESS, v') w' /\ good w v w' v' pre (a ++ b) post /\
      dlog w' = dlog w ++ destructed v [x].
  Proof.
    intros R NF F. pose proof (r_esz _ _ _ _ _ R) as EP.
    assert (LT : nlen (a ++ x :: b) < W64) by (unfold fits in F; nia).
    rewrite nlen_app, nlen_cons in LT.
    destruct (delete_range_ok w v pre _ post (nlen a) 1 R (nofail_grants _ _ NF) F) as (r & w' & v' & xs' & E & G & S); [lia|].
    unfold spec_delete in S. cbn [s_elems s_cap s_log] in S. change (1 =? 0) with false in S. cbv iota in S.
    rewrite nlen_app, nlen_cons in S. replace (nlen a + (nlen b + 1) <? nlen a + 1) with false in S by lia.
    try replace (nlen a + (1 + nlen b) <? nlen a + 1) with false in S by lia.
    destruct S as [-> S]. injection S as X1 X2 X3.
    rewrite (ldelete_split a [x] b) in X1 by reflexivity. subst xs'.
    exists w', v'. split; [exact E|]. split; [exact G|]. rewrite X3. f_equal.
    unfold destroyed, destructed, cfg_of. cbn [c_dtor]. unfold nsub. rewrite nskip_app_l by reflexivity.
    destruct (v_dtor v); reflexivity.
  Qed.

  Lemma destructed_app v xs ys : destructed v (xs ++ ys) = destructed v xs ++ destructed v ys.
  Proof. unfold destructed. now destruct (v_dtor v). Qed.
  Lemma destructed_same v v' xs : same_cfg v v' -> destructed v' xs = destructed v xs.
  Proof. intros S. 
    unfold destructed. destruct S as (S1 & S2 & S3 & S4 & S5). now rewrite S5. Qed.

  Lemma ends_app (p : list C -> bool) c x d : p x = true -> ends_with_match p (c ++ x :: d) = ends_with_match p d.
  Proof.
    intros P. unfold ends_with_match. rewrite rev_app_distr. cbn [rev]. rewrite <- app_assoc.
    destruct (rev d); cbn [app]; [exact P|reflexivity].
  Qed.
  Lemma filter_none {A} (p : A -> bool) l : (forall x, In x l -> p x = false) -> filter p l = [].
  Proof. induction l as [|a l IH]; intros H; [reflexivity|]. cbn. rewrite (H a) by now left. apply IH. intros. apply H. now right. Qed.
  Lemma filter_all {A} (p : A -> bool) l : (forall x, In x l -> p x = true) -> filter p l = l.
  Proof. induction l as [|a l IH]; intros H; [reflexivity|]. cbn. rewrite (H a) by now left. f_equal. apply IH. intros. apply H. now right. Qed.
  Lemma ends_none (p : list C -> bool) b : b <> [] -> (forall x, In x b -> p x = false) -> ends_with_match p b = false.
  Proof.
    intros N H. unfold ends_with_match. destruct (rev b) as [|x r] eqn:E.
    - destruct N. rewrite <- (rev_involutive b), E. reflexivity.
    - apply H, in_rev. rewrite E. now left.
  Qed.

  Lemma purge_run y cmp q : forall fuel w v pre a b post,
    vrep w v pre (a ++ b) post -> nofail w v -> fits (nlen (a ++ b)) (v_esz v) -> src w q y -> pb q <> blk v -> nlen y = v_esz v ->
    (forall x, In x a -> cmp x y = false) -> nlen b < N.of_nat fuel ->
    exists st w' v', purge_from v (Some q) cmp (nlen a) fuel w = Ok (st, v') w' /\
      good w v w' v' pre (a ++ filter (fun x => negb (cmp x y)) b) post /\
      dlog w' = dlog w ++ destructed v (filter (fun x => cmp x y) b) /\
      st = (if ends_with_match (fun x => cmp x y) b then ST_OUT_OF_RANGE else ST_FALSE).
  Proof.
    induction fuel as [|fuel IH]; intros w v pre a b post R NF F SQ PQ L A FU; [lia|].
    cbn [purge_from]. unfold vget_size. rewrite (r_size _ _ _ _ _ R). cbn [snd].
    pose proof (r_esz _ _ _ _ _ R) as EP.
    assert (LT : nlen (a ++ b) < W64) by (unfold fits in F; nia).
    pose proof LT as LT'. rewrite nlen_app in LT'.
    rewrite wsub_small by (rewrite nlen_app; lia).
    destruct (find_ok w v pre (a ++ b) post q y cmp (nlen a) (nlen (a ++ b) - nlen a) R SQ L) as (r & f & E & Q); [lia|].
    rewrite (bind_ok _ _ _ _ _ E). unfold find_result in Q. rewrite nlen_app in Q.
    replace (nlen a + nlen b <? nlen a + (nlen a + nlen b - nlen a)) with false in Q by lia. cbn [orb] in Q.
    destruct (N.eqb_spec (nlen a) (nlen a + nlen b)) as [NB|NB].
    - assert (b = []) as -> by (apply nlen_0; lia).
      destruct Q as [-> ->]. exists ST_OUT_OF_RANGE, w, v. split; [reflexivity|]. cbn [filter].
      split; [now apply good_refl|]. split; [|reflexivity]. unfold destructed. destruct (v_dtor v); now rewrite app_nil_r.
    - destruct Q as [Q ->]. destruct f as [i|]; cbn [first_match] in Q.
      + destruct Q as (Q1 & (x & X & T) & Q3). change (ST_TRUE =? ST_TRUE) with true. cbv iota.
        assert (SP : exists c d, b = c ++ x :: d /\ nlen a + nlen c = i).
        { apply nnth_some in X as (l1 & l2 & X & XL). 
          assert (K : exists c, l1 = a ++ c).
          { clear - X XL Q1. revert l1 i X XL Q1. induction a as [|h a IH]; intros l1 i X XL Q1; [now exists l1|].
            destruct l1 as [|h' l1]; [rewrite nlen_cons in Q1; change (nlen (@nil (list C))) with 0 in XL; lia|].
            cbn [app] in X. injection X as -> X. rewrite !nlen_cons in *.
            destruct (IH l1 (nlen l1) X) as (c & ->); [reflexivity|lia|]. now exists c. }
          destruct K as (c & ->). rewrite <- app_assoc in X. apply app_inv_head in X. exists c, l2. split; [exact X|].
          rewrite nlen_app in XL. exact XL. }
        destruct SP as (c & d & -> & <-).
        assert (CN : forall z, In z c -> cmp z y = false).
        { intros z Z. apply in_split in Z as (c1 & c2 & ->). apply (Q3 (nlen a + nlen c1)).
          - rewrite nlen_app, nlen_cons. lia.
          - rewrite <- app_assoc. cbn [app]. rewrite app_assoc. rewrite nnth_app2 by (rewrite nlen_app; lia).
            rewrite nlen_app. replace (nlen a + nlen c1 - (nlen a + nlen c1)) with 0 by lia. reflexivity. }
        rewrite app_assoc in R, F.
        destruct (delete_one w v pre (a ++ c) x d post R NF F) as (w1 & v1 & E1 & G1 & D1).
        rewrite nlen_app in E1. rewrite (bind_ok _ _ _ _ _ E1). cbv iota. change (st_success ST_SUCCESS) with true. cbv iota.
        destruct (src_frame _ _ _ _ _ _ SQ PQ (r_wf _ _ _ _ _ R) (g_frame _ _ _ _ _ _ _ G1)) as [SQ1 PQ1].
        pose proof (g_cfg _ _ _ _ _ _ _ G1) as CF. pose proof CF as (_ & _ & _ & CE & _).
        destruct (IH w1 v1 pre (a ++ c) d post) as (st & w2 & v2 & E2 & G2 & D2 & S2).
        { apply G1. } { eapply nofail_frame; [exact NF|exact CF|apply G1]. }
        { rewrite CE || rewrite <- CE. eapply fits_le; [|exact F]. rewrite !nlen_app, nlen_cons. lia. }
        { exact SQ1. } { exact PQ1. } { congruence. }
        { intros z Z. apply in_app_iff in Z as [Z|Z]; auto. }
        { rewrite nlen_app, nlen_cons in FU. lia. }
        rewrite nlen_app in E2. exists st, w2, v2. split; [exact E2|]. rewrite !filter_app. cbn [filter]. rewrite T. cbn [negb].
        split.
        * rewrite (filter_all (fun x => negb (cmp x y)) c) by (intros z Z; now rewrite (CN z Z)). rewrite app_assoc.
          eapply good_trans; [exact G1|apply R|exact G2].
        * split; [|rewrite ends_app by exact T; exact S2]. rewrite (filter_none (fun x => cmp x y) c) by exact CN. cbn [app].
          change (x :: filter (fun x => cmp x y) d) with ([x] ++ filter (fun x => cmp x y) d).
          rewrite destructed_app, D2, D1, (destructed_same _ _ _ CF), app_assoc. reflexivity.
      + change (ST_FALSE =? ST_TRUE) with false. cbv iota.
        assert (BN : forall z, In z b -> cmp z y = false).
        { intros z Z. apply in_split in Z as (c1 & c2 & ->). apply (Q (nlen a + nlen c1)).
          - rewrite !nlen_app, !nlen_cons in *. lia.
          - rewrite app_assoc. rewrite nnth_app2 by (rewrite nlen_app; lia).
            rewrite nlen_app. replace (nlen a + nlen c1 - (nlen a + nlen c1)) with 0 by lia. reflexivity. }
        exists ST_FALSE, w, v. split; [reflexivity|].
        rewrite (filter_all (fun x => negb (cmp x y)) b) by (intros z Z; now rewrite (BN z Z)).
        rewrite (filter_none (fun x => cmp x y) b) by exact BN.
        split; [now apply good_refl|]. split; [unfold destructed; destruct (v_dtor v); now rewrite app_nil_r|].
        rewrite ends_none; [reflexivity| |exact BN]. intros ->. change (nlen (@nil (list C))) with 0 in NB. lia.
  Qed.

  Lemma purge_ok w v xs y cmp : reached w v xs -> nlen y = v_esz v ->
    exists st w' v', purge v y cmp w = Ok (st, v') w' /\
      shows w' v' (filter (fun x => negb (cmp x y)) xs) /\
      dlog w' = dlog w ++ destructed v (filter (fun x => cmp x y) xs) /\
      st = (if ends_with_match (fun x => cmp x y) xs then ST_OUT_OF_RANGE else ST_FALSE) /\
      (forall b, Some b <> option_map pb (v_data v) -> Some b <> option_map pb (v_data v') -> heap w' b = heap w b).
  Proof.
    intros R L. destruct (reached_rep _ _ _ R) as (pre & post & RR & F & NF).
    destruct (argw_rep w v pre xs post y RR) as (RA & SA & NB).
    destruct (purge_run y cmp (mkptr (nextb w) 0) (N.to_nat (nlen xs) + 1) (argw w y) v pre [] xs post) as (st & w' & v' & E & G & D & S);
      try assumption.
    { intros x []. } { lia. }
    cbn [app] in G. change (nlen (@nil (list C))) with 0 in E.
    exists st, (dropw w' (nextb w)), v'.
    assert (GD := dropw_good _ _ _ _ _ _ _ _ _ RR G).
    split; [|split; [|split; [|split]]].
    - unfold purge, with_arg, vget_size. rewrite (r_size _ _ _ _ _ RR). cbn [snd]. unfold argw in E. rewrite E. reflexivity.
    - eapply rep_shows. apply GD.
    - exact D.
    - exact S.
    - intros b B1 B2. apply (fr_heap _ _ _ _ (g_frame _ _ _ _ _ _ _ GD)).
      + intros ->. apply B1. pose proof (r_data _ _ _ _ _ RR) as P.
        rewrite P. reflexivity.
      + intros ->. apply B2. pose proof (r_data _ _ _ _ _ (g_rep _ _ _ _ _ _ _ GD)) as P.
        rewrite P. reflexivity.
  Qed.

  Lemma run_ops_snoc o ops : forall v0 w1 rs v w r v' w',
    run_ops v0 ops w1 = Ok (rs, v) w -> run_op v o w = Ok (r, v') w' ->
    run_ops v0 (ops ++ [o]) w1 = Ok (rs ++ [r], v') w'.
  Proof.
    induction ops as [|p ops IH]; intros v0 w1 rs v w r v' w' E R; cbn [run_ops app] in *.
    - unfold ret in E. injection E as <- <- <-. unfold bind. rewrite R. reflexivity.
    - unfold bind in *. destruct (run_op v0 p w1) as [[r1 v1] w2|f]; [|discriminate].
      destruct (run_ops v1 ops w2) as [[rs2 v2] w3|f] eqn:E2; [|discriminate].
      unfold ret in E. injection E as <- <- <-. rewrite (IH _ _ _ _ _ _ _ _ E2 R). reflexivity.
  Qed.
  Lemma demands_snoc (ops : list (vop C)) o : demands (ops ++ [o]) = demands ops + demand o.
  Proof. induction ops as [|p ops IH]; cbn [demands app]; [|rewrite IH]; lia. Qed.
  (** A call with no demand leads from a reachable vector to a reachable one. *)
  Lemma reached_on w v xs o r v' w' ys : reached w v xs -> (forall e, arg_ok e o) -> demand o = 0 ->
    run_op v o w = Ok (r, v') w' -> shows w' v' ys -> reached w' v' ys.
  Proof.
    intros R A D E SH. destruct R as [R|R].
    - destruct R as (w0 & e & cap & d & g & s & v0 & w1 & ops & rs & I & F & RM & E0 & ER & _). left.
      exists w0, e, cap, d, g, s, v0, w1, (ops ++ [o]), (rs ++ [r]). split; [exact I|].
      split; [apply Forall_app; split; [exact F|]; constructor; [apply A|constructor]|].
      split; [rewrite demands_snoc, D, N.add_0_r; exact RM|]. split; [exact E0|]. split; [|exact SH].
      eapply run_ops_snoc; eauto.
    - destruct R as (w0 & e & cap & d & b & pre & buf & post & v0 & w1 & ops & rs & I & F & RM & E0 & ER & _). right.
      exists w0, e, cap, d, b, pre, buf, post, v0, w1, (ops ++ [o]), (rs ++ [r]). split; [exact I|].
      split; [apply Forall_app; split; [exact F|]; constructor; [apply A|constructor]|].
      split; [rewrite demands_snoc, D, N.add_0_r; exact RM|]. split; [exact E0|]. split; [|exact SH].
      eapply run_ops_snoc; eauto.
  Qed.

  Lemma weed_run p : forall n w v a b,
    reached w v (a ++ b) -> nlen a = N.of_nat n ->
    exists w' v', weed_down v p n w = Ok (ST_SUCCESS, v') w' /\
      reached w' v' (filter (fun x => negb (p x)) a ++ b) /\ same_cfg v v' /\
      dlog w' = dlog w ++ destructed v (rev (filter p a)) /\
      (forall b, b < nextb w -> b <> blk v -> heap w' b = heap w b) /\ nextb w <= nextb w' /\ (blk v' = blk v \/ nextb w <= blk v').
  Proof.
    induction n as [|n IH]; intros w v a b RE N.
    - assert (a = []) as -> by (apply nlen_0; lia). exists w, v. split; [reflexivity|]. split; [exact RE|]. split; [apply same_cfg_refl|].
      split; [unfold destructed; destruct (v_dtor v); now rewrite app_nil_r|]. split; [reflexivity|]. split; [lia|now left].
    - destruct (@exists_last _ a) as (c & x & ->); [intros ->; change (nlen (@nil (list C))) with 0 in N; lia|].
      assert (NC : nlen c = N.of_nat n) by (rewrite nlen_app in N; change (nlen [x]) with 1 in N; lia).
      rewrite <- app_assoc in RE. cbn [app] in RE. cbn [weed_down].
      destruct (reached_rep _ _ _ RE) as (pre & post & R & F & NF).
      rewrite (bind_ok _ _ _ _ _ (read_elem_ok _ _ _ _ _ (N.of_nat n) R)).
      rewrite nnth_app2 by lia. replace (N.of_nat n - nlen c) with 0 by lia. change (nnth 0 (x :: b)) with (Some x). cbv iota.
      rewrite !filter_app, rev_app_distr. cbn [filter]. destruct (p x) eqn:P; cbn [negb app rev].
      + destruct (delete_one w v pre c x b post R NF F) as (w1 & v1 & E1 & G1 & D1).
        rewrite <- NC. rewrite (bind_ok _ _ _ _ _ E1). cbv iota. change (st_success ST_SUCCESS) with true. cbv iota.
        pose proof (g_cfg _ _ _ _ _ _ _ G1) as CF.
        assert (LT : nlen (c ++ x :: b) < W64) by (pose proof (r_esz _ _ _ _ _ R); unfold fits in F; nia).
        rewrite nlen_app, nlen_cons in LT.
        assert (RE1 : reached w1 v1 (c ++ b)).
        { apply (reached_on w v (c ++ x :: b) (ODelete (nlen c)) ST_SUCCESS); [exact RE| |reflexivity|exact E1|eapply rep_shows; apply G1].
          intros e. cbn [arg_ok]. lia. }
        destruct (IH w1 v1 c b RE1 NC) as (w2 & v2 & E2 & R2 & C2 & D2 & H2 & N2 & B2).
        pose proof (g_frame _ _ _ _ _ _ _ G1) as [_ _ _ FN FH FO]. pose proof (rep_blk_lt _ _ _ _ _ R) as BL.
        exists w2, v2. split; [exact E2|]. rewrite app_nil_r. split; [exact R2|]. split; [eapply same_cfg_trans; eauto|].
        split.
        { change (x :: rev (filter p c)) with ([x] ++ rev (filter p c)).
          rewrite destructed_app, D2, D1, (destructed_same _ _ _ CF), app_assoc. reflexivity. }
        assert (BV : blk v1 = blk v \/ nextb w <= blk v1).
        { destruct (N.eq_dec (blk v1) (blk v)) as [|NE]; [now left|]. right. now destruct (FO NE) as (_ & _ & ?). }
        split; [|split; [lia|destruct B2; [destruct BV|]; [left; congruence|right; congruence|right; lia]]].
        intros k K1 K2. assert (k <> blk v1) by (destruct BV; [congruence|lia]). rewrite H2 by (assumption || lia). now apply FH.
      + destruct (IH w v c (x :: b) RE NC) as (w2 & v2 & E2 & R2 & C2 & D2 & H2).
        exists w2, v2. split; [exact E2|]. rewrite <- app_assoc. split; [exact R2|]. split; [exact C2|]. split; [exact D2|exact H2].
  Qed.
  Lemma weed_ok w v xs p : reached w v xs ->
    exists w' v', weed v p w = Ok (ST_SUCCESS, v') w' /\
      reached w' v' (filter (fun x => negb (p x)) xs) /\
      dlog w' = dlog w ++ destructed v (rev (filter p xs)) /\
      (forall b, b < nextb w -> Some b <> option_map pb (v_data v) -> heap w' b = heap w b).
  Proof.
    intros R. destruct (reached_rep _ _ _ R) as (pre & post & RR & F & NF).
    destruct (weed_run p (N.to_nat (nlen xs)) w v xs []) as (w' & v' & E & G & _ & D & H & _).
    { now rewrite app_nil_r. } { lia. }
    rewrite app_nil_r in G. exists w', v'. split; [|split; [exact G|split; [exact D|]]].
    - unfold weed, vget_size. rewrite (r_size _ _ _ _ _ RR). cbn [snd]. exact E.
    - intros b B1 B2. apply H; [exact B1|]. intros ->. apply B2. pose proof (r_data _ _ _ _ _ RR) as P. rewrite P. reflexivity.
  Qed.
End PurgeProofs.

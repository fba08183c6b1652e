(** Each vector operation meets its list specification. *)
From Verif Require Import Base NListFacts Status Mem MemFacts VectorModel VectorSpec VectorRep.
From Coq Require Import ZifyBool ZifyNat ZifyN.

Ltac inv H := inversion H; subst; clear H.
Ltac napp := repeat rewrite <- app_assoc.
Ltac nl := repeat (rewrite nlen_app || rewrite nlen_cons || rewrite nlen_nil).

Section VectorProofs.
  Context {C : Type}.
  Notation vec := (vector C).
  Implicit Types (w : world C) (v : vec).

  (** ---- reallocation ---- *)

  Lemma vreallocate_ok w v pre xs post c fill :
    vrep w v pre xs post -> v_alloc v = true -> orc w (tick w) = AOk fill ->
    nlen xs <= N.max 1 c -> N.max 1 c * v_esz v < W64 ->
    exists w' v', vreallocate v c w = Ok (ST_SUCCESS, v') w' /\
      vrep w' v' pre xs post /\ same_cfg v v' /\ frame w w' v v' /\
      v_cap v' = N.max 1 c /\ v_size v' = v_size v /\ dlog w' = dlog w.
  Proof.
    intros R A O L Mm. pose proof (r_alloc _ _ _ _ _ R) as RA. rewrite A in RA.
    destruct RA as (-> & -> & RG & RS).
    pose proof (r_cap _ _ _ _ _ R) as CP. pose proof (r_esz _ _ _ _ _ R) as EP.
    unfold vreallocate.
    replace (VECTOR_MIN_CAPACITY <=? v_cap v) with true by (unfold VECTOR_MIN_CAPACITY; lia).
    unfold bind at 1. cbn [assert]. unfold ret at 1.
    rewrite (bind_ok _ _ w _ w (rep_assert_valid _ _ _ _ _ R)). rewrite A. cbn [negb].
    destruct (r_heap _ _ _ _ _ R) as (slack & SL & HH). cbn [app] in HH.
    assert (G : forall k, 1 <= k -> nlen xs <= k -> k * v_esz v < W64 ->
      exists w' v', vreallocate_to v k w = Ok (ST_SUCCESS, v') w' /\
      vrep w' v' [] xs [] /\ same_cfg v v' /\ frame w w' v v' /\
      v_cap v' = k /\ v_size v' = v_size v /\ dlog w' = dlog w).
    { intros k K1 K2 K3. unfold vreallocate_to, bind, realloc. cbn [v_data set_cap v_esz v_cap].
      replace ((v_esz v =? 0) || (k =? 0)) with false by lia.
      rewrite (r_data _ _ _ _ _ R). cbn [pb po nlen length]. rewrite HH.
      cbn [N.eqb negb N.of_nat]. replace (negb (N.of_nat 0 =? 0)) with false by reflexivity.
      rewrite O. unfold ret. cbn [st_success].
      replace (st_success ST_SUCCESS) with true by reflexivity.
      eexists _, _. split; [reflexivity|].
      rewrite wmul_small by (rewrite N.mul_comm; lia).
      pose proof (nlen_concat _ _ (r_chunk _ _ _ _ _ R)) as LC.
      set (buf' := _ ++ _).
      assert (B' : exists slack', nlen slack' = (k - nlen xs) * v_esz v /\
                 buf' = concat xs ++ slack').
      { unfold buf'. clear buf'. rewrite app_nil_r.
        assert (P1 : nlen xs * v_esz v <= k * v_esz v) by now apply mul_le.
        assert (P2 : nlen xs * v_esz v <= v_cap v * v_esz v) by (apply mul_le; apply R).
        exists (nfirst (k * v_esz v - nlen (concat xs)) slack
           ++ nskip (nlen (concat xs ++ slack)) (fresh fill (k * v_esz v))).
        split.
        - rewrite nlen_app, nlen_nfirst, nlen_nskip, nlen_fresh, nlen_app, LC.
          rewrite !N.mul_sub_distr_r. lia.
        - rewrite (N.mul_comm (v_esz v) k).
          rewrite app_assoc. f_equal.
          unfold nfirst, nlen in *. rewrite firstn_app. f_equal.
          + apply firstn_all2. lia.
          + f_equal. lia. }
      destruct B' as (slack' & SL' & BE).
      split; [|repeat split; try reflexivity].
      - destruct R. split; cbn [v_cap v_esz v_size v_data v_alloc v_growth v_shrink v_dtor set_cap set_data blk pb]; auto; try lia.
        + intros b Hb. cbn [heap nextb] in *. unfold hset.
          pose proof (live_lt w (blk v) _ r_wf HH).
          destruct (N.eqb_spec b (nextb w)); [lia|].
          destruct (N.eqb_spec b (blk v)); [reflexivity|]. apply r_wf. lia.
        + exists slack'. split; [apply spare_eq; exact SL'|]. cbn [heap app]. unfold hset. rewrite N.eqb_refl.
          rewrite app_nil_r. congruence.
      - intros A'. congruence.
      - cbn. lia.
      - intros b B1 B2. cbn in *. unfold hset.
        destruct (N.eqb_spec b (nextb w)); [congruence|].
        destruct (N.eqb_spec b (blk v)); [congruence|]. reflexivity.
      - exact A.
      - pose proof (rep_blk_lt _ _ _ _ _ R).
        cbn. intros. unfold hset. destruct (N.eqb_spec (blk v) (nextb w)); [lia|].
        now rewrite N.eqb_refl. }
    unfold VECTOR_MIN_CAPACITY.
    destruct (N.ltb_spec c 1).
    - destruct (N.ltb_spec 1 (v_cap v)).
      + replace (N.max 1 c) with 1 in * by lia. apply G; lia.
      + exists w, v. unfold ret. split; [reflexivity|]. split; [exact R|].
        split; [apply same_cfg_refl|]. split; [apply frame_refl|]. repeat split; lia.
    - replace (N.max 1 c) with c in * by lia. apply G; lia.
  Qed.

  Lemma vreallocate_fail w v pre xs post c st :
    vrep w v pre xs post -> v_alloc v = true -> orc w (tick w) = AFail st -> 1 <= c ->
    vreallocate v c w = Ok (err_status st, set_cap v c)
      (mkbuild (heap w) (nextb w) (orc w) (tick w + 1) (dlog w) (checked w)).
  Proof.
    intros R A O L. pose proof (r_alloc _ _ _ _ _ R) as RA. rewrite A in RA.
    destruct RA as (-> & -> & RG & RS).
    pose proof (r_cap _ _ _ _ _ R) as CP. pose proof (r_esz _ _ _ _ _ R) as EP.
    unfold vreallocate.
    replace (VECTOR_MIN_CAPACITY <=? v_cap v) with true by (unfold VECTOR_MIN_CAPACITY; lia).
    unfold bind at 1. cbn [assert]. unfold ret at 1.
    rewrite (bind_ok _ _ w _ w (rep_assert_valid _ _ _ _ _ R)). rewrite A. cbn [negb].
    destruct (r_heap _ _ _ _ _ R) as (slack & SL & HH).
    unfold VECTOR_MIN_CAPACITY. destruct (N.ltb_spec c 1); [lia|].
    unfold vreallocate_to, bind, realloc. cbn [v_data set_cap v_esz v_cap].
    replace ((v_esz v =? 0) || (c =? 0)) with false by lia.
    rewrite (r_data _ _ _ _ _ R). cbn [pb po nlen length]. rewrite HH.
    change (negb (nlen (@nil C) =? 0)) with false. cbn [andb]. cbv iota.
    rewrite O. unfold ret. rewrite st_success_err. do 2 f_equal.
    destruct v. unfold set_data, set_cap. cbn in *. f_equal. f_equal. symmetry. apply R.
  Qed.

  Lemma vreallocate_fixed w v pre xs post c :
    vrep w v pre xs post -> v_alloc v = false ->
    vreallocate v c w =
      Ok (if v_cap v <? c then ST_INSUFFICIENT_BUFFER_SIZE else ST_SUCCESS, v) w.
  Proof.
    intros R A.
    pose proof (r_cap _ _ _ _ _ R) as CP.
    unfold vreallocate.
    replace (VECTOR_MIN_CAPACITY <=? v_cap v) with true by (unfold VECTOR_MIN_CAPACITY; lia).
    unfold bind at 1. cbn [assert]. unfold ret at 1.
    rewrite (bind_ok _ _ w _ w (rep_assert_valid _ _ _ _ _ R)). rewrite A. cbn [negb].
    now destruct (v_cap v <? c).
  Qed.

  (** Outcome of an operation that succeeded. *)
  Record good w v w' v' pre xs' post : Prop := mkgood {
    g_rep   : vrep w' v' pre xs' post;
    g_cfg   : same_cfg v v';
    g_frame : frame w w' v v'
  }.
  Lemma good_refl w v pre xs post : vrep w v pre xs post -> good w v w v pre xs post.
  Proof. intros. split; [assumption|apply same_cfg_refl|apply frame_refl]. Qed.
  Lemma good_trans w1 v1 w2 v2 w3 v3 pre xs ys post :
    good w1 v1 w2 v2 pre xs post -> wfw w1 -> good w2 v2 w3 v3 pre ys post ->
    good w1 v1 w3 v3 pre ys post.
  Proof.
    intros [] W []. split; [assumption|eapply same_cfg_trans; eauto|eapply frame_trans; eauto].
  Qed.

  (** ---- growth ---- *)

  Lemma vgrow_ok w v pre xs post n :
    vrep w v pre xs post -> grants w v -> 1 <= n ->
    (nlen xs + n) * v_growth v * v_esz v < W64 ->
    match regrow (cfg_of v) (v_cap v) (nlen xs + n) with
    | None => vgrow v n w = Ok (ST_INSUFFICIENT_BUFFER_SIZE, v) w
    | Some cap => exists w' v', vgrow v n w = Ok (ST_SUCCESS, v') w' /\
        good w v w' v' pre xs post /\ v_cap v' = cap /\ nlen xs + n <= cap /\ dlog w' = dlog w
    end.
  Proof.
    intros R NF N1 SM. pose proof (r_size _ _ _ _ _ R) as RS. pose proof (r_esz _ _ _ _ _ R).
    assert (GG : 1 <= v_growth v).
    { pose proof (r_alloc _ _ _ _ _ R). destruct (v_alloc v); lia. }
    assert (S1 : (nlen xs + n) * v_growth v < W64) by nia.
    assert (S2 : nlen xs + n < W64) by nia.
    unfold vgrow, regrow, should_grow. rewrite RS, wadd_small, wmul_small by assumption.
    rewrite N.leb_antisym.
    destruct (N.ltb_spec (v_cap v) (nlen xs + n)); cbn [negb].
    - cbn [cfg_of c_fixed c_growth].
      replace (N.max 1 ((nlen xs + n) * v_growth v)) with ((nlen xs + n) * v_growth v) by nia.
      destruct (v_alloc v) eqn:A; cbn [negb].
      + destruct (NF A) as [fill O].
        destruct (vreallocate_ok w v pre xs post ((nlen xs + n) * v_growth v) fill R A O)
          as (w' & v' & E & R' & SC & F & CC & SS & DD).
        * assert (nlen xs <= (nlen xs + n) * v_growth v) by nia. lia.
        * replace (N.max 1 ((nlen xs + n) * v_growth v)) with ((nlen xs + n) * v_growth v) by nia.
          assumption.
        * exists w', v'. split; [exact E|]. split; [split; assumption|].
          split; [rewrite CC; nia|]. split; [nia|assumption].
      + rewrite (vreallocate_fixed _ _ _ _ _ _ R A).
        pose proof (r_alloc _ _ _ _ _ R) as RA. rewrite A in RA. destruct RA as [-> _].
        rewrite N.mul_1_r. destruct (N.ltb_spec (v_cap v) (nlen xs + n)); [reflexivity|lia].
    - exists w, v. split; [reflexivity|]. split; [now apply good_refl|]. auto.
  Qed.

  Lemma linsert_split (a b ys : list (list C)) i : nlen a = i -> linsert i ys (a ++ b) = a ++ ys ++ b.
  Proof. intros. unfold linsert. now rewrite nfirst_app_l, nskip_app_l. Qed.

  (** ---- insertion ---- *)

  (** The shift that opens a gap of [n] elements at [nlen a], in a vector that has room. *)
  Lemma shift_core w v pre a b post n :
    vrep w v pre (a ++ b) post -> 1 <= n -> nlen (a ++ b) + n <= v_cap v ->
    exists w1 p s2,
      (if nlen a <? v_size v then vshift_right v (nlen a) n else ret ST_SUCCESS) w
        = Ok ST_SUCCESS w1 /\
      nlen p = n * v_esz v /\
      heap w1 (blk v) = Some ((pre ++ concat a) ++ p ++ concat b ++ s2 ++ post) /\
      (forall b', b' <> blk v -> heap w1 b' = heap w b') /\ dlog w1 = dlog w /\
      offset v (nlen a) = Some (mkptr (blk v) (nlen (pre ++ concat a))) /\
      (forall ys, chunked (v_esz v) ys -> nlen ys = n ->
         good w v (upd w1 (blk v) ((pre ++ concat a) ++ concat ys ++ concat b ++ s2 ++ post))
           (set_size v (nlen (a ++ ys ++ b))) pre (a ++ ys ++ b) post).
  Proof.
    intros R N1 RM.
    pose proof (r_esz _ _ _ _ _ R) as EP. pose proof (r_mem _ _ _ _ _ R) as MM.
    pose proof (r_size _ _ _ _ _ R) as RS. pose proof (rep_cap_lt _ _ _ _ _ R) as CW.
    destruct (proj1 (chunked_app _ _ _) (r_chunk _ _ _ _ _ R)) as [Ka Kb].
    pose proof (nlen_concat _ _ Ka) as La. pose proof (nlen_concat _ _ Kb) as Lb.
    destruct (r_heap _ _ _ _ _ R) as (slack & SL & HH).
    rewrite concat_app in HH. revert HH; napp; intros HH.
    rewrite nlen_app in RM, SL.
    assert (Q : n * v_esz v <= nlen slack).
    { etransitivity; [|exact (spare_le _ _ _ SL)]. apply mul_le. lia. }
    destruct (nsplit _ _ Q) as (s1 & s2 & -> & Ls1).
    revert HH; napp; intros HH. rewrite nlen_app in SL.
    rewrite (rep_offset _ _ _ _ _ (nlen a) R) by lia.
    assert (SLX : spare (nofail w v) ((v_cap v - (nlen a + n + nlen b)) * v_esz v) (nlen s2)).
    { eapply (spare_minus _ _ _ _ _ (n * v_esz v)); [exact SL| |lia].
      rewrite <- N.mul_add_distr_r. f_equal. lia. }
    assert (SH : exists w1 p, nlen p = n * v_esz v /\
      (if nlen a <? v_size v then vshift_right v (nlen a) n else ret ST_SUCCESS) w
        = Ok ST_SUCCESS w1 /\
      heap w1 (blk v) = Some ((pre ++ concat a) ++ p ++ concat b ++ s2 ++ post) /\
      (forall b', b' <> blk v -> heap w1 b' = heap w b') /\
      orc w1 = orc w /\ tick w1 = tick w /\ nextb w1 = nextb w /\ dlog w1 = dlog w).
    { destruct (N.ltb_spec (nlen a) (v_size v)).
      - destruct (nsplit (n * v_esz v) (concat b ++ s1)) as (p & r & PE & Lp).
        { rewrite nlen_app. lia. }
        assert (Lr : nlen r = nlen (concat b)).
        { apply (f_equal nlen) in PE. rewrite !nlen_app in PE. lia. }
        exists (upd w (blk v) ((pre ++ concat a ++ p) ++ concat b ++ s2 ++ post)), p.
        split; [exact Lp|]. split.
        + unfold vshift_right.
          rewrite (bind_ok _ _ w _ w (rep_assert_valid _ _ _ _ _ R)).
          unfold assert. replace (0 <? n) with true by lia.
          rewrite RS. rewrite wadd_small by (rewrite nlen_app; lia).
          replace (nlen (a ++ b) + n <=? v_cap v) with true by (rewrite nlen_app; lia).
          unfold bind, ret.
          rewrite wadd_small by lia.
          rewrite wsub_small by (rewrite nlen_app; lia).
          rewrite nlen_app. replace (nlen a + nlen b - nlen a) with (nlen b) by lia.
          rewrite wmul_small.
          2:{ eapply N.le_lt_trans; [|exact MM]. apply mul_le. lia. }
          rewrite (rep_offset _ _ _ _ _ _ R) by lia.
          rewrite (rep_offset _ _ _ _ _ _ R) by lia.
          rewrite (memmove_mid w _ (nlen b * v_esz v) (blk v) _ (pre ++ concat a ++ p) r (s2 ++ post) (concat b)).
          * reflexivity.
          * eapply (mread_mid w _ _ _ (pre ++ concat a) (concat b) (s1 ++ s2 ++ post)).
            -- rewrite HH. now napp.
            -- rewrite nlen_app. lia.
            -- exact Lb.
          * exact Lb.
          * rewrite HH. f_equal. napp. do 2 f_equal.
            rewrite (app_assoc (concat b)), PE. now napp.
          * nl. rewrite N.mul_add_distr_r. lia.
          * lia.
        + split; [rewrite heap_upd_same; now napp|]. repeat split; try reflexivity.
          intros. now apply heap_upd_other.
      - assert (b = []) by (apply nlen_0; rewrite RS, nlen_app in *; lia). subst b.
        exists w, s1. split; [exact Ls1|]. split; [reflexivity|].
        split; [|now repeat split]. rewrite HH. cbn [concat app]. now napp. }
    destruct SH as (w1 & p & Lp & ESH & H1 & F1 & O1 & T1 & X1 & D1).
    exists w1, p, s2. do 5 (split; [assumption|]). split; [rewrite nlen_app; now rewrite La|].
    intros ys' K' L'. pose proof (rep_blk_lt _ _ _ _ _ R) as BL.
    split; [|apply same_cfg_set_size|].
    - destruct R. split; cbn [v_cap v_esz v_size v_data v_alloc v_growth v_shrink v_dtor set_size]; auto.
      + apply wfw_upd; [|lia]. intros b' Hb'. rewrite F1 by lia. apply r_wf. lia.
      + exists s2. split.
        * replace (nlen (a ++ ys' ++ b)) with (nlen a + n + nlen b) by (nl; lia).
          refine (spare_imp _ _ _ _ _ SLX). unfold nofail. cbn. now rewrite O1.
        * rewrite blk_set_size, heap_upd_same. rewrite !concat_app. now napp.
      + apply chunked_app; split; [assumption|]. apply chunked_app; now split.
      + nl. lia.
    - apply frame_blk; auto. intros b' Hb'. rewrite heap_upd_other by assumption. now apply F1.
  Qed.

  Lemma insert_range_ok w v pre xs post i ys q :
    vrep w v pre xs post -> grants w v -> chunked (v_esz v) ys -> 1 <= nlen ys ->
    (nlen xs + nlen ys) * v_growth v * v_esz v < W64 ->
    src w q (concat ys) -> pb q <> blk v ->
    exists r w' v' xs', vinsert_range v i (Some q) (nlen ys) w = Ok (r, v') w' /\
      good w v w' v' pre xs' post /\
      spec_insert (cfg_of v) i ys (mkst xs (v_cap v) (dlog w)) r (mkst xs' (v_cap v') (dlog w')).
  Proof.
    intros R NF K N1 SM SQ PQ. unfold vinsert_range. cbn [nonnull negb].
    replace (nlen ys =? 0) with false by lia. cbn [orb].
    pose proof (r_size _ _ _ _ _ R) as RS. rewrite RS.
    unfold spec_insert. cbn [s_elems s_cap s_log].
    destruct (N.ltb_spec (nlen xs) i) as [L|L].
    { exists ST_OUT_OF_RANGE, w, v, xs. split; [reflexivity|]. split; [now apply good_refl|].
      now split. }
    rewrite (bind_ok _ _ w _ w (rep_assert_valid _ _ _ _ _ R)).
    pose proof (vgrow_ok _ _ _ _ _ (nlen ys) R NF N1 SM) as G.
    destruct (regrow _ _ _) as [cap|].
    2:{ exists ST_INSUFFICIENT_BUFFER_SIZE, w, v, xs. split.
        - rewrite (bind_ok _ _ _ _ _ G). reflexivity.
        - split; [now apply good_refl|]. now split. }
    destruct G as (w1 & v1 & G & GD & CC & RM & DD).
    rewrite (bind_ok _ _ _ _ _ G). cbn [st_success negb N.testbit].
    replace (st_success ST_SUCCESS) with true by reflexivity. cbn [negb].
    destruct (nsplit i xs L) as (a & b & -> & Ha). subst i.
    destruct (src_frame _ _ _ _ _ _ SQ PQ (r_wf _ _ _ _ _ R) (g_frame _ _ _ _ _ _ _ GD)) as [SQ' PQ'].
    destruct (g_cfg _ _ _ _ _ _ _ GD) as (_ & _ & _ & SE & _).
    rewrite <- SE in K.
    pose proof (g_rep _ _ _ _ _ _ _ GD) as R1.
    destruct (shift_core w1 v1 pre a b post (nlen ys)) as (w2 & p & s2 & E1 & Lp & H2 & F2 & D2 & OF & FIN); auto.
    { lia. }
    rewrite (bind_ok _ _ _ _ _ E1).
    replace (st_success ST_SUCCESS) with true by reflexivity. cbn [negb].
    rewrite wmul_small.
    2:{ pose proof (r_mem _ _ _ _ _ R1). eapply N.le_lt_trans; [|eassumption]. apply mul_le. lia. }
    set (w3 := upd w2 (blk v1) ((pre ++ concat a) ++ concat ys ++ concat b ++ s2 ++ post)).
    pose proof (nlen_concat _ _ K) as Ly.
    assert (E2 : memcpy (offset v1 (nlen a)) (Some q) (nlen ys * v_esz v1) w2 = Ok tt w3).
    { rewrite OF. eapply memcpy_mid; [ |exact Ly|exact H2|reflexivity|exact Lp|].
      - rewrite <- Ly. apply src_read.
        destruct SQ' as (sa & sc & Hq & Pq). exists sa, sc. split; [|exact Pq]. now rewrite F2.
      - apply overlap_other. cbn. congruence. }
    rewrite (bind_ok _ _ _ _ _ E2). unfold ret.
    exists ST_SUCCESS, w3, (set_size v1 (nlen (a ++ ys ++ b))), (a ++ ys ++ b). split.
    - do 3 f_equal. rewrite (r_size _ _ _ _ _ R1). rewrite wadd_small.
      + nl. lia.
      + pose proof (rep_cap_lt _ _ _ _ _ R1). lia.
    - split.
      + eapply good_trans; [exact GD|apply R|]. now apply FIN.
      + split; [reflexivity|]. rewrite linsert_split by reflexivity.
        cbn [v_cap set_size]. change (dlog w3) with (dlog w2). congruence.
  Qed.

  Lemma push_back_ok w v pre xs post x q :
    vrep w v pre xs post -> grants w v -> nlen x = v_esz v ->
    (nlen xs + 1) * v_growth v * v_esz v < W64 ->
    src w q x -> pb q <> blk v ->
    exists r w' v' xs', vpush_back v (Some q) w = Ok (r, v') w' /\
      good w v w' v' pre xs' post /\
      spec_insert (cfg_of v) (nlen xs) [x] (mkst xs (v_cap v) (dlog w)) r
                  (mkst xs' (v_cap v') (dlog w')).
  Proof.
    intros R NF K SM SQ PQ.
    destruct (insert_range_ok w v pre xs post (nlen xs) [x] q) as (r & w' & v' & xs' & E & G & S); auto.
    { apply chunked_cons. split; [assumption|apply chunked_nil]. }
    { rewrite nlen_cons. lia. }
    { cbn [concat]. now rewrite app_nil_r. }
    exists r, w', v', xs'. split; [|now split]. rewrite <- E. clear E.
    pose proof (r_size _ _ _ _ _ R) as RS.
    unfold vinsert_range, vpush_back. cbn [nonnull negb orb].
    replace (nlen [x] =? 0) with false by reflexivity.
    destruct (N.ltb_spec (v_size v) (nlen xs)); [lia|].
    rewrite !(bind_ok _ _ w _ w (rep_assert_valid _ _ _ _ _ R)).
    replace (nlen [x]) with 1 by reflexivity.
    pose proof (vgrow_ok _ _ _ _ _ 1 R NF ltac:(lia) SM) as GR.
    destruct (regrow _ _ _) as [cap|]; [|now rewrite !(bind_ok _ _ _ _ _ GR)].
    destruct GR as (w1 & v1 & GE & GD & CC & RM & DD).
    rewrite !(bind_ok _ _ _ _ _ GE).
    replace (st_success ST_SUCCESS) with true by reflexivity. cbn [negb].
    pose proof (g_rep _ _ _ _ _ _ _ GD) as R1. rewrite (r_size _ _ _ _ _ R1).
    destruct (N.ltb_spec (nlen xs) (nlen xs)); [lia|]. unfold bind at 2, ret at 2.
    replace (st_success ST_SUCCESS) with true by reflexivity. cbn [negb].
    rewrite wmul_small by (pose proof (r_mem _ _ _ _ _ R1); pose proof (r_cap _ _ _ _ _ R1); nia).
    now rewrite N.mul_1_l.
  Qed.

  (** A constructor that succeeds and stays within the element. *)
  Definition ctor_ok (e : N) (ctor : option (list C -> status * list C)) : Prop :=
    match ctor with
    | None => True
    | Some f => forall x, nlen x = e -> st_success (fst (f x)) = true /\ nlen (snd (f x)) = e
    end.

End VectorProofs.

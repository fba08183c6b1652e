(** The number of requests of pushes, and parameters with which every call asks for a block. *)
From Verif Require Import Base NListFacts Status Mem MemFacts VectorModel VectorSpec VectorDriver RefuseSpec
  VectorRep VectorProofs VectorProofs2 VectorProofs3 VectorRefine VectorFail VectorMore VectorFinal OracleProofs RefuseProofs
  CostSpec CostProofs.
From Coq Require Import ZifyBool ZifyNat ZifyN.

Section Cost2.
  Context {C : Type}.
  Notation vec := (vector C).
  Implicit Types (w : Mem.world C) (v : vec).

  Lemma push_works w v xs y : vrep w v [] xs [] -> v_alloc v = true -> (forall t, exists fill, orc w t = AOk fill) ->
    nlen y = v_esz v -> fits (nlen xs + 1) (v_esz v) ->
    exists w' v', run_op v (OPushBack y) w = Ok (ST_SUCCESS, v') w' /\
      tick w' = tick w + (if v_cap v <? nlen xs + 1 then 1 else 0) /\
      v_cap v' = (if v_cap v <? nlen xs + 1 then (nlen xs + 1) * v_growth v else v_cap v) /\
      vrep w' v' [] (xs ++ [y]) [] /\ v_alloc v' = true /\ cfg_of v' = cfg_of v /\ (forall t, exists fill, orc w' t = AOk fill).
  Proof.
    intros R A O L F. destruct (run_op_works w v xs (OPushBack y) R A O L F) as (r & w1 & v1 & xs1 & E & V & TK & R1 & A1 & CF & O1).
    cbv zeta in *. unfold requests, asked in TK. cbn [s_elems s_cap] in TK. cbn [vspec] in V. unfold spec_insert in V. cbn [s_elems s_cap s_log] in V.
    replace (nlen xs <? nlen xs) with false in V by lia. unfold regrow in V. cbn [cfg_of c_fixed c_growth] in V. rewrite A in V. cbn [negb] in V.
    change (nlen [y]) with 1 in V. exists w1, v1.
    assert (LI : linsert (nlen xs) [y] xs = xs ++ [y]) by (unfold linsert; rewrite nfirst_all, nskip_all by lia; reflexivity).
    rewrite LI in V. destruct (N.leb_spec (nlen xs + 1) (v_cap v)).
    - replace (v_cap v <? nlen xs + 1) with false in * by lia. destruct V as [-> V]. injection V as V1 V2 V3. subst xs1. auto 10.
    - replace (v_cap v <? nlen xs + 1) with true in * by lia. destruct V as [-> V]. injection V as V1 V2 V3. subst xs1. auto 10.
  Qed.

  Lemma pushes_requests : forall ys w v xs, vrep w v [] xs [] -> v_alloc v = true -> (forall t, exists fill, orc w t = AOk fill) ->
    2 <= v_growth v -> Forall (fun y => nlen y = v_esz v) ys -> fits (nlen xs + nlen ys) (v_esz v) ->
    exists v' w' k, run_ops v (map OPushBack ys) w = Ok (map (fun _ => ST_SUCCESS) ys, v') w' /\
      vrep w' v' [] (xs ++ ys) [] /\ tick w' = tick w + k /\ (k = 0 \/ 2 ^ (k - 1) * v_cap v < nlen xs + nlen ys).
  Proof.
    induction ys as [|y ys IH]; intros w v xs R A O G K F.
    - exists v, w, 0. rewrite app_nil_r. split; [reflexivity|]. split; [exact R|]. split; [lia|now left].
    - inv K. rewrite nlen_cons in F |- *. destruct (push_works w v xs y R A O H1) as (w1 & v1 & E & TK & CP & R1 & A1 & CF & O1).
      { eapply fits_le; [|exact F]. lia. }
      assert (CG : v_growth v1 = v_growth v) by (now inversion CF). assert (CE : v_esz v1 = v_esz v) by (now inversion CF).
      destruct (IH w1 v1 (xs ++ [y]) R1 A1 O1) as (v2 & w2 & k & E2 & R2 & TK2 & B); rewrite ?CG, ?CE; auto.
      { nl. change (nlen [y]) with 1. eapply fits_le; [|exact F]. lia. }
      rewrite <- app_assoc in R2. rewrite nlen_app in B. change (nlen [y]) with 1 in B.
      exists v2, w2. eexists. split; [cbn [map run_ops]; rewrite (bind_ok _ _ _ _ _ E), (bind_ok _ _ _ _ _ E2); reflexivity|].
      split; [exact R2|]. split; [rewrite TK2, TK, <- N.add_assoc; reflexivity|].
      pose proof (r_cap _ _ _ _ _ R) as C1. pose proof (r_le _ _ _ _ _ R) as LE.
      destruct (N.ltb_spec (v_cap v) (nlen xs + 1)).
      + right. destruct B as [->|B]; [change (2 ^ (1 + 0 - 1)) with 1; lia|].
        destruct (N.eq_dec k 0) as [->|K0]; [change (2 ^ (1 + 0 - 1)) with 1; lia|].
        replace (1 + k - 1) with (k - 1 + 1) by lia. rewrite N.pow_add_r. change (2 ^ 1) with 2.
        assert (2 * v_cap v <= v_cap v1) by nia. nia.
      + rewrite N.add_0_l. rewrite CP in B. destruct B as [->|B]; [now left|right; lia].
  Qed.

  Lemma log_requests k cap n : 1 <= cap -> k = 0 \/ 2 ^ (k - 1) * cap < n -> k <= 1 + N.log2 (n / cap).
  Proof.
    intros C1 [->|B]; [lia|]. assert (D : 2 ^ (k - 1) <= n / cap) by (apply N.div_le_lower_bound; [lia|nia]).
    apply N.log2_le_mono in D. rewrite N.log2_pow2 in D by lia. lia.
  Qed.
  Lemma push_requests w v xs ys : reached_own w v xs -> 2 <= v_growth v -> Forall (fun y => nlen y = v_esz v) ys ->
    room (nlen xs + nlen ys) (v_esz v) ->
    exists v' w', run_ops v (map OPushBack ys) w = Ok (map (fun _ => ST_SUCCESS) ys, v') w' /\ shows w' v' (xs ++ ys) /\
      tick w' - tick w <= 1 + N.log2 ((nlen xs + nlen ys) / snd (vget_capacity v)).
  Proof.
    intros H G K RM. destruct (reached_own_rep _ _ _ H) as (R & F & A & O).
    destruct (pushes_requests ys w v xs R A O G K RM) as (v' & w' & k & E & R' & TK & B).
    exists v', w'. split; [exact E|]. split; [eapply rep_shows, R'|]. cbn [vget_capacity snd].
    replace (tick w' - tick w) with k by lia. apply log_requests; [|exact B]. apply (r_cap _ _ _ _ _ R).
  Qed.

  (** Growth factor 1. *)
  Lemma pushes_tight : forall ys w v xs, vrep w v [] xs [] -> v_alloc v = true -> (forall t, exists fill, orc w t = AOk fill) ->
    v_growth v = 1 -> v_cap v = nlen xs -> Forall (fun y => nlen y = v_esz v) ys -> fits (nlen xs + nlen ys) (v_esz v) ->
    exists blocks v' w', run_cost v (map OPushBack ys) w = Ok (blocks, nlen ys, v') w' /\
      2 * blocks = nlen ys * (2 * nlen xs + nlen ys + 1) /\ tick w' = tick w + nlen ys.
  Proof.
    induction ys as [|y ys IH]; intros w v xs R A O G CP K F.
    - exists 0, v, w. split; [reflexivity|]. change (nlen (@nil (list C))) with 0. split; lia.
    - inv K. rewrite nlen_cons in F |- *. destruct (push_works w v xs y R A O H1) as (w1 & v1 & E & TK & CP1 & R1 & A1 & CF & O1).
      { eapply fits_le; [|exact F]. lia. }
      replace (v_cap v <? nlen xs + 1) with true in * by lia.
      assert (CG : v_growth v1 = v_growth v) by (now inversion CF). assert (CE : v_esz v1 = v_esz v) by (now inversion CF).
      destruct (IH w1 v1 (xs ++ [y]) R1 A1 O1) as (bl & v2 & w2 & E2 & B & TK2); rewrite ?CG, ?CE; auto.
      { rewrite CP1, G. nl. change (nlen [y]) with 1. lia. }
      { nl. change (nlen [y]) with 1. eapply fits_le; [|exact F]. lia. }
      eexists. exists v2, w2. split.
      { cbn [map run_cost]. rewrite E, E2. cbn [vget_size snd]. rewrite (r_size _ _ _ _ _ R), (r_size _ _ _ _ _ R1).
        replace (distance (nlen xs) (nlen (xs ++ [y])) + nlen ys) with (1 + nlen ys); [reflexivity|].
        nl. change (nlen [y]) with 1. unfold distance. lia. }
      cbn [vget_capacity snd]. rewrite CP1, G, TK. rewrite nlen_app in B. change (nlen [y]) with 1 in B. split; [nia|lia].
  Qed.
  Lemma push_tight w v xs ys : reached_own w v xs -> v_growth v = 1 -> snd (vget_capacity v) = nlen xs ->
    Forall (fun y => nlen y = v_esz v) ys -> room (nlen xs + nlen ys) (v_esz v) ->
    exists blocks v' w', run_cost v (map OPushBack ys) w = Ok (blocks, nlen ys, v') w' /\
      2 * blocks = nlen ys * (2 * nlen xs + nlen ys + 1) /\ tick w' = tick w + nlen ys.
  Proof.
    intros H G CP K RM. destruct (reached_own_rep _ _ _ H) as (R & F & A & O). now apply pushes_tight.
  Qed.

  (** A shrink threshold between 1 and the growth factor. *)
  Lemma pops_tight : forall n w v xs, vrep w v [] xs [] -> v_alloc v = true -> (forall t, exists fill, orc w t = AOk fill) ->
    1 <= v_shrink v <= v_growth v -> v_shrink v * (nlen xs - 1) < v_cap v -> N.of_nat n < nlen xs -> fits (nlen xs) (v_esz v) ->
    exists blocks v' w', run_cost v (repeat OPopBack n) w = Ok (blocks, N.of_nat n, v') w' /\
      2 * blocks = v_growth v * (N.of_nat n * (2 * nlen xs - N.of_nat n - 1)) /\ tick w' = tick w + N.of_nat n.
  Proof.
    induction n as [|n IH]; intros w v xs R A O G CP L F.
    - exists 0, v, w. split; [reflexivity|]. split; lia.
    - destruct (run_op_works w v xs OPopBack R A O I) as (r & w1 & v1 & xs1 & E & V & TK & R1 & A1 & CF & O1).
      { cbn [demand]. now rewrite N.add_0_r. }
      cbv zeta in *. unfold requests, asked in TK. cbn [s_elems s_cap cfg_of c_growth c_shrink] in TK. cbn [vspec s_elems] in V.
      replace (nlen xs =? 0) with false in V by lia. unfold spec_delete in V. cbn [s_elems s_cap s_log] in V.
      change (1 =? 0) with false in V. replace (nlen xs <? nlen xs - 1 + 1) with false in V by lia. destruct V as [_ V].
      injection V as V1 V2 _. unfold reshrink in V2. cbn [cfg_of c_fixed c_growth c_shrink] in V2. rewrite A in V2. cbn [negb orb] in V2.
      replace (v_shrink v =? 0) with false in * by lia. cbn [orb] in V2.
      replace (v_cap v <=? (nlen xs - 1) * v_shrink v) with false in V2 by lia.
      replace (0 <? nlen xs) with true in TK by lia. cbn [negb andb] in TK.
      replace ((nlen xs - 1) * v_shrink v <? v_cap v) with true in TK by lia.
      assert (L1 : nlen xs1 = nlen xs - 1) by (subst xs1; unfold ldelete; nl; rewrite nlen_nfirst, nlen_nskip; lia).
      replace (N.max 1 ((nlen xs - 1) * v_growth v)) with ((nlen xs - 1) * v_growth v) in V2 by nia.
      assert (CG : v_growth v1 = v_growth v) by (now inversion CF). assert (CE : v_esz v1 = v_esz v) by (now inversion CF).
      assert (CS : v_shrink v1 = v_shrink v) by (now inversion CF).
      destruct (IH w1 v1 xs1 R1 A1 O1) as (bl & v2 & w2 & E2 & B & TK2); rewrite ?CG, ?CE, ?CS, ?L1; auto; try lia.
      { rewrite V2. nia. }
      { eapply fits_le; [|exact F]. lia. }
      eexists. exists v2, w2. split.
      { cbn [repeat run_cost]. rewrite E, E2. cbn [vget_size snd]. rewrite (r_size _ _ _ _ _ R), (r_size _ _ _ _ _ R1), L1.
        replace (distance (nlen xs) (nlen xs - 1) + N.of_nat n) with (N.of_nat (S n)); [reflexivity|]. unfold distance. lia. }
      cbn [vget_capacity snd]. rewrite V2. rewrite L1, CG in B. replace (tick w1 - tick w) with 1 by lia. rewrite N.mul_1_l. split; [|lia].
      rewrite N.mul_add_distr_l, B. replace (N.of_nat (S n)) with (N.of_nat n + 1) by lia. set (k := N.of_nat n) in *. assert (KB : k + 1 < nlen xs) by lia.
      assert (EQ : 2 * (nlen xs - 1) + k * (2 * (nlen xs - 1) - k - 1) = (k + 1) * (2 * nlen xs - (k + 1) - 1)); [|nia].
      replace (nlen xs) with (k + 2 + (nlen xs - k - 2)) by lia. set (z := nlen xs - k - 2).
      replace (2 * (k + 2 + z - 1) - k - 1) with (k + 1 + 2 * z) by lia.
      replace (2 * (k + 2 + z) - (k + 1) - 1) with (k + 2 + 2 * z) by lia.
      replace (k + 2 + z - 1) with (k + 1 + z) by lia. lia.
  Qed.
  Lemma pop_tight w v xs n : reached_own w v xs -> 1 <= v_shrink v <= v_growth v ->
    v_shrink v * (nlen xs - 1) < snd (vget_capacity v) -> N.of_nat n < nlen xs ->
    exists blocks v' w', run_cost v (repeat OPopBack n) w = Ok (blocks, N.of_nat n, v') w' /\
      2 * blocks = v_growth v * (N.of_nat n * (2 * nlen xs - N.of_nat n - 1)) /\ tick w' = tick w + N.of_nat n.
  Proof.
    intros H G CP L. destruct (reached_own_rep _ _ _ H) as (R & F & A & O). now apply pops_tight.
  Qed.

  (** A new vector with the default parameters. *)
  Lemma amortised_new w e cap d ops : init_args_ok w e cap d VECTOR_DEFAULT_GROWTH VECTOR_DEFAULT_SHRINK ->
    Forall (arg_ok e) ops -> forallb automatic ops = true -> room (demands ops) e ->
    exists v w1 blocks changes v' w', vinit e cap d w = Ok (ST_SUCCESS, Some v) w1 /\
      run_cost v ops w1 = Ok (blocks, changes, v') w' /\ blocks <= 4 * changes + 2 * N.max 1 cap.
  Proof.
    intros I AO AU RM. destruct (own_run w e cap d _ _ [] I) as (v & w1 & rs & v' & w' & xs & E & ER & VS & R & F & CF & O & _).
    { constructor. } { reflexivity. }
    injection ER as <- <- <-. inv VS.
    assert (A : v_alloc v = true) by (inversion CF as [[X1 X2 X3 X4 X5]]; now apply Bool.negb_false_iff).
    assert (ES : v_esz v = e) by (now inversion CF). assert (CG : v_growth v = 2) by (now inversion CF).
    assert (CS : v_shrink v = 4) by (now inversion CF).
    destruct (cost_run ops w1 v [] R A O) as (bl & ch & v2 & w2 & E2 & B); rewrite ?CG, ?CS, ?ES; auto; try lia.
    exists v, w1, bl, ch, v2, w2. split; [exact E|]. split; [exact E2|]. rewrite CG in B. unfold pot, distance in B. change (nlen (@nil (list C))) with 0 in B. lia.
  Qed.
End Cost2.

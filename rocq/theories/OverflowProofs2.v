(** Duplicates and strings whose byte size does not fit into [size_t]. *)
From Verif Require Import Base NListFacts Status Mem MemFacts VectorModel VectorSpec VectorDriver
  VectorRep VectorProofs VectorProofs2 VectorProofs3 VectorRefine VectorSearch VectorFail VectorMore
  VectorFinal VectorFinal2 OverflowSpec OverflowProofs.
From Verif Require Import StringModel StringSpec StringDriver StringBytes StringProofs StringFinal StringFinal2.
From Coq Require Import ZifyBool ZifyNat ZifyN.

Lemma duplicate_overflow {C} (w : Mem.world C) v xs cap g s : reached w v xs -> allocator_ok w -> 1 <= g ->
  cap < W64 -> (N.max cap (nlen xs) * v_esz v) mod W64 < nlen xs * v_esz v ->
  vduplicate_ex v cap true g s w = Fault OutOfBounds.
Proof.
  intros H AO G1 CW L. pose proof H as H'. destruct (reached_rep _ _ _ H) as (pre & post & R & F & NF).
  pose proof (r_esz _ _ _ _ _ R) as E1. pose proof (r_size _ _ _ _ _ R) as SZ.
  assert (LW : nlen xs * v_esz v < W64) by (unfold fits in F; nia). destruct (AO (tick w)) as [fill OR].
  assert (N1 : 1 <= nlen xs) by (destruct (N.eq_dec (nlen xs) 0) as [Z|Z]; [rewrite Z in L; lia|lia]).
  unfold vduplicate_ex. rewrite SZ. set (c := N.max cap (nlen xs)) in *.
  assert (E : vinit_ex (v_esz v) c (v_dtor v) true g s w =
    Ok (ST_SUCCESS, Some (mkvec true g s 0 c (v_esz v) (v_dtor v) (Some (mkptr (nextb w) 0))))
      (mkbuild (hset (heap w) (nextb w) (Some (fresh fill (wmul (v_esz v) c)))) (nextb w + 1) (orc w) (tick w + 1) (dlog w) (checked w))).
  { unfold vinit_ex. replace ((v_esz v =? 0) || negb true || (g <? 1)) with false by (cbn [negb]; lia).
    unfold VECTOR_MIN_CAPACITY. replace (N.max 1 c) with c by lia. cbn [v_esz v_cap].
    unfold bind, alloc. replace ((v_esz v =? 0) || (c =? 0)) with false by lia. cbn [andb]. rewrite OR. reflexivity. }
  rewrite (bind_ok _ _ _ _ _ E). change (negb (st_success ST_SUCCESS)) with false. cbv iota.
  cbn [v_cap v_data]. unfold assert. replace (nlen xs <=? c) with true by lia. rewrite (bind_ok (ret tt) _ _ tt _ eq_refl).
  rewrite wmul_small by assumption. pose proof (rep_blk_lt _ _ _ _ _ R) as BL. rewrite (r_data _ _ _ _ _ R).
  unfold bind. unfold memcpy. rewrite overlap_other by (cbn [pb]; lia). unfold memmove, bind, mread, mwrite. cbn [pb po heap].
  destruct (r_heap _ _ _ _ _ R) as (sl & _ & HH).
  unfold hset at 1. replace (blk v =? nextb w) with false by lia. rewrite HH.
  pose proof (nlen_concat _ _ (r_chunk _ _ _ _ _ R)) as LC.
  replace (nlen pre + nlen xs * v_esz v <=? nlen (pre ++ concat xs ++ sl ++ post)) with true by (rewrite !nlen_app; lia).
  rewrite (nsub_mid _ _ pre (concat xs)) by (auto; lia). unfold hset.
  cbn [heap pb po]. rewrite N.eqb_refl. rewrite nlen_fresh, LC.
  unfold wmul. rewrite (N.mul_comm (v_esz v) c). replace (0 + nlen xs * v_esz v <=? (c * v_esz v) mod W64) with false by lia. reflexivity.
Qed.

Lemma sresize_overflow w s cs n : sreached_own w s cs -> v_cap (s_vec s) <= n -> n + 1 < W64 ->
  N.max 1 (((n + 1) * v_growth (s_vec s)) mod W64) < n + 1 -> sresize s n w = Fault OutOfBounds.
Proof.
  intros H CB NW L. destruct (sreached_own_rep _ _ _ H) as ((BR & _) & NF & A).
  destruct BR as (R & E1 & _).
  assert (O : forall t, exists fill, orc w t = AOk fill) by (exact (NF A)).
  destruct (resize_out w (s_vec s) _ (n + 1) R A O ltac:(lia)) as (w' & v' & b & E & SZ & ES & B).
  unfold sresize. rewrite wadd_small by assumption. rewrite (bind_ok _ _ _ _ _ E). change (negb (st_success ST_SUCCESS)) with false. cbv iota.
  unfold nullterminate, bind, sdata, ssize. cbn [with_vec s_vec]. rewrite SZ.
  destruct B as (_ & D & _ & MW & buf & HB & LB). rewrite D. cbn [padd]. unfold mwrite. cbn [pb po]. rewrite HB.
  assert (MM : N.max 1 (((n + 1) * v_growth (s_vec s)) mod W64) < W64).
  { pose proof (N.mod_lt ((n + 1) * v_growth (s_vec s)) W64 ltac:(discriminate)). lia. }
  unfold after_resize in LB. rewrite E1, N.mul_1_r, N.mod_small in LB by exact MM.
  rewrite wsub_small by lia. change (nlen [0]) with 1.
  replace (0 + (n + 1 - 1) + 1 <=? nlen buf) with false by lia. reflexivity.
Qed.
Lemma sresize_max w s cs : sreached_own w s cs -> sroom (nlen cs) -> sresize s (W64 - 1) w = Fault OutOfBounds.
Proof.
  intros H RM. destruct (sreached_own_rep _ _ _ H) as ((BR & _) & NF & A).
  unfold sroom in RM.
  destruct (bresize_ok w (s_vec s) _ _ _ 0 BR (nofail_grants _ _ NF)) as (r & w1 & v1 & l' & E & G & X); [rewrite nlen_app; exact RM|reflexivity|].
  replace (0 <=? nlen (cs ++ [0])) with true in X by lia.  destruct X as [-> ->].
  unfold sresize. change (wadd (W64 - 1) 1) with 0. rewrite (bind_ok _ _ _ _ _ E).
  change (negb (st_success ST_SUCCESS)) with false. cbv iota.
  pose proof (bnofail _ _ _ _ _ _ _ NF G) as NF1.
  destruct (b_rep _ _ _ _ _ _ _ G) as (R & E1 & _).
  unfold nullterminate, bind, sdata, ssize. cbn [with_vec s_vec]. rewrite (r_data _ _ _ _ _ R), (r_size _ _ _ _ _ R).
  destruct (r_heap _ _ _ _ _ R) as (sl & SP & HH).
  rewrite nlen_cells, nfirst_0. change (nlen (@nil N)) with 0. rewrite nfirst_0 in HH, SP.
  apply (spare_exact _ _ _ NF1) in SP. pose proof (r_mem _ _ _ _ _ R) as MM.
  cbn [padd]. unfold mwrite. cbn [pb po]. rewrite HH. change (concat (cells [])) with (@nil N). rewrite !app_nil_r. cbn [app].
  change (nlen (cells [])) with 0 in SP. rewrite E1 in *. change (wsub 0 1) with (W64 - 1). change (nlen [0]) with 1. change (nlen (@nil N)) with 0.
  replace (0 + (W64 - 1) + 1 <=? nlen sl) with false by lia. reflexivity.
Qed.
Lemma sinit_max (w : world) g t : allocator_ok w -> 1 <= g ->
  exists s w', sinit_ex (W64 - 1) true g t w = Ok (ST_SUCCESS, Some s) w' /\ sget_capacity s w' = Ok (ST_SUCCESS, 0) w'.
Proof.
  intros AO G1. destruct (AO (tick w)) as [fill OR].
  assert (E : vinit_ex 1 0 None true g t w =
    Ok (ST_SUCCESS, Some (mkvec true g t 0 1 1 None (Some (mkptr (nextb w) 0))))
      (mkbuild (hset (heap w) (nextb w) (Some (fresh fill 1))) (nextb w + 1) (orc w) (tick w + 1) (dlog w) (checked w))).
  { unfold vinit_ex. replace ((1 =? 0) || negb true || (g <? 1)) with false by (cbn; lia).
    change (N.max VECTOR_MIN_CAPACITY 0) with 1. cbn [v_esz v_cap].
    unfold bind, alloc. change ((1 =? 0) || (1 =? 0)) with false. cbn [andb]. rewrite OR. reflexivity. }
  eexists. eexists. split.
  - unfold sinit_ex. change (wadd (N.max STRING_MIN_CAPACITY (W64 - 1)) 1) with 0.
    rewrite (bind_ok _ _ _ _ _ E). change (negb (st_success ST_SUCCESS)) with false. cbv iota. cbn [v_cap v_esz v_data].
    change (0 <=? 1) with true. change (1 =? 1) with true. unfold assert.
    rewrite !(bind_ok (ret tt) _ _ tt _ eq_refl).
    unfold bind, mwrite. cbn [pb po heap]. unfold hset at 1. rewrite N.eqb_refl. rewrite nlen_fresh.
    change (0 + nlen [0] <=? 1) with true. reflexivity.
  - reflexivity.
Qed.

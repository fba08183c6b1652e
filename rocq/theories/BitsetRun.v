(** Proofs about the bitset: histories, construction, queries. *)
From Verif Require Import Base NListFacts Status Mem MemFacts VectorModel VectorSpec VectorDriver
  VectorRep VectorProofs VectorProofs2 VectorProofs3 VectorRefine StringModel StringBytes StringProofs
  BitsetModel BitsetSpec BitsetDriver BitsetBits BitsetProofs.
From Coq Require Import ZifyBool ZifyNat ZifyN.

Implicit Types (w : world) (b : bitset) (v : vector N).

Lemma bitlimit_good w b w' b' pre l post : bgood w (bs_bits b) w' (bs_bits b') pre l post -> bitlimit b' = bitlimit b.
Proof.
  intros [_ C _ K]. unfold bitlimit. destruct C as (-> & _). destruct (v_alloc (bs_bits b)); [reflexivity|]. now rewrite K.
Qed.
Lemma keep_ok b m w r w' : m w = Ok r w' -> keep b m w = Ok (r, b) w'.
Proof. intros E. unfold keep. now rewrite (bind_ok _ _ _ _ _ E). Qed.
Lemma bitroom_le m n : m <= n -> bitroom n -> bitroom m.
Proof. unfold bitroom. lia. Qed.
Lemma bits_to_bytes_small n : n / 8 < W32 -> bits_to_bytes n = n / 8.
Proof. intros H. unfold bits_to_bytes, bs_ceil. rewrite N.mod_small by exact H. now rewrite N.eqb_refl. Qed.

(** ** One call *)
Lemma run_bitop_ok o w b pre l post bs :
  xrep w b pre l post bs -> grants w (bs_bits b) -> legal_op (bitlimit b) o bs -> bitroom (nlen bs) ->
  exists w' b' l', run_bitop b o w = Ok (fst (bitstep (bitlimit b) o bs), b') w' /\
    xrep w' b' pre l' post (snd (bitstep (bitlimit b) o bs)) /\
    bgood w (bs_bits b) w' (bs_bits b') pre l' post /\
    (xclean l bs -> tidy_op o bs -> xclean l' (snd (bitstep (bitlimit b) o bs))).
Proof.
  intros X NF LG RM. pose proof X as [R B S0 L H].
  assert (KEEP : forall m st bs', (exists w' l', m w = Ok st w' /\ xrep w' b pre l' post bs' /\
      bgood w (bs_bits b) w' (bs_bits b) pre l' post /\ (xclean l bs -> tidy_op o bs -> xclean l' bs')) ->
    exists w' b' l', keep b m w = Ok (st, b') w' /\ xrep w' b' pre l' post bs' /\
      bgood w (bs_bits b) w' (bs_bits b') pre l' post /\ (xclean l bs -> tidy_op o bs -> xclean l' bs')).
  { intros m st bs' (w' & l' & E & X' & G & C). exists w', b, l'. split; [now apply keep_ok|]. now split. }
  assert (MAPC : forall F f w', xrep w' b pre (map F l) post (map f bs) ->
            (nlen bs mod 8 = 0 \/ forall x k, N.testbit (F x) k = false) -> xclean l bs -> xclean (map F l) (map f bs)).
  { intros F f w' X' [Z|Z] C i LI.
    - rewrite nlen_map in LI. apply bitat_ge. rewrite nlen_map. lia.
    - unfold bitat. rewrite nnth_map. destruct (nnth (i / 8) l); cbn; auto. }
  destruct o as [i|i|i value|i| | | |value| | |n|]; cbn [run_bitop bitstep].
  - apply KEEP. destruct (assign_ok w b pre l post bs i true X) as (w' & l' & E & X' & G & C).
    exists w', l'. split; [exact E|]. split; [exact X'|]. split; [exact G|auto].
  - apply KEEP. destruct (assign_ok w b pre l post bs i false X) as (w' & l' & E & X' & G & C).
    exists w', l'. split; [exact E|]. split; [exact X'|]. split; [exact G|auto].
  - apply KEEP. destruct (assign_ok w b pre l post bs i value X) as (w' & l' & E & X' & G & C).
    exists w', l'. split; [exact E|]. split; [exact X'|]. split; [exact G|auto].
  - apply KEEP. destruct (change_ok flip1 negb w b pre l post bs i) as (w' & l' & E & X' & G & C); auto.
    { intros. now apply flip1_byte. } { intros. now apply flip1_bit. }
    exists w', l'. split; [exact E|]. split; [exact X'|]. split; [exact G|auto].
  - apply KEEP. destruct (each_bits (fun _ => 255) (fun _ => true) w b pre l post bs) as (w' & E & X' & G); auto.
    { reflexivity. }
    { intros x k _ K. apply (N.ones_spec_low 8 k K). }
    exists w', (map (fun _ => 255) l). split; [exact E|]. split; [exact X'|]. split; [exact G|].
    intros C T. cbn [snd]. eapply MAPC; eauto.
  - apply KEEP. destruct (each_bits (fun _ => 0) (fun _ => false) w b pre l post bs) as (w' & E & X' & G); auto.
    { reflexivity. }
    exists w', (map (fun _ => 0) l). split; [exact E|]. split; [exact X'|]. split; [exact G|].
    intros C T. cbn [snd]. eapply MAPC; eauto.
  - apply KEEP. destruct (each_bits not8 negb w b pre l post bs) as (w' & E & X' & G); auto.
    { exact not8_byte. } { exact not8_bit. }
    exists w', (map not8 l). split; [exact E|]. split; [exact X'|]. split; [exact G|].
    intros C T. cbn [snd]. eapply MAPC; eauto.
  - cbn in LG. rewrite LG. cbn [fst snd].
    destruct (bargw w (bs_bits b) pre l post [0] R) as (R1 & Q & NB).
    destruct (push_ok (argw w [0]) b pre l post bs value (mkptr (nextb w) 0)) as (w' & b' & l' & E & X' & G & C); auto.
    { now split. }
    exists (dropw w' (nextb w)), b', l'. assert (G' := bdropw _ _ _ _ _ _ _ _ _ R G). split; [|split; [|split; auto]].
    + unfold with_zero, with_arg. unfold argw in E. rewrite E. reflexivity.
    + destruct X'. split; auto. apply G'.
  - cbn in LG. destruct (N.eqb_spec (nlen bs) 0); [lia|]. cbn [fst snd]. now apply pop_ok.
  - unfold bs_clear, vclear.
    destruct (bresize_ok w (bs_bits b) pre l post 0 R NF) as (r & w' & v' & l' & E & G & K).
    { unfold bitroom in RM. lia. } { now vm_compute. }
    unfold vresize in E. rewrite (bind_ok _ _ _ _ _ E). destruct (N.leb_spec 0 (nlen l)); [|lia]. destruct K as [-> ->].
    rewrite nfirst_0 in G. exists w', (mkbitset 0 v'), []. split; [reflexivity|]. split; [|split; [exact G|]].
    + split; auto; [apply G|]. intros i LI. cbn [snd] in LI. rewrite nlen_nil in LI. lia.
    + intros _ _ i _. apply bitat_ge. apply N.le_0_l.
  - cbn in LG. unfold bs_reserve. rewrite bits_to_bytes_small by exact LG.
    assert (NW : n / 8 < W64) by (eapply N.lt_trans; [exact LG|now vm_compute]).
    destruct (breserve_ok w (bs_bits b) pre l post (n / 8) R NF NW) as (r & w' & v' & E & G & -> & _).
    rewrite (bind_ok _ _ _ _ _ E). exists w', (mkbitset (bs_size b) v'), l. split.
    { unfold ret. do 3 f_equal. unfold bholds, holds_bits, bitlimit. destruct (v_alloc (bs_bits b)); [reflexivity|].
      cbn [orb]. destruct (N.leb_spec (n / 8) (v_cap (bs_bits b))), (N.leb_spec (n / 8 * 8) (8 * v_cap (bs_bits b)));
        try reflexivity; lia. }
    split; [|split; [exact G|auto]]. split; auto. apply G.
  - unfold bs_shrink_to_fit. destruct (bshrink_ok w (bs_bits b) pre l post R NF) as (w' & v' & E & G & _).
    rewrite (bind_ok _ _ _ _ _ E). exists w', (mkbitset (bs_size b) v'), l. split; [reflexivity|].
    split; [|split; [exact G|auto]]. split; auto. apply G.
Qed.
Lemma step_len limit o bs : nlen (snd (bitstep limit o bs)) <= nlen bs + pushes [o].
Proof.
  assert (CH : forall f i, nlen (snd (change_bit f i bs)) = nlen bs).
  { intros f i. unfold change_bit. destruct (_ <=? _); [reflexivity|]. apply nlen_put. }
  destruct o; cbn [bitstep pushes]; rewrite ?CH; try lia; cbn [snd]; rewrite ?nlen_map; try lia.
  - destruct (holds_bits _ _); cbn [snd]; [|lia]. rewrite nlen_bits1. lia.
  - destruct (_ =? 0); cbn [snd]; [lia|]. rewrite nlen_nfirst. lia.
  - rewrite nlen_nil. lia.
Qed.
Lemma pushes_cons o ops : pushes (o :: ops) = pushes [o] + pushes ops.
Proof. destruct o; cbn [pushes]; lia. Qed.

Lemma run_bitops_ok ops : forall w b pre l post bs,
  xrep w b pre l post bs -> nofail w (bs_bits b) -> legal (bitlimit b) ops bs -> bitroom (nlen bs + pushes ops) ->
  exists w' b' l', run_bitops b ops w = Ok (fst (bitsteps (bitlimit b) ops bs), b') w' /\
    xrep w' b' pre l' post (snd (bitsteps (bitlimit b) ops bs)) /\
    bgood w (bs_bits b) w' (bs_bits b') pre l' post /\
    nlen (snd (bitsteps (bitlimit b) ops bs)) <= nlen bs + pushes ops /\
    (xclean l bs -> tidy (bitlimit b) ops bs -> xclean l' (snd (bitsteps (bitlimit b) ops bs))).
Proof.
  induction ops as [|o ops IH]; intros w b pre l post bs X NF LG RM.
  - exists w, b, l. split; [reflexivity|]. split; [exact X|]. split; [apply bgood_refl; apply X|].
    split; [cbn; lia|auto].
  - destruct LG as [L1 L2].
    destruct (run_bitop_ok o w b pre l post bs X (nofail_grants _ _ NF) L1) as (w1 & b1 & l1 & E1 & X1 & G1 & C1).
    { eapply bitroom_le; [|exact RM]. lia. }
    assert (LIM := bitlimit_good _ _ _ _ _ _ _ G1). pose proof (step_len (bitlimit b) o bs) as SL.
    rewrite pushes_cons in RM |- *.
    destruct (IH w1 b1 pre l1 post _ X1) as (w2 & b2 & l2 & E2 & X2 & G2 & LE2 & C2).
    { eapply bnofail; eauto. } { now rewrite LIM. } { eapply bitroom_le; [|exact RM]. lia. }
    rewrite LIM in *. cbn [bitsteps run_bitops tidy]. destruct (bitstep (bitlimit b) o bs) as [r bs1]. cbn [fst snd] in *.
    destruct (bitsteps (bitlimit b) ops bs1) as [rs bs2]. cbn [fst snd] in *.
    exists w2, b2, l2. split.
    { rewrite (bind_ok _ _ _ _ _ E1). cbv beta iota. rewrite (bind_ok _ _ _ _ _ E2). reflexivity. }
    split; [exact X2|]. split; [eapply bgood_trans; [exact G1|eapply brep_wf, X|exact G2]|].
    split; [lia|]. intros C [T1 T2]. auto.
Qed.

(** ** Construction *)
Lemma brep_heap_eq w v pre l post w' : brep w v pre l post -> wfw w' -> orc w' = orc w ->
  heap w' (blk v) = heap w (blk v) ->
  brep w' v pre l post.
Proof.
  intros (R & E) W O H. split; [|exact E]. destruct R. split; auto.
  destruct r_heap as (s & SL & HH). exists s. split; [eapply spare_orc, SL; exact O|congruence].
Qed.
Lemma init_elements_ok q n : forall w v pre l post, brep w v pre l post -> nofail w v ->
  (nlen l + N.of_nat n) * 256 < W64 -> nlen l + N.of_nat n <= v_cap v -> src w q [0] -> pb q <> blk v ->
  exists w' v', init_elements v (Some q) n w = Ok (ST_SUCCESS, v') w' /\
    bgood w v w' v' pre (l ++ repeat 0 n) post /\ src w' q [0] /\ pb q <> blk v'.
Proof.
  induction n as [|n IH]; intros w v pre l post R NF RM CP Q NB.
  - exists w, v. cbn [repeat]. rewrite app_nil_r. split; [reflexivity|]. split; [now apply bgood_refl|now split].
  - cbn [init_elements]. destruct (bpush_ok w v pre l post 0 q R (nofail_grants _ _ NF)) as (r & w1 & v1 & l1 & E & G & K); auto; [lia|].
    assert (HV : bholds v (nlen l + 1) = true) by (unfold bholds; lia). rewrite HV in K. destruct K as [-> ->].
    rewrite (bind_ok _ _ _ _ _ E). sst.
    destruct (src_frame w w1 v v1 q [0] Q NB) as [Q1 NB1]; [eapply brep_wf; eauto|apply G|].
    assert (LL : nlen (l ++ [0]) = nlen l + 1) by (rewrite nlen_app; reflexivity).
    assert (CP1 : nlen (l ++ [0]) + N.of_nat n <= v_cap v1 \/ n = O).
    { destruct n as [|n]; [now right|left]. rewrite LL.
      assert (v_cap v1 = v_cap v); [|lia].
      destruct (push_back_ok w v pre (cells l) post [0] q (proj1 R) (nofail_grants _ _ NF)) as (r & w' & v' & xs' & EQ & _ & SP); auto.
      - now rewrite (proj1 (proj2 R)).
      - destruct (growth_bounds _ _ _ _ _ (proj1 R)) as [GB _]. rewrite (proj1 (proj2 R)), nlen_cells. nia.
      - rewrite E in EQ. injection EQ as <- <- <-. unfold spec_insert, regrow, cfg_of in SP.
        cbn [s_elems s_cap s_log c_fixed c_growth] in SP. rewrite nlen_cells in SP. change (nlen [[0]]) with 1 in SP.
        destruct (N.ltb_spec (nlen l) (nlen l)); [lia|]. destruct (N.leb_spec (nlen l + 1) (v_cap v)); [|lia].
        now destruct SP as [_ SP]; injection SP as _ -> _. }
    destruct CP1 as [CP1| ->].
    2:{ exists w1, v1. split; [reflexivity|]. now split. }
    destruct (IH w1 v1 pre (l ++ [0]) post) as (w2 & v2 & E2 & G2 & Q2 & NB2); auto.
    { apply G. } { eapply bnofail; eauto. } { lia. }
    exists w2, v2. split; [exact E2|]. cbn [repeat]. rewrite <- app_assoc in G2. split; [|now split].
    eapply bgood_trans; [exact G|eapply brep_wf; eauto|exact G2].
Qed.
Lemma zero_bits n i : bitat (repeat 0 n) i = false.
Proof.
  unfold bitat. destruct (nnth (i / 8) (repeat 0 n)) as [x|] eqn:E; [|reflexivity].
  unfold nnth in E. apply nth_error_In, repeat_spec in E as ->. apply N.bits_0.
Qed.
Lemma xrep_zeros w v pre post n : brep w v pre (repeat 0 (N.to_nat (n / 8))) post -> n mod 8 = 0 ->
  xrep w (mkbitset n v) pre (repeat 0 (N.to_nat (n / 8))) post (zeros n).
Proof.
  intros R Z. unfold zeros. split.
  - exact R.
  - apply Forall_forall. intros x IX. apply repeat_spec in IX as ->. reflexivity.
  - now rewrite nlen_repeat.
  - rewrite nlen_repeat. unfold nlen. rewrite repeat_length. lia.
  - intros i LI. rewrite nlen_repeat in LI. now rewrite nnth_repeat, zero_bits by exact LI.
Qed.
Lemma clean_zeros n bs : xclean (repeat 0 n) bs.
Proof. intros i _. apply zero_bits. Qed.

Lemma bitinit_ok w n g s : bitinit_args_ok w n g s -> exists w' v,
  with_zero (fun z => bs_init_ex z n true g s) w = Ok (ST_SUCCESS, Some (mkbitset n v)) w' /\
  brep w' v [] (repeat 0 (N.to_nat (n / 8))) [] /\ nofail w' v /\ v_alloc v = true /\
  nextb w <= blk v /\ nextb w <= nextb w' /\ orc w' = orc w /\ (forall k, k <> blk v -> heap w' k = heap w k).
Proof.
  intros (W & AO & G & T & C). unfold with_zero, with_arg. fold (argw w [0]).
  assert (W1 : wfw (argw w [0])).
  { intros b Hb. cbn in *. unfold hset. destruct (N.eqb_spec b (nextb w)); [lia|]. apply W. lia. }
  destruct (AO (tick w)) as [fill O]. assert (C2 : n / 8 * 256 < W64).
  { change W32 with 4294967296 in C. change W64 with 18446744073709551616. lia. }
  destruct (init_ok (argw w [0]) 1 (n / 8) None g s fill W1 O) as (w1 & v & E & R & CP & ES & AL & CF & _ & OR & B1 & B2 & HP); auto; try lia.
  { change W64 with 18446744073709551616 in *. lia. } { exact I. }
  assert (BR : brep w1 v [] [] []). { split; [exact R|]. split; [exact ES|]. now injection CF. }
  cbn [argw nextb] in B1, B2.
  assert (NB : nextb w <> blk v) by lia.
  assert (Q : src w1 (mkptr (nextb w) 0) [0]).
  { exists [], []. cbn. rewrite HP by exact NB. cbn. unfold hset. rewrite N.eqb_refl. now split. }
  assert (NF : nofail w1 v). { intros _ t. rewrite OR. apply AO. }
  destruct (init_elements_ok (mkptr (nextb w) 0) (N.to_nat (n / 8)) w1 v [] [] [] BR NF) as (w2 & v2 & E2 & G2 & Q2 & NB2); auto.
  { rewrite nlen_nil. lia. } { rewrite CP, nlen_nil. lia. }
  cbn [app] in G2. exists (dropw w2 (nextb w)), v2.
  unfold bs_init_ex. rewrite bits_to_bytes_small by exact C. rewrite (bind_ok _ _ _ _ _ E). sst.
  rewrite (bind_ok _ _ _ _ _ E2). split; [reflexivity|]. destruct G2 as [GR GC GF GK].
  assert (BL : nextb w + 1 <= blk v2).
  { destruct (N.eq_dec (blk v2) (blk v)) as [->|NE]; [exact B1|]. destruct (fr_old _ _ _ _ GF NE) as (_ & _ & LL). lia. }
  pose proof (fr_next _ _ _ _ GF) as FN.
  assert (W2 : wfw (dropw w2 (nextb w))).
  { intros b Hb. cbn in *. unfold hset. destruct (N.eqb_spec b (nextb w)); [reflexivity|]. apply (brep_wf _ _ _ _ _ GR). lia. }
  split.
  { eapply brep_heap_eq; [exact GR|exact W2|reflexivity|]. cbn. unfold hset. destruct (N.eqb_spec (blk v2) (nextb w)); [lia|reflexivity]. }
  split. { intros A t. cbn. rewrite (fr_orc _ _ _ _ GF), OR. apply AO. }
  split; [destruct GC; congruence|]. split; [lia|]. split; [cbn; lia|]. split; [cbn; rewrite (fr_orc _ _ _ _ GF), OR; reflexivity|].
  intros b NBb. cbn. unfold hset. destruct (N.eqb_spec b (nextb w)) as [->|NE0]; [symmetry; apply W; lia|].
  destruct (N.eq_dec b (blk v)) as [->|NE].
  - destruct (fr_old _ _ _ _ GF ltac:(congruence)) as (_ & -> & _). symmetry. apply W. lia.
  - rewrite (fr_heap _ _ _ _ GF) by auto. rewrite HP by exact NE. cbn. unfold hset.
    destruct (N.eqb_spec b (nextb w)); [congruence|reflexivity].
Qed.
Lemma bitbuffer_ok w n cap blk0 pre buf post : bitbuffer_args_ok w n cap blk0 pre buf post -> exists w' v,
  with_zero (fun z => bs_init_buffer z n (Some (mkptr blk0 (nlen pre))) cap) w = Ok (ST_SUCCESS, Some (mkbitset n v)) w' /\
  brep w' v pre (repeat 0 (N.to_nat (n / 8))) post /\ nofail w' v /\ v_alloc v = false /\ v_cap v = cap /\
  blk v = blk0 /\ nextb w <= nextb w' /\ tick w' = tick w /\ orc w' = orc w /\ (forall k, k <> blk0 -> heap w' k = heap w k).
Proof.
  intros (W & H & LB & C1 & C & C2). unfold with_zero, with_arg. fold (argw w [0]).
  assert (W1 : wfw (argw w [0])).
  { intros b Hb. cbn in *. unfold hset. destruct (N.eqb_spec b (nextb w)); [lia|]. apply W. lia. }
  assert (BL : blk0 < nextb w) by (eapply live_lt; eauto).
  assert (C3 : n / 8 * 256 < W64).
  { change W32 with 4294967296 in C. change W64 with 18446744073709551616. lia. }
  destruct (init_custom_ok (argw w [0]) 1 cap None blk0 pre buf post) as (v & E & R & CP & ES & AL & CF & BK); auto; try lia.
  { cbn. unfold hset. destruct (N.eqb_spec blk0 (nextb w)); [lia|exact H]. } { exact I. }
  assert (BR : brep (argw w [0]) v pre [] post). { split; [exact R|]. split; [exact ES|]. now injection CF. }
  assert (NB : nextb w <> blk v) by lia.
  assert (Q : src (argw w [0]) (mkptr (nextb w) 0) [0]).
  { exists [], []. cbn. unfold hset. rewrite N.eqb_refl. now split. }
  assert (NF : nofail (argw w [0]) v). { intros A. congruence. }
  destruct (init_elements_ok (mkptr (nextb w) 0) (N.to_nat (n / 8)) _ v pre [] post BR NF) as (w2 & v2 & E2 & G2 & Q2 & NB2); auto.
  { rewrite nlen_nil. lia. } { rewrite CP, nlen_nil. lia. }
  cbn [app] in G2. exists (dropw w2 (nextb w)), v2.
  unfold bs_init_buffer. rewrite bits_to_bytes_small by exact C. destruct (N.ltb_spec cap (n / 8)); [lia|].
  rewrite (bind_ok _ _ _ _ _ E). sst.
  rewrite (bind_ok _ _ _ _ _ E2). split; [reflexivity|]. destruct G2 as [GR GC GF GK].
  assert (BL2 : blk v2 = blk0).
  { destruct (N.eq_dec (blk v2) (blk v)) as [->|NE]; [exact BK|]. destruct (fr_old _ _ _ _ GF NE) as (X & _). congruence. }
  pose proof (fr_next _ _ _ _ GF) as FN. cbn [argw nextb] in FN.
  assert (W2 : wfw (dropw w2 (nextb w))).
  { intros b Hb. cbn in *. unfold hset. destruct (N.eqb_spec b (nextb w)); [reflexivity|]. apply (brep_wf _ _ _ _ _ GR). lia. }
  split.
  { eapply brep_heap_eq; [exact GR|exact W2|reflexivity|]. cbn. unfold hset. destruct (N.eqb_spec (blk v2) (nextb w)); [lia|reflexivity]. }
  split. { intros A. destruct GC; congruence. }
  split; [destruct GC; congruence|]. split; [rewrite (GK AL); exact CP|]. split; [exact BL2|]. split; [cbn; lia|].
  split; [cbn; rewrite (fr_tick _ _ _ _ GF AL); reflexivity|]. split; [cbn; rewrite (fr_orc _ _ _ _ GF); reflexivity|].
  intros b NBb. cbn. unfold hset. destruct (N.eqb_spec b (nextb w)) as [->|NE0]; [symmetry; apply W; lia|].
  rewrite (fr_heap _ _ _ _ GF) by congruence. cbn. unfold hset. destruct (N.eqb_spec b (nextb w)); [congruence|reflexivity].
Qed.

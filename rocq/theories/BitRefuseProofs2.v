(** Bitsets with an allocator that refuses requests: whole histories, and which refusals leave a usable bitset. *)
From Coq Require Import ZifyBool ZifyNat ZifyN.
From Verif Require Import Base NListFacts Status Mem MemFacts VectorModel VectorSpec VectorDriver RefuseSpec
  VectorRep VectorProofs VectorProofs2 VectorProofs3 VectorRefine VectorFail VectorMore OracleProofs OracleProofs2 RefuseProofs
  StringModel StringSpec StringDriver StringBytes StringProofs StrRefuseProofs StrRefuseProofs2
  BitsetModel BitsetSpec BitsetDriver BitsetBits BitsetProofs BitsetRun BitsetFinal BitRefuseSpec BitRefuseProofs.

Lemma bstate_dec (a b : bstate) : a = b \/ a <> b.
Proof. assert ({a = b} + {a <> b}) as [|]; [|auto..]. repeat decide equality. Qed.
Lemma busable_dec cap s : busable cap s \/ ~ busable cap s.
Proof.
  unfold busable. destruct (bstate_dec s (whole (bt_bits s) (bt_cap s))); [|right; tauto].
  destruct (N.le_gt_cases (bt_bytes s) (bt_cap s)), (N.le_gt_cases (bt_cap s) cap); [now left|right; lia..].
Qed.
Lemma brefuses_dec g t ans o bs cap : brefuses g t ans o bs cap \/ ~ brefuses g t ans o bs cap.
Proof. unfold brefuses. destruct (basked _ _ _ _ _), (refusal ans); (left; split; discriminate) || (right; intros [? ?]; congruence). Qed.

(** A call that is not refused, or is but leaves a usable bitset, has done its work. *)
Lemma bcall_bits g t ans o bs cap r s' : legal_op None o bs -> bcall g t ans o bs cap r s' ->
  (brefuses g t ans o bs cap -> busable cap s') -> bt_bits s' = snd (bitstep None o bs).
Proof.
  intros LG V U. unfold bcall in V. destruct (basked g t o bs cap) as [k|] eqn:AK; [|now destruct V as [_ ->]].
  destruct (refusal ans) as [e|] eqn:RF; [|now destruct V as [_ ->]]. destruct V as [_ ->].
  destruct U as (U0 & _); [split; congruence|]. destruct o; cbn [brefused whole bt_bits bt_size bt_bytes bt_cap bitstep snd] in *; try (now unfold basked in AK).
  - injection U0 as U0. lia.
  - cbn [legal_op] in LG. now replace (nlen bs =? 0) with false by lia.
Qed.
(** So the bits after such a history are those of the specification. *)
Lemma bcalls_bits g t ans n ops bs cap rs bs2 cap2 n2 : bcalls g t ans n ops bs cap rs bs2 cap2 n2 -> legal None ops bs ->
  bs2 = snd (bitsteps None ops bs).
Proof.
  induction 1 as [|n o ops bs cap r s1 rs bs2 cap2 n2 V U _ IH]; intros LG; [reflexivity|]. destruct LG as [LO LG].
  pose proof (bcall_bits _ _ _ _ _ _ _ _ LO V U) as E. rewrite E in IH. specialize (IH LG).
  cbn [bitsteps]. destruct (bitstep None o bs) as [r1 bs1]. cbn [snd] in *. now destruct (bitsteps None ops bs1).
Qed.

Theorem run_bitops_any : forall ops w b l bs,
  xrep w b [] l [] bs -> v_alloc (bs_bits b) = true -> legal None ops bs -> bitroom (nlen bs + pushes ops) ->
  let g := v_growth (bs_bits b) in let t := v_shrink (bs_bits b) in
  exists ops1 ops2 rs w1 b1 l1 bs1, ops = ops1 ++ ops2 /\ run_bitops b ops1 w = Ok (rs, b1) w1 /\
    bcalls g t (orc w) (tick w) ops1 bs (v_cap (bs_bits b)) rs bs1 (v_cap (bs_bits b1)) (tick w1) /\
    xrep w1 b1 [] l1 [] bs1 /\ bgood w (bs_bits b) w1 (bs_bits b1) [] l1 [] /\ bitroom (nlen bs1) /\
    (ops2 = [] \/ exists o rest r w2 b2 s2,
       let cap1 := v_cap (bs_bits b1) in
       ops2 = o :: rest /\ run_bitop b1 o w1 = Ok (r, b2) w2 /\ bcall g t (orc w (tick w1)) o bs1 cap1 r s2 /\
       brefuses g t (orc w (tick w1)) o bs1 cap1 /\ ~ busable cap1 s2 /\ bstate_shown w2 b2 s2 /\
       1 <= tick w2 /\ 1 <= v_cap (bs_bits b2) < W64 /\
       exists l2, good w1 (bs_bits b1) w2 (set_cap (bs_bits b2) cap1) [] (cells l2) []).
Proof.
  induction ops as [|o ops IH]; intros w b l bs X A LG RM g t.
  - exists [], [], [], w, b, l, bs. cbn [pushes] in RM. rewrite N.add_0_r in RM. split; [reflexivity|]. split; [reflexivity|]. split; [constructor|].
    split; [exact X|]. split; [apply bgood_refl; apply X|]. split; [exact RM|now left].
  - destruct LG as [LO LG]. rewrite pushes_cons in RM.
    assert (RM0 : bitroom (nlen bs)) by (eapply bitroom_le; [|exact RM]; lia).
    destruct (run_bitop_any w b l bs X A RM0 o LO) as (r & w1 & b1 & s1 & E & V & K & T & O1 & GR & GU).
    cbv zeta in *. fold g t in V, T, GR, GU. set (cap := v_cap (bs_bits b)) in *.
    assert (D : (brefuses g t (orc w (tick w)) o bs cap -> busable cap s1) \/ brefuses g t (orc w (tick w)) o bs cap /\ ~ busable cap s1).
    { destruct (busable_dec cap s1); [left; auto|]. destruct (brefuses_dec g t (orc w (tick w)) o bs cap); [right; auto|]. left. tauto. }
    destruct D as [U|[RF NU]].
    + destruct (GU U) as (l1 & X1 & G1). pose proof (bcall_bits _ _ _ _ _ _ _ _ LO V U) as EB. pose proof (step_len None o bs) as SL. rewrite <- EB in *.
      destruct (b_cfg _ _ _ _ _ _ _ G1) as (CA & CG & CS & CE & CD).
      destruct (IH w1 b1 l1 (bt_bits s1)) as (ops1 & ops2 & rs & w2 & b2 & l2 & bs2 & EO & ER & VC & X2 & G2 & RM2 & REST).
      { exact X1. } { congruence. } { exact LG. } { eapply bitroom_le; [|exact RM]. lia. }
      rewrite CG, CS, O1 in *. fold g t in VC, REST.
      exists (o :: ops1), ops2, (r :: rs), w2, b2, l2, bs2. split; [now rewrite EO|]. split; [|split; [|split; [exact X2|split; [|split; [exact RM2|]]]]].
      * cbn [run_bitops]. rewrite (bind_ok _ _ _ _ _ E). rewrite (bind_ok _ _ _ _ _ ER). reflexivity.
      * econstructor; [exact V|exact U|]. rewrite T, K in VC. exact VC.
      * eapply bgood_trans; [exact G1|eapply brep_wf; apply X|exact G2].
      * exact REST.
    + exists [], (o :: ops), [], w, b, l, bs. split; [reflexivity|]. split; [reflexivity|]. split; [constructor|].
      split; [exact X|]. split; [apply bgood_refl; apply X|]. split; [exact RM0|]. right. destruct (GR RF) as (SH & K1 & G1).
      exists o, ops, r, w1, b1, s1. cbv zeta. split; [reflexivity|]. split; [exact E|]. split; [exact V|].
      split; [exact RF|]. split; [exact NU|]. split; [exact SH|]. split; [|auto].
      rewrite T. unfold brequests. destruct RF as [RF _]. destruct (basked _ _ _ _ _); [lia|congruence].
Qed.

(** ** Init *)
Lemma init_elements_quiet q n : forall w v pre l post r v' w', brep w v pre l post -> nofail w v -> v_alloc v = true ->
  (nlen l + N.of_nat n) * 256 < W64 -> nlen l + N.of_nat n <= v_cap v -> src w q [0] -> pb q <> blk v ->
  init_elements v (Some q) n w = Ok (r, v') w' -> tick w' = tick w /\ v_cap v' = v_cap v.
Proof.
  induction n as [|n IH]; intros w v pre l post r v' w' R NF A RM CP Q NB E.
  - cbn in E. injection E as _ <- <-. now split.
  - cbn [init_elements] in E. destruct (bpush_ok w v pre l post 0 q R (nofail_grants _ _ NF)) as (r1 & w1 & v1 & l1 & E1 & G & K); auto; [lia|].
    assert (HV : bholds v (nlen l + 1) = true) by (unfold bholds; lia). rewrite HV in K. destruct K as [-> ->].
    destruct (growth_bounds _ _ _ _ _ (proj1 R)) as [GB _]. change W64 with 18446744073709551616 in *.
    pose proof (brep_size _ _ _ _ _ R) as SZ.
    pose proof (asks_push_back v (nlen l) q A SZ ltac:(change W64 with 18446744073709551616; lia) _ _ _ E1) as T1.
    pose proof (caps_push_back v (nlen l) q A SZ ltac:(change W64 with 18446744073709551616; lia) ltac:(change W64 with 18446744073709551616; nia) ltac:(lia) _ _ _ _ E1) as C1.
    destruct (N.ltb_spec (v_cap v) (nlen l + 1)) as [|_]; [lia|].
    rewrite (bind_ok _ _ _ _ _ E1) in E. change (st_success ST_SUCCESS) with true in E. cbn [negb] in E.
    destruct (src_frame w w1 v v1 q [0] Q NB) as [Q1 NB1]; [eapply brep_wf; eauto|apply G|].
    assert (LL : nlen (l ++ [0]) = nlen l + 1) by (rewrite nlen_app; reflexivity).
    destruct (IH w1 v1 pre (l ++ [0]) post r v' w') as [T2 C2]; auto.
    + apply G. + eapply bnofail; eauto. + destruct (b_cfg _ _ _ _ _ _ _ G). congruence. + rewrite LL. lia. + rewrite LL. lia.
    + split; [lia|congruence].
Qed.

Lemma bitinit_quiet w n g t : bitinit_args_ok w n g t -> forall r b w',
  with_zero (fun z => bs_init_ex z n true g t) w = Ok (r, Some b) w' ->
  tick w' = tick w + 1 /\ v_cap (bs_bits b) = N.max 1 (n / 8) /\ v_growth (bs_bits b) = g /\ v_shrink (bs_bits b) = t.
Proof.
  intros (W & AO & G & T & C) r b w' H. unfold with_zero, with_arg in H. fold (argw w [0]) in H.
  assert (W1 : wfw (argw w [0])).
  { intros k Hb. cbn in *. unfold hset. destruct (N.eqb_spec k (nextb w)); [lia|]. apply W. lia. }
  destruct (AO (tick w)) as [fill O]. assert (C2 : n / 8 * 256 < W64).
  { change W32 with 4294967296 in C. change W64 with 18446744073709551616. lia. }
  destruct (init_ok (argw w [0]) 1 (n / 8) None g t fill W1 O) as (w1 & v & E & R & CP & ES & AL & CF & _ & OR & B1 & B2 & HP); auto; try lia.
  { change W64 with 18446744073709551616 in *. lia. } { exact I. }
  pose proof (init_asks _ _ _ _ _ _ _ _ E) as TI. cbn [argw tick] in TI.
  assert (BR : brep w1 v [] [] []). { split; [exact R|]. split; [exact ES|]. now injection CF. }
  cbn [argw nextb] in B1, B2.
  assert (NB : nextb w <> blk v) by lia.
  assert (Q : src w1 (mkptr (nextb w) 0) [0]).
  { exists [], []. cbn. rewrite HP by exact NB. cbn. unfold hset. rewrite N.eqb_refl. now split. }
  assert (NF : nofail w1 v). { intros _ u. rewrite OR. apply AO. }
  destruct (init_elements_ok (mkptr (nextb w) 0) (N.to_nat (n / 8)) w1 v [] [] [] BR NF) as (w2 & v2 & E2 & G2 & Q2 & NB2); auto.
  { rewrite nlen_nil. lia. } { rewrite CP, nlen_nil. lia. }
  destruct (init_elements_quiet (mkptr (nextb w) 0) (N.to_nat (n / 8)) w1 v [] [] [] _ _ _ BR NF AL ltac:(rewrite nlen_nil; lia) ltac:(rewrite CP, nlen_nil; lia) Q NB E2) as [T2 C2'].
  destruct (b_cfg _ _ _ _ _ _ _ G2) as (_ & CG & CS & _).
  unfold bs_init_ex in H. rewrite bits_to_bytes_small in H by exact C. rewrite (bind_ok _ _ _ _ _ E) in H.
  change (st_success ST_SUCCESS) with true in H. cbn [negb] in H. rewrite (bind_ok _ _ _ _ _ E2) in H.
  injection H as <- <- <-. cbn [dropw tick bs_bits]. injection CF as _ CF1 CF2 _ _. split; [change (tick w2 = tick w + 1); lia|]. split; [congruence|]. split; congruence.
Qed.

Lemma bitinit_first_ok w n g t fill : bitinit_params_ok w n g t -> n mod 8 = 0 -> orc w (tick w) = AOk fill ->
  exists w' b, with_zero (fun z => bs_init_ex z n true g t) w = Ok (ST_SUCCESS, Some b) w' /\
    xrep w' b [] (repeat 0 (N.to_nat (n / 8))) [] (zeros n) /\
    v_alloc (bs_bits b) = true /\ v_cap (bs_bits b) = N.max 1 (n / 8) /\
    nextb w <= blk (bs_bits b) /\ nextb w <= nextb w' /\ orc w' = orc w /\ tick w' = tick w + 1 /\
    v_growth (bs_bits b) = g /\ v_shrink (bs_bits b) = t /\
    (forall k, k <> blk (bs_bits b) -> heap w' k = heap w k).
Proof.
  intros (W & G & T & C) Z O. pose (o' := fun u => if u =? tick w then AOk fill else AOk (fun _ => 0)).
  assert (AR : bitinit_args_ok (with_oracle w o') n g t).
  { split; [exact W|]. split; [|split; [exact G|split; [exact T|exact C]]]. intros u. cbn [orc with_oracle]. unfold o'. destruct (_ =? _); eauto. }
  destruct (bitinit_ok _ _ _ _ AR) as (w1 & v & E & R & NF & AL & B1 & B2 & OR & HP).
  destruct (bitinit_quiet _ _ _ _ AR _ _ _ E) as (TI & CP & GG & TT). cbn [tick with_oracle bs_bits nextb heap] in *.
  destruct (lo_with_arg [0] (fun p => bs_init_ex p n true g t) (fun p => bs_init_ex p n true g t) (fun p => lo_bs_init_ex p n true g t) _ _ _ E) as (_ & _ & LO). specialize (LO (orc w)). rewrite with_oracle_back in LO.
  exists (with_oracle w1 (orc w)), (mkbitset n v). split.
  { apply LO. intros u Hu. cbn [tick orc with_oracle] in *. unfold o'. destruct (N.eqb_spec u (tick w)) as [->|]; [exact O|lia]. }
  split.
  { apply xrep_zeros; [|exact Z]. destruct R as (R & RE). split; [|exact RE]. now apply rep_with_oracle. }
  cbn [bs_bits with_oracle nextb orc tick heap]. auto 12.
Qed.

Theorem bitset_any_allocator w0 n g t ops fill :
  bitinit_params_ok w0 n g t -> n mod 8 = 0 -> legal None ops (zeros n) -> bitroom (n + pushes ops) -> orc w0 (tick w0) = AOk fill ->
  exists b0 w1 ops1 ops2 rs b w bs cap,
    with_zero (fun z => bs_init_ex z n true g t) w0 = Ok (ST_SUCCESS, Some b0) w1 /\
    ops = ops1 ++ ops2 /\ run_bitops b0 ops1 w1 = Ok (rs, b) w /\
    bcalls g t (orc w0) (tick w0 + 1) ops1 (zeros n) (N.max 1 (n / 8)) rs bs cap (tick w) /\
    bs = snd (bitsteps None ops1 (zeros n)) /\
    bstate_shown w b (whole bs cap) /\ bdestroys_back w0 w b /\
    (ops2 = [] \/ exists o rest r b2 w2 s2,
       ops2 = o :: rest /\ run_bitop b o w = Ok (r, b2) w2 /\
       brefuses g t (orc w0 (tick w)) o bs cap /\ bcall g t (orc w0 (tick w)) o bs cap r s2 /\ ~ busable cap s2 /\
       bstate_shown w2 b2 s2 /\ bdestroys_back w0 w2 b2).
Proof.
  intros PO Z LG RM O. pose proof PO as (W & _).
  destruct (bitinit_first_ok w0 n g t fill PO Z O) as (w1 & b0 & EI & X & AL & CP & BL & NB & OI & TI & GG & TT & FR).
  destruct (run_bitops_any ops w1 b0 _ _ X AL LG) as (ops1 & ops2 & rs & w & b & l & bs & EO & ER & VC & X1 & G & RM1 & REST).
  { now rewrite nlen_zeros. }
  set (v0 := bs_bits b0) in *. set (v := bs_bits b) in *.
  pose proof (b_frame _ _ _ _ _ _ _ G) as F1.
  assert (HB : forall k, k <> blk v0 -> k <> blk v -> heap w k = heap w0 k).
  { intros k B1 B2. rewrite (fr_heap _ _ _ _ F1 k B1 B2). now apply FR. }
  assert (H0 : heap w0 (blk v0) = None) by (apply W; lia).
  assert (HO : blk v <> blk v0 -> heap w (blk v0) = None /\ heap w0 (blk v) = None).
  { intros N0. destruct (fr_old _ _ _ _ F1 N0) as (_ & ? & ?). split; [assumption|]. apply W. lia. }
  assert (BACK : forall w', heap w' (blk v) = None -> (forall k, k <> blk v -> heap w' k = heap w k) ->
    forall k, heap w' k = heap w0 k).
  { intros w' HV HN k. destruct (N.eq_dec k (blk v)) as [->|N1].
    - rewrite HV. destruct (N.eq_dec (blk v) (blk v0)) as [->|N0]; [congruence|]. now destruct (HO N0).
    - rewrite HN by assumption. destruct (N.eq_dec k (blk v0)) as [->|N0].
      + destruct HO; congruence.
      + now apply HB. }
  assert (BV : heap w0 (blk v) = None).
  { destruct (N.eq_dec (blk v) (blk v0)) as [->|N0]; [exact H0|]. now destruct (HO N0). }
  pose proof (fr_alloc _ _ _ _ F1) as AV. assert (AV' : v_alloc v = true) by congruence.
  rewrite GG, TT, OI, TI, CP in *.
  exists b0, w1, ops1, ops2, rs, b, w, bs, (v_cap v). split; [exact EI|]. split; [exact EO|]. split; [exact ER|]. split; [exact VC|].
  split. { eapply bcalls_bits; [exact VC|]. rewrite EO in LG. clear -LG. revert LG. generalize (zeros n).
    induction ops1 as [|o ops1 IH]; intros bs LG; [exact I|]. destruct LG as [L1 L2]. split; [exact L1|now apply IH]. }
  split. { destruct X1 as [XR XB XS XL XI]. replace (whole bs (v_cap v)) with (mkbst (nlen bs) bs (nlen l) (v_cap v)) by (unfold whole; now rewrite XL).
    apply (shown_any w b (v_cap v) l); auto; try lia. unfold v. now replace (set_cap (bs_bits b) (v_cap (bs_bits b))) with (bs_bits b) by now destruct (bs_bits b). }
  split.
  { destruct (destroy_ok w v [] (cells l) [] (proj1 (x_rep _ _ _ _ _ _ X1))) as (w' & E & D & D1 & _ & D2).
    unfold bdestroys_back, bs_destroy. fold v. rewrite (bind_ok _ _ _ _ _ E). eexists _, w'. split; [reflexivity|]. apply BACK; auto. }
  destruct REST as [->|(o & rest & r & w2 & b2 & s2 & E2 & EV & V & RF & NU & SH & T1 & C1 & l2 & G2)]; [now left|].
  right. exists o, rest, r, b2, w2, s2. split; [exact E2|]. split; [exact EV|]. split; [exact RF|].
  split; [exact V|]. split; [exact NU|]. split; [exact SH|]. fold v in G2.
  pose proof (g_frame _ _ _ _ _ _ _ G2) as F2. set (v2 := bs_bits b2) in *.
  pose proof (fr_alloc _ _ _ _ F2) as AV2. cbn [set_cap v_alloc] in AV2.
  assert (A2 : v_alloc v2 = true) by congruence.
  destruct (wrong_cap_destroy w2 v2 (v_cap v) (cells l2) (g_rep _ _ _ _ _ _ _ G2)) as (w' & v' & E & D & H1 & H2); [exact T1|lia|exact A2|].
  unfold bdestroys_back, bs_destroy. fold v2. rewrite (bind_ok _ _ _ _ _ E). eexists _, w'. split; [reflexivity|].
  intros k. destruct (N.eq_dec k (blk v2)) as [->|N2].
  - rewrite H1. destruct (N.eq_dec (blk v2) (blk v)) as [->|N3]; [symmetry; exact BV|]. symmetry. apply W.
    destruct (fr_old _ _ _ _ F2 N3) as (_ & _ & LB). change (blk (set_cap v2 (v_cap v))) with (blk v2) in LB.
    pose proof (fr_next _ _ _ _ F1). lia.
  - rewrite H2 by assumption. destruct (N.eq_dec k (blk v)) as [->|N3].
    + rewrite BV. apply (fr_old _ _ _ _ F2). change (blk (set_cap v2 (v_cap v))) with (blk v2). congruence.
    + rewrite (fr_heap _ _ _ _ F2 k N3 N2). destruct (N.eq_dec k (blk v0)) as [->|N0].
      * destruct HO; congruence.
      * now apply HB.
Qed.

(** ** Which refusals leave a usable bitset *)
Lemma brefused_usable g t ans o bs cap r s' : legal_op None o bs -> (nlen bs + 7) / 8 <= cap -> 1 <= g -> g <= t ->
  brefuses g t ans o bs cap -> bcall g t ans o bs cap r s' ->
  (busable cap s' <-> match o with BPop | BShrinkToFit => True | _ => False end).
Proof.
  intros LG LE G1 GT [RF RA] V. unfold bcall in V. destruct (basked g t o bs cap) as [k|] eqn:AK; [|congruence].
  destruct (refusal ans); [|congruence]. destruct V as [_ ->]. unfold basked, bchange, asked in AK. cbn [c_growth c_shrink] in AK. cbv zeta in AK.
  unfold busable. destruct o; try discriminate AK; cbn [brefused whole bt_bits bt_size bt_bytes bt_cap legal_op] in *.
  - split; [intros (E & _); injection E as E; lia|tauto].
  - split; [auto|intros _]. rewrite nlen_cut. splitasked; (split; [unfold whole; now rewrite ?nlen_cut|]); nia.
  - split; [|tauto]. intros (E & _ & _). unfold whole in E. injection E as E. change ((nlen (@nil bool) + 7) / 8) with 0 in E.
    splitasked; lia.
  - split; [intros (_ & _ & E)|tauto]. splitasked; lia.
  - split; [auto|intros _]. split; [reflexivity|]. splitasked; lia.
Qed.

(** ** The calls after a refused Push *)
Lemma bitreached_own w b bs : bitreached None w b bs ->
  exists l, xrep w b [] l [] bs /\ nofail w (bs_bits b) /\ v_alloc (bs_bits b) = true.
Proof.
  intros H. apply bitreached_rep in H as (pre & l & post & X & NF & LM & _).
  assert (A : v_alloc (bs_bits b) = true) by (unfold bitlimit in LM; destruct (v_alloc (bs_bits b)); [reflexivity|discriminate]).
  pose proof (r_alloc _ _ _ _ _ (proj1 (x_rep _ _ _ _ _ _ X))) as RA. rewrite A in RA. destruct RA as (-> & -> & _). now exists l.
Qed.

(** A Push into a byte that does not exist. *)
Lemma push_nowhere w n v x : n mod 8 <> 0 -> n + 1 < W64 -> v_size v <= n / 8 ->
  run_bitop (mkbitset n v) (BPush x) w = Ok (ST_OUT_OF_RANGE, mkbitset (n + 1) v) (dropw (argw w [0]) (nextb w)).
Proof.
  intros M LT SZ. cbn [run_bitop]. unfold with_zero, with_arg. fold (argw w [0]). unfold bs_push. cbn [bs_size bs_bits].
  destruct (N.eqb_spec (n mod 8) 0); [lia|]. rewrite wadd_small by exact LT. unfold bind at 1, ret at 1. change (st_success ST_SUCCESS) with true. cbn [negb].
  cbn [bs_size]. rewrite wsub_small by lia. replace (n + 1 - 1) with n by lia.
  assert (E : bs_assign (mkbitset (n + 1) v) n x (argw w [0]) = Ok ST_OUT_OF_RANGE (argw w [0])).
  { unfold bs_assign, bs_set, bs_reset, bs_change, vget_pointer. cbn [bs_size bs_bits]. destruct x; (destruct (N.leb_spec (n + 1) n); [lia|]);
      (destruct (N.leb_spec (v_size v) (n / 8)); [reflexivity|lia]). }
  unfold bind at 1. rewrite E. reflexivity.
Qed.
Lemma pushes_nowhere xs : forall w n v, n mod 8 <> 0 -> n mod 8 + nlen xs <= 8 -> n + nlen xs < W64 -> v_size v <= n / 8 ->
  exists w', run_bitops (mkbitset n v) (map BPush xs) w = Ok (repeat ST_OUT_OF_RANGE (length xs), mkbitset (n + nlen xs) v) w' /\
    nextb w <= nextb w' /\ (forall k, k < nextb w -> heap w' k = heap w k).
Proof.
  induction xs as [|x xs IH]; intros w n v M LE LT SZ.
  - exists w. cbn [map run_bitops repeat length]. change (nlen (@nil bool)) with 0. rewrite N.add_0_r. split; [reflexivity|]. split; [lia|auto].
  - rewrite nlen_cons in *. assert (ST := push_nowhere w n v x M ltac:(lia) SZ). set (w1 := dropw (argw w [0]) (nextb w)) in ST.
    assert (H1 : nextb w <= nextb w1 /\ forall k, k < nextb w -> heap w1 k = heap w k).
    { split; [cbn; lia|]. intros k Hk. cbn. unfold hset. now destruct (N.eqb_spec k (nextb w)); [lia|]. }
    destruct xs as [|y xs].
    + exists w1. cbn [map run_bitops repeat length]. rewrite (bind_ok _ _ _ _ _ ST). change (nlen (@nil bool)) with 0. now rewrite N.add_0_r.
    + rewrite nlen_cons in *. destruct (IH w1 (n + 1) v) as (w' & E & N1 & HP); [lia|lia|lia|lia|].
      exists w'. split; [|split; [lia|]].
      * change (map BPush (x :: y :: xs)) with (BPush x :: map BPush (y :: xs)). cbn [run_bitops]. rewrite (bind_ok _ _ _ _ _ ST).
        rewrite (bind_ok _ _ _ _ _ E). cbn [repeat length]. unfold ret. now replace (n + 1 + (1 + nlen xs)) with (n + (1 + (1 + nlen xs))) by lia.
      * intros k Hk. rewrite HP by lia. now apply H1.
Qed.

(** A PushBack that believes a capacity that the block does not have. *)
Lemma push_back_overrun {C} (w : Mem.world C) (v : vector C) n q x d : v_data v = Some (mkptr n 0) -> v_esz v = 1 -> v_size v < v_cap v -> v_size v + 1 < W64 -> heap w n = Some d ->
  nlen d <= v_size v -> src w q [x] -> pb q <> n -> vpush_back v (Some q) w = Fault OutOfBounds.
Proof.
  intros D E1 CL L HD LD (a & c & HQ & PA) NB. unfold vpush_back. cbn [nonnull negb].
  assert (AV : assert_valid v w = Ok tt w).
  { unfold assert_valid. rewrite E1, D. reflexivity. }
  rewrite (bind_ok _ _ _ _ _ AV). unfold vgrow. rewrite wadd_small by exact L. unfold should_grow.
  destruct (N.ltb_spec (v_cap v) (v_size v + 1)); [lia|]. unfold bind at 1, ret at 1. change (st_success ST_SUCCESS) with true. cbn [negb].
  unfold bind at 1. unfold offset. rewrite E1, D, wmul_small by lia. cbn [padd pb po].
  unfold memcpy, overlap. cbn [pb po]. destruct (N.eqb_spec n (pb q)); [congruence|]. cbn [andb].
  unfold memmove, bind, mread, mwrite. rewrite HQ, !nlen_app, PA. change (nlen [x]) with 1.
  destruct (N.leb_spec (nlen a + 1) (nlen a + (1 + nlen c))); [|lia]. cbn [pb po heap]. rewrite HD.
  match goal with |- context [if ?b then _ else _] => destruct b eqn:B end; [|reflexivity].
  exfalso. rewrite nlen_nsub in B by (rewrite !nlen_app; change (nlen [x]) with 1; lia). lia.
Qed.

Theorem second_byte w b bs x ys z o' st :
  bitreached None w b bs -> nlen bs mod 8 = 0 -> bs_get_capacity_bytes b = (ST_SUCCESS, nlen bs / 8) -> bitroom (nlen bs + 8) ->
  length ys = 7%nat -> o' (tick w) = AFail st ->
  exists b1 w1 b2 w2, run_bitop b (BPush x) (with_oracle w o') = Ok (err_status st, b1) w1 /\
    run_bitops b1 (map BPush ys) w1 = Ok (repeat ST_OUT_OF_RANGE 7, b2) w2 /\
    bs_get_size b2 = (ST_SUCCESS, nlen bs + 8) /\
    run_bitop b2 (BPush z) w2 = Fault OutOfBounds.
Proof.
  intros RO M CE RM LY O. destruct (bitreached_own _ _ _ RO) as (l & X & NF & A). injection CE as CE.
  assert (RM0 : bitroom (nlen bs)) by (eapply bitroom_le; [|exact RM]; lia).
  assert (X1 : xrep (with_oracle w o') b [] l [] bs).
  { destruct X as [[R RE] B S0 L H]. split; auto. split; [|exact RE]. now apply rep_with_oracle. }
  destruct X as [[R RE] B S0 L H]. destruct (growth_bounds _ _ _ _ _ R) as [GB SB].
  pose proof (r_heap _ _ _ _ _ R) as (sl & SL & HH). apply (spare_exact _ _ _ NF) in SL. cbn [app] in HH. rewrite concat_cells, app_nil_r in HH.
  pose proof (push_refused (with_oracle w o') b l bs st X1 A RM0 O x M ltac:(lia)) as E.
  set (k := ((nlen bs + 7) / 8 + 1) * v_growth (bs_bits b)) in *. set (w1 := dropw _ _) in E.
  assert (SZ : v_size (bs_bits b) = nlen bs / 8). { rewrite (r_size _ _ _ _ _ R), nlen_cells. lia. }
  assert (LW : nlen bs + 8 < W64) by (apply bitroom_lt in RM; apply RM).
  assert (LYS : nlen ys = 7) by (unfold nlen; lia).
  destruct (pushes_nowhere ys w1 (nlen bs + 1) (set_cap (bs_bits b) k)) as (w2 & E2 & N2 & HP); try lia.
  { cbn [set_cap v_size]. lia. }
  rewrite LY in E2. replace (nlen bs + 1 + nlen ys) with (nlen bs + 8) in E2 by lia.
  exists (mkbitset (nlen bs + 1) (set_cap (bs_bits b) k)), w1, (mkbitset (nlen bs + 8) (set_cap (bs_bits b) k)), w2.
  split; [exact E|]. split; [exact E2|]. split; [reflexivity|].
  pose proof (rep_blk_lt _ _ _ _ _ R) as BL.
  assert (HV : heap w2 (blk (bs_bits b)) = Some (l ++ sl)).
  { rewrite HP by (cbn; lia). cbn. unfold hset. destruct (N.eqb_spec (blk (bs_bits b)) (nextb w)); [lia|]. exact HH. }
  assert (NX : nextb w < nextb w2) by (cbn in N2; lia).
  cbn [run_bitop]. unfold with_zero, with_arg. fold (argw w2 [0]). unfold bs_push. cbn [bs_size bs_bits].
  destruct (N.eqb_spec ((nlen bs + 8) mod 8) 0); [|lia].
  assert (OV : vpush_back (set_cap (bs_bits b) k) (Some (mkptr (nextb w2) 0)) (argw w2 [0]) = Fault OutOfBounds).
  { apply (push_back_overrun (argw w2 [0]) _ (blk (bs_bits b)) _ 0 (l ++ sl)); cbn [set_cap v_data v_size v_cap v_esz pb]; try lia.
    - exact (r_data _ _ _ _ _ R).
    - rewrite SZ. unfold k. nia.
    - cbn [heap argw]. unfold hset. destruct (N.eqb_spec (blk (bs_bits b)) (nextb w2)); [lia|]. exact HV.
    - rewrite nlen_app, SL, (proj1 RE), nlen_cells. lia.
    - exists [], []. cbn. unfold hset. rewrite N.eqb_refl. now split. }
  unfold bind at 1 2. rewrite OV. reflexivity.
Qed.

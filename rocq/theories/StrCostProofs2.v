(** The cost of popping bits. *)
From Verif Require Import Base NListFacts Status Mem MemFacts VectorModel VectorSpec VectorDriver VectorRep VectorProofs VectorProofs2 RefuseSpec CostSpec
  StringModel StringBytes StringProofs BitsetModel BitsetSpec BitsetDriver BitsetProofs BitsetRun BitsetFinal BitRefuseSpec BitRefuseProofs BitRefuseProofs2 StrCostSpec StrCostProofs.
From Coq Require Import ZifyBool ZifyNat ZifyN.

(** A growable bitset with [n] bits, in [cap] bytes. *)
Definition bsized w b g t n cap : Prop :=
  (exists l bs, xrep w b [] l [] bs /\ nlen bs = n) /\ (forall u, exists fill, orc w u = AOk fill) /\ bitroom n /\
  v_alloc (bs_bits b) = true /\ v_growth (bs_bits b) = g /\ v_shrink (bs_bits b) = t /\ v_cap (bs_bits b) = cap.

Lemma run_bcost_app a : forall c b w, run_bcost b (a ++ c) w =
  match run_bcost b a w with
  | Fault f => Fault f
  | Ok (x, y, b1) w1 => match run_bcost b1 c w1 with Fault f => Fault f | Ok (x2, y2, b2) w2 => Ok (x + x2, y + y2, b2) w2 end
  end.
Proof.
  induction a as [|o a IH]; intros c b w; cbn [app run_bcost].
  - destruct (run_bcost b c w) as [[[x y] b1] w1|f]; reflexivity.
  - destruct (run_bitop b o w) as [[r b1] w1|f]; [|reflexivity]. rewrite IH.
    destruct (run_bcost b1 a w1) as [[[x y] b2] w2|f]; [|reflexivity].
    destruct (run_bcost b2 c w2) as [[[x2 y2] b3] w3|f]; [|reflexivity]. now rewrite !N.add_assoc.
Qed.
Lemma pop_cost w b g t n cap : bsized w b g t n cap -> 1 <= n ->
  let a := if n mod 8 =? 1 then asked (mkcfg false g t 1 (@None (list N -> list N))) OPopBack ((n + 7) / 8) cap else None in
  let cap' := match a with Some k => k | None => cap end in
  exists b' w', run_bcost b [BPop] w = Ok (match a with Some k => k | None => 0 end, 1, b') w' /\ bsized w' b' g t (n - 1) cap' /\
    tick w' = tick w + match a with Some _ => 1 | None => 0 end.
Proof.
  intros ((l & bs & X & <-) & O & RM & A & <- & <- & <-) N1 a cap'.
  destruct (run_bitop_any w b l bs X A RM BPop) as (r & w1 & b1 & s1 & E & V & K & TK & O1 & _ & GU); [cbn; lia|].
  destruct (O (tick w)) as [fill OF]. rewrite OF in *. destruct GU as (l1 & X1 & G1); [intros [_ Y]; now destruct Y|].
  set (g := v_growth (bs_bits b)) in *. set (t := v_shrink (bs_bits b)) in *. set (cap := v_cap (bs_bits b)) in *.
  assert (AE : basked g t BPop bs cap = a) by (unfold basked, a; cbn [bchange]; destruct (nlen bs mod 8 =? 1); reflexivity).
  assert (V2 : s1 = whole (snd (bitstep None BPop bs)) cap').
  { unfold bcall in V. cbn [refusal] in V. rewrite AE in V. unfold cap'. destruct a; apply V. }
  subst s1. cbn [whole bt_bits bt_cap] in *. unfold brequests in TK. rewrite AE in TK.
  assert (LB : nlen (snd (bitstep None BPop bs)) = nlen bs - 1).
  { cbn [bitstep]. destruct (N.eqb_spec (nlen bs) 0); [lia|]. cbn [snd]. rewrite nlen_nfirst. lia. }
  destruct (b_cfg _ _ _ _ _ _ _ G1) as (CA & CG & CS & CE & CD).
  exists b1, w1. split; [|split].
  - cbn [run_bcost]. rewrite E. cbn [bs_get_size bs_get_capacity_bytes vget_capacity snd]. rewrite (x_size _ _ _ _ _ _ X), (x_size _ _ _ _ _ _ X1), LB, K.
    replace (distance (nlen bs) (nlen bs - 1) + 0) with 1 by (unfold distance; lia). rewrite TK. unfold cap'. destruct a as [k|].
    + replace ((tick w + 1 - tick w) * k + 0) with k by lia. reflexivity.
    + replace ((tick w + 0 - tick w) * cap + 0) with 0 by lia. reflexivity.
  - split; [exists l1, (snd (bitstep None BPop bs)); split; [exact X1|exact LB]|]. split; [intros u; rewrite O1; apply O|].
    split; [eapply bitroom_le; [|exact RM]; lia|]. split; [congruence|]. split; [exact CG|]. split; [exact CS|exact K].
  - exact TK.
Qed.

(** Pops that leave the capacity. *)
Lemma pops_free g t : forall k w b n cap, bsized w b g t n cap -> N.of_nat k <= n ->
  t = 0 \/ cap <= (n - N.of_nat k + 7) / 8 * t \/ n mod 8 = 0 /\ N.of_nat k < 8 ->
  exists b' w', run_bcost b (repeat BPop k) w = Ok (0, N.of_nat k, b') w' /\ bsized w' b' g t (n - N.of_nat k) cap /\ tick w' = tick w.
Proof.
  induction k as [|k IH]; intros w b n cap B L C.
  - exists b, w. split; [reflexivity|]. rewrite N.sub_0_r. auto.
  - replace (Datatypes.S k) with (k + 1)%nat in * by lia. rewrite repeat_app, run_bcost_app.
    destruct (IH w b n cap B) as (b1 & w1 & E1 & B1 & T1); [lia| |].
    { destruct C as [C|[C|C]]; [now left| |right; right; lia]. right. left. etransitivity; [exact C|]. apply N.mul_le_mono_r. apply N.div_le_mono; lia. }
    rewrite E1. cbn [repeat]. destruct (pop_cost _ _ _ _ _ _ B1) as (b2 & w2 & E2 & B2 & T2); [lia|].
    match type of B2 with context [match ?a with Some k => k | None => cap end] => replace a with (@None N) in * end.
    2:{ destruct (N.eqb_spec ((n - N.of_nat k) mod 8) 1) as [M|]; [|reflexivity]. unfold asked. cbn [c_shrink]. cbv zeta.
      destruct (0 <? _); [|reflexivity]. destruct C as [->|[C|C]]; [reflexivity| |lia].
      replace ((n - N.of_nat k + 7) / 8 - 1) with ((n - N.of_nat (k + 1) + 7) / 8) by lia.
      match goal with |- context [?x <? cap] => replace (x <? cap) with false by lia end. now rewrite andb_false_r. }
    exists b2, w2. rewrite E2. split; [f_equal; f_equal; f_equal; lia|]. split; [now replace (n - N.of_nat (k + 1)) with (n - N.of_nat k - 1) by lia|]. lia.
Qed.
(** Eight pops take a byte away, and ask for a smaller block if the threshold says so. *)
Lemma pops_byte g t w b s cap : bsized w b g t (8 * s) cap -> 2 <= s -> 1 <= t -> 1 <= g -> (s - 1) * t < cap ->
  exists b' w', run_bcost b (repeat BPop 8) w = Ok ((s - 1) * g, 8, b') w' /\ bsized w' b' g t (8 * (s - 1)) ((s - 1) * g) /\ tick w' = tick w + 1.
Proof.
  intros B S2 T1 G1 L. change (repeat BPop 8) with (repeat BPop 7 ++ [BPop]). rewrite run_bcost_app.
  destruct (pops_free g t 7 w b (8 * s) cap B) as (b1 & w1 & E1 & B1 & K1); [lia|right; right; lia|]. rewrite E1.
  destruct (pop_cost _ _ _ _ _ _ B1) as (b2 & w2 & E2 & B2 & T2); [lia|].
  match type of B2 with context [match ?a with Some k => k | None => cap end] => replace a with (Some ((s - 1) * g)) in * end.
  2:{ replace ((8 * s - N.of_nat 7) mod 8) with 1 by lia. rewrite N.eqb_refl. unfold asked. cbn [c_shrink c_growth]. cbv zeta.
    replace ((8 * s - N.of_nat 7 + 7) / 8) with s by lia. replace (0 <? s) with true by lia.
    replace ((s - 1) * t <? cap) with true by lia. replace (t =? 0) with false by lia. cbn [negb andb]. f_equal. nia. }
  exists b2, w2. rewrite E2. split; [reflexivity|]. split; [now replace (8 * (s - 1)) with (8 * s - N.of_nat 7 - 1) by lia|]. lia.
Qed.
Lemma pops_bytes g t : 1 <= t <= g -> forall j w b s cap, bsized w b g t (8 * s) cap -> N.of_nat j < s -> (s - 1) * t < cap ->
  exists blocks b' w', run_bcost b (repeat BPop (8 * j)) w = Ok (blocks, 8 * N.of_nat j, b') w' /\
    2 * blocks = g * (N.of_nat j * (2 * s - N.of_nat j - 1)) /\ tick w' = tick w + N.of_nat j.
Proof.
  intros T. induction j as [|j IH]; intros w b s cap B L C.
  - exists 0, b, w. split; [reflexivity|]. split; lia.
  - replace (8 * Datatypes.S j)%nat with (8 + 8 * j)%nat by lia. rewrite repeat_app, run_bcost_app.
    destruct (pops_byte g t w b s cap B) as (b1 & w1 & E1 & B1 & K1); [lia|lia|lia|exact C|]. rewrite E1.
    destruct (IH w1 b1 (s - 1) _ B1) as (bl & b2 & w2 & E2 & Q & K2); [lia|nia|]. rewrite E2.
    exists ((s - 1) * g + bl), b2, w2. split; [f_equal; f_equal; f_equal; lia|]. split; [|lia].
    replace (2 * ((s - 1) * g + bl)) with (2 * bl + g * (2 * (s - 1))) by lia. rewrite Q, <- N.mul_add_distr_l. f_equal.
    replace (N.of_nat (Datatypes.S j)) with (N.of_nat j + 1) by lia. set (x := N.of_nat j) in *. assert (x + 1 < s) by lia.
    remember (s - (x + 2)) as z eqn:EZ. assert (ES : s = z + x + 2) by lia. rewrite ES.
    replace (2 * (z + x + 2 - 1) - x - 1) with (2 * z + x + 1) by lia. replace (2 * (z + x + 2) - (x + 1) - 1) with (2 * z + x + 2) by lia.
    replace (z + x + 2 - 1) with (z + x + 1) by lia. nia.
Qed.

Theorem bpops_tight w b bs n : bitreached None w b bs -> 1 <= v_shrink (bs_bits b) <= v_growth (bs_bits b) -> nlen bs mod 8 = 0 ->
  v_shrink (bs_bits b) * (nlen bs / 8 - 1) < snd (bs_get_capacity_bytes b) -> N.of_nat n < nlen bs / 8 ->
  exists blocks b' w', run_bcost b (repeat BPop (8 * n)) w = Ok (blocks, 8 * N.of_nat n, b') w' /\
    2 * blocks = v_growth (bs_bits b) * (N.of_nat n * (2 * (nlen bs / 8) - N.of_nat n - 1)) /\ tick w' = tick w + N.of_nat n.
Proof.
  intros H T M C L. destruct H as [w0 H]. pose proof H as HB. apply bitbuilt_rep in H as (pre & l & post & X & NF & LM & RM & OR & _).
  assert (A : v_alloc (bs_bits b) = true) by (unfold bitlimit in LM; destruct (v_alloc (bs_bits b)); [reflexivity|discriminate]).
  pose proof (r_alloc _ _ _ _ _ (proj1 (x_rep _ _ _ _ _ _ X))) as RA. rewrite A in RA. destruct RA as (-> & -> & _).
  apply (pops_bytes _ _ T n w b (nlen bs / 8) (v_cap (bs_bits b))); [|exact L|cbn [bs_get_capacity_bytes vget_capacity snd] in C; lia].
  split; [exists l, bs; split; [exact X|lia]|]. split; [now apply NF|]. replace (8 * (nlen bs / 8)) with (nlen bs) by lia. auto 8.
Qed.

(** The defaults. *)
Theorem default_pops w m : bitinit_args_ok w (16 * m) BITSET_GROWTH BITSET_SHRINK -> 1 <= m ->
  exists b w1 b' w', with_zero (fun z => bs_init z (16 * m)) w = Ok (ST_SUCCESS, Some b) w1 /\
    run_bcost b (repeat BPop (N.to_nat (16 * m - 8))) w1 = Ok (m * (m - 1), 16 * m - 8, b') w' /\ tick w' = tick w1 + (m - 1).
Proof.
  intros I M1. pose proof I as (W & AO & GB & SB & CB). destruct (AO (tick w)) as [fill O].
  destruct (bitinit_first_ok w (16 * m) _ _ fill (conj W (conj GB (conj SB CB))) ltac:(lia) O) as (w1 & b & E & X & A & CP & _ & _ & OR & TK & CG & CS & _).
  assert (B : bsized w1 b 2 2 (16 * m) (2 * m)).
  { split; [eexists _, _; split; [exact X|apply nlen_zeros]|]. split; [intros u; rewrite OR; apply AO|]. split.
    - unfold bitroom. change W32 with 4294967296 in CB. change W64 with 18446744073709551616. lia.
    - repeat split; auto. rewrite CP. lia. }
  destruct (pops_free 2 2 (N.to_nat (8 * m)) w1 b (16 * m) (2 * m) B) as (b1 & w2 & E1 & B1 & T1); [lia|right; left; lia|].
  replace (16 * m - N.of_nat (N.to_nat (8 * m))) with (8 * m) in B1 by lia.
  destruct (pops_bytes 2 2 ltac:(lia) (N.to_nat (m - 1)) w2 b1 m (2 * m) B1) as (bl & b2 & w3 & E2 & Q & T2); [lia|lia|].
  exists b, w1, b2, w3. split; [exact E|].
  replace (N.to_nat (16 * m - 8)) with (N.to_nat (8 * m) + 8 * N.to_nat (m - 1))%nat by lia. rewrite repeat_app, run_bcost_app, E1, E2.
  split; [|lia]. replace (0 + bl) with (m * (m - 1)); [|rewrite N2Nat.id in Q; clear - Q M1; replace (2 * m - (m - 1) - 1) with m in Q by lia; nia].
  f_equal. f_equal. f_equal. lia.
Qed.

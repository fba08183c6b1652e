(** Careful programs survive an allocator that refuses requests. *)
From Verif Require Import Base NListFacts Status Mem MemFacts VectorModel VectorSpec VectorDriver VectorRep VectorProofs VectorProofs2
  VectorRefine VectorFail VectorMore StringModel StringSpec StringDriver StringBytes StringProofs StringFinal StringFinal2 BitsetModel BitsetSpec BitsetDriver
  BitsetBits BitsetProofs BitsetRun BitsetQuery BitsetFinal OracleProofs LogProofs RefuseSpec RefuseProofs StrRefuseSpec StrRefuseProofs StrRefuseProofs2
  BitRefuseSpec BitRefuseProofs BitRefuseProofs2 ProgSpec ProgProofs ExhaustSpec.
From Coq Require Import ZifyBool ZifyNat ZifyN.

(** ** Spoiled objects *)
Definition spoiled (w : world) (x : obj) (words : list (list N)) : Prop :=
  exists c xs, vrep w (set_cap (core x) c) [] xs [] /\ 1 <= v_cap (core x) /\ v_alloc (core x) = true /\ 1 <= tick w /\
    words = destroyed (cfg_of (core x)) xs /\ match x with OS s => s_flags s = 0 | _ => True end.
Definition slot_ok (w : world) (sp : spoils) (i : N) (x : option obj) (k : option content) : Prop :=
  match x, k with
  | Some x, Some k => obj_ok w x k /\ forall words, ~ In (i, words) sp
  | Some x, None => exists words, spoiled w x words /\ In (i, words) sp /\ forall words', In (i, words') sp -> words' = words
  | None, None => forall words, ~ In (i, words) sp
  | None, Some _ => False
  end.
Record xinv (w0 w : world) (os : objs) (K : store) (sp : spoils) : Prop := mkxinv {
  x_wf0 : wfw w0;
  x_wf : wfw w;
  x_orc : orc w = orc w0;
  x_next : nextb w0 <= nextb w;
  x_len : nlen os = nlen K;
  x_dom : forall i words, In (i, words) sp -> i < nlen K;
  x_ok : forall i x k, nnth i os = Some x -> nnth i K = Some k -> slot_ok w sp i x k;
  x_new : forall i x, nnth i os = Some (Some x) -> nextb w0 <= blk (core x);
  x_apart : forall i j x y, nnth i os = Some (Some x) -> nnth j os = Some (Some y) -> i <> j -> blk (core x) <> blk (core y);
  x_rest : forall b, (forall i x, nnth i os = Some (Some x) -> blk (core x) <> b) -> heap w b = heap w0 b
}.

Lemma slot_core w sp i x k : slot_ok w sp i (Some x) k -> exists c xs, vrep w (set_cap (core x) c) [] xs [].
Proof.
  destruct k as [k|].
  - intros [H _]. apply obj_core in H as [xs R]. exists (v_cap (core x)), xs. now destruct (core x).
  - intros (ws & (c & xs & R & _) & _). eauto.
Qed.
Lemma slot_wf w sp i x k : slot_ok w sp i (Some x) k -> wfw w.
Proof. intros H. apply slot_core in H as (c & xs & R). exact (r_wf _ _ _ _ _ R). Qed.
Lemma slot_live w sp i x k : slot_ok w sp i (Some x) k -> blk (core x) < nextb w.
Proof.
  intros H. apply slot_core in H as (c & xs & R). destruct (r_heap _ _ _ _ _ R) as (sl & _ & HH).
  destruct (N.lt_ge_cases (blk (core x)) (nextb w)) as [|L]; [assumption|].
  change (blk (set_cap (core x) c)) with (blk (core x)) in HH. rewrite (r_wf _ _ _ _ _ R _ L) in HH. discriminate HH.
Qed.
Lemma slot_other w w' sp sp' i x k : slot_ok w sp i x k -> wfw w' -> orc w' = orc w -> tick w <= tick w' ->
  (forall words, In (i, words) sp' <-> In (i, words) sp) ->
  (forall y, x = Some y -> heap w' (blk (core y)) = heap w (blk (core y))) -> slot_ok w' sp' i x k.
Proof.
  intros H W O T SP E. destruct x as [x|], k as [k|]; cbn [slot_ok] in *; try contradiction H.
  - destruct H as [H N]. split; [eapply obj_other; eauto|]. intros words. rewrite SP. apply N.
  - destruct H as (ws & (c & xs & R & C1 & A & T1 & EW & F) & I1 & I2). exists ws. split; [|split].
    + exists c, xs. split; [|split; [exact C1|]; split; [exact A|]; split; [lia|]; split; [exact EW|exact F]].
      eapply vrep_heap_eq; [exact R|exact W|exact O|]. exact (E x eq_refl).
    + now apply SP.
    + intros ws'. rewrite SP. apply I2.
  - intros words. rewrite SP. apply H.
Qed.

Lemma xinv_slot w0 w os K sp i x : xinv w0 w os K sp -> nnth i os = Some x -> exists k, nnth i K = Some k /\ slot_ok w sp i x k.
Proof.
  intros V H. pose proof (nnth_lt _ _ _ H) as L. rewrite (x_len _ _ _ _ _ V) in L. destruct (nnth_exists _ _ L) as [k E].
  exists k. split; [exact E|]. eapply V; eauto.
Qed.
Lemma xinv_at w0 w os K sp i k : xinv w0 w os K sp -> holds K i k -> exists x, nnth i os = Some (Some x) /\ obj_ok w x k.
Proof.
  intros V H. pose proof (nnth_lt _ _ _ H) as L. rewrite <- (x_len _ _ _ _ _ V) in L. destruct (nnth_exists _ _ L) as [x E].
  pose proof (x_ok _ _ _ _ _ V _ _ _ E H) as P. destruct x as [x|]; [|contradiction P]. destruct P. eauto.
Qed.
Lemma xinv_whole w0 w os K sp i k words : xinv w0 w os K sp -> holds K i k -> ~ In (i, words) sp.
Proof.
  intros V H. pose proof (nnth_lt _ _ _ H) as L. rewrite <- (x_len _ _ _ _ _ V) in L. destruct (nnth_exists _ _ L) as [x E].
  pose proof (x_ok _ _ _ _ _ V _ _ _ E H) as P. destruct x as [x|]; [|contradiction P]. destruct P as [_ P]. apply P.
Qed.
Lemma xinv_spoiled w0 w os K sp i words : xinv w0 w os K sp -> In (i, words) sp ->
  exists x, nnth i os = Some (Some x) /\ nnth i K = Some None /\ spoiled w x words.
Proof.
  intros V H. pose proof (x_dom _ _ _ _ _ V _ _ H) as L. destruct (nnth_exists _ _ L) as [k HK].
  rewrite <- (x_len _ _ _ _ _ V) in L. destruct (nnth_exists _ _ L) as [x HX].
  pose proof (x_ok _ _ _ _ _ V _ _ _ HX HK) as P. destruct x as [x|], k as [k|]; cbn [slot_ok] in P; try contradiction P.
  - destruct P as [_ P]. destruct (P _ H).
  - destruct P as (ws & S & _ & U). rewrite (U _ H). eauto.
  - destruct (P _ H).
Qed.

(** An object changes. *)
Lemma xinv_change w0 w os K sp i x k w' x' k' sp' : xinv w0 w os K sp -> nnth i os = Some (Some x) -> nnth i K = Some k ->
  frame w w' (core x) (core x') -> tick w <= tick w' -> slot_ok w' sp' i (Some x') k' ->
  (forall j words, j <> i -> (In (j, words) sp' <-> In (j, words) sp)) ->
  xinv w0 w' (put i (Some x') os) (put i k' K) sp'.
Proof.
  intros V HI HK F T OK' SP. pose proof V as [WF0 WF ORC NX LEN DOM ALL NEW AP REST].
  assert (W' : wfw w') by (eapply slot_wf; eauto).
  assert (KAT : forall j y, nnth j os = Some y -> exists k2, nnth j K = Some k2).
  { intros j y HJ. apply nnth_exists. rewrite <- LEN. eapply nnth_lt; eauto. }
  assert (APN : forall j y, nnth j os = Some (Some y) -> j <> i -> blk (core y) <> blk (core x')).
  { intros j y HJ NE. destruct (N.eq_dec (blk (core x')) (blk (core x))) as [->|NB]; [eapply AP; eauto|].
    destruct (fr_old _ _ _ _ F NB) as (_ & _ & L). destruct (KAT _ _ HJ) as [k2 HK2].
    pose proof (slot_live _ _ _ _ _ (ALL _ _ _ HJ HK2)). lia. }
  split.
  - exact WF0.
  - exact W'.
  - rewrite (fr_orc _ _ _ _ F). exact ORC.
  - pose proof (fr_next _ _ _ _ F). lia.
  - erewrite !nlen_put by eauto. exact LEN.
  - intros j words H. rewrite (nlen_put _ _ _ _ HK). destruct (N.eq_dec j i) as [->|NE]; [eapply nnth_lt; eauto|].
    apply (DOM j words). now apply SP.
  - intros j y k2. rewrite (nnth_put _ _ _ _ _ HI), (nnth_put _ _ _ _ _ HK). destruct (N.eqb_spec j i) as [->|NE].
    + intros E1 E2. injection E1 as <-. injection E2 as <-. exact OK'.
    + intros E1 E2. eapply slot_other; [apply (ALL _ _ _ E1 E2)|exact W'|apply F|exact T| |].
      * intros words. now apply SP.
      * intros z ->. apply (fr_heap _ _ _ _ F); [eapply AP; eauto|eapply APN; eauto].
  - intros j y. rewrite (nnth_put _ _ _ _ _ HI). destruct (N.eqb_spec j i) as [->|NE]; [|apply NEW].
    intros E. injection E as <-. destruct (N.eq_dec (blk (core x')) (blk (core x))) as [->|NB]; [eapply NEW; eauto|].
    destruct (fr_old _ _ _ _ F NB) as (_ & _ & L). lia.
  - intros j1 j2 y1 y2. rewrite !(nnth_put _ _ _ _ _ HI).
    destruct (N.eqb_spec j1 i) as [->|N1], (N.eqb_spec j2 i) as [->|N2]; intros E1 E2 NE; try congruence.
    + injection E1 as <-. intros E. symmetry in E. revert E. eapply APN; eauto.
    + injection E2 as <-. eapply APN; eauto.
    + eapply AP; eauto.
  - intros b FREE.
    assert (NB' : blk (core x') <> b). { apply (FREE i). rewrite (nnth_put _ _ _ _ _ HI), N.eqb_refl. reflexivity. }
    destruct (N.eq_dec b (blk (core x))) as [->|NB].
    + destruct (fr_old _ _ _ _ F NB') as (_ & -> & _). symmetry. apply WF0. eapply NEW; eauto.
    + rewrite (fr_heap _ _ _ _ F) by congruence. apply REST. intros j y HJ.
      destruct (N.eq_dec j i) as [->|NE]; [rewrite HI in HJ; injection HJ as <-; congruence|].
      apply (FREE j). rewrite (nnth_put _ _ _ _ _ HI). destruct (N.eqb_spec j i); [contradiction|exact HJ].
Qed.
Lemma xinv_update w0 w os K sp i x k w' x' k' : xinv w0 w os K sp -> nnth i os = Some (Some x) -> holds K i k ->
  frame w w' (core x) (core x') -> tick w <= tick w' -> obj_ok w' x' k' ->
  xinv w0 w' (put i (Some x') os) (put i (Some k') K) sp.
Proof.
  intros V HI HK F T OK. eapply xinv_change; eauto; [|intros; reflexivity]. split; [exact OK|]. intros words. eapply xinv_whole; eauto.
Qed.
Lemma xinv_spoil w0 w os K sp i x k w' x' words : xinv w0 w os K sp -> nnth i os = Some (Some x) -> holds K i k ->
  frame w w' (core x) (core x') -> tick w <= tick w' -> spoiled w' x' words ->
  xinv w0 w' (put i (Some x') os) (put i None K) ((i, words) :: sp).
Proof.
  intros V HI HK F T OK. eapply xinv_change; eauto.
  - exists words. split; [exact OK|]. split; [now left|]. intros ws' [E|E]; [congruence|]. destruct (xinv_whole _ _ _ _ _ _ _ ws' V HK E).
  - intros j ws NE. split; [intros [E|E]; [congruence|exact E]|now right].
Qed.

(** A new object. *)
Lemma xinv_create w0 w os K sp w' x k : xinv w0 w os K sp -> nextb w <= blk (core x) -> nextb w <= nextb w' -> orc w' = orc w ->
  tick w <= tick w' -> (forall b, b <> blk (core x) -> heap w' b = heap w b) -> obj_ok w' x k ->
  xinv w0 w' (os ++ [Some x]) (K ++ [Some k]) sp.
Proof.
  intros V B NXT O T HP OK. pose proof V as [WF0 WF ORC NX LEN DOM ALL NEW AP REST].
  assert (W' : wfw w'). { apply obj_core in OK as [xs R]. exact (r_wf _ _ _ _ _ R). }
  assert (LIVE : forall j y, nnth j os = Some (Some y) -> blk (core y) < nextb w).
  { intros j y HJ. destruct (xinv_slot _ _ _ _ _ _ _ V HJ) as (k2 & _ & P). eapply slot_live; eauto. }
  split.
  - exact WF0.
  - exact W'.
  - congruence.
  - lia.
  - rewrite !nlen_app, LEN. reflexivity.
  - intros j words H. apply DOM in H. rewrite nlen_app. lia.
  - intros j y k2. rewrite !nnth_snoc, LEN. destruct (N.eqb_spec j (nlen K)) as [->|NE].
    + intros E1 E2. injection E1 as <-. injection E2 as <-. split; [exact OK|]. intros words H. apply DOM in H. lia.
    + intros E1 E2. eapply slot_other; [apply (ALL _ _ _ E1 E2)|exact W'|exact O|exact T|reflexivity|].
      intros z ->. apply HP. specialize (LIVE _ _ E1). lia.
  - intros j y. rewrite nnth_snoc. destruct (j =? nlen os); [|apply NEW]. intros E. injection E as <-. lia.
  - intros j1 j2 y1 y2. rewrite !nnth_snoc.
    destruct (N.eqb_spec j1 (nlen os)) as [->|N1], (N.eqb_spec j2 (nlen os)) as [->|N2]; intros E1 E2 NE; try congruence.
    + injection E1 as <-. specialize (LIVE _ _ E2). lia.
    + injection E2 as <-. specialize (LIVE _ _ E1). lia.
    + eapply AP; eauto.
  - intros b FREE. rewrite HP.
    + apply REST. intros j y HJ. apply (FREE j). rewrite nnth_snoc. pose proof (nnth_lt _ _ _ HJ).
      destruct (N.eqb_spec j (nlen os)); [lia|exact HJ].
    + intros ->. apply (FREE (nlen os) x); [|reflexivity]. now rewrite nnth_snoc, N.eqb_refl.
Qed.
Lemma xinv_forget w0 w os K sp w' : xinv w0 w os K sp -> wfw w' -> nextb w <= nextb w' -> orc w' = orc w ->
  tick w <= tick w' -> (forall b, heap w' b = heap w b) -> xinv w0 w' (os ++ [None]) (K ++ [None]) sp.
Proof.
  intros V W' NXT O T HP. pose proof V as [WF0 WF ORC NX LEN DOM ALL NEW AP REST].
  assert (OLD : forall j (y : obj), nnth j (os ++ [None]) = Some (Some y) -> nnth j os = Some (Some y)).
  { intros j y. rewrite nnth_snoc. destruct (j =? nlen os); [discriminate|auto]. }
  split.
  - exact WF0.
  - exact W'.
  - congruence.
  - lia.
  - rewrite !nlen_app, LEN. reflexivity.
  - intros j words H. apply DOM in H. rewrite nlen_app. lia.
  - intros j y k2. rewrite !nnth_snoc, LEN. destruct (N.eqb_spec j (nlen K)) as [->|NE].
    + intros E1 E2. injection E1 as <-. injection E2 as <-. intros words H. apply DOM in H. lia.
    + intros E1 E2. eapply slot_other; [apply (ALL _ _ _ E1 E2)|exact W'|exact O|exact T|reflexivity|]. intros z ->. apply HP.
  - intros j y H. eapply NEW; eauto.
  - intros j1 j2 y1 y2 H1 H2. eapply AP; eauto.
  - intros b FREE. rewrite HP. apply REST. intros j y HJ. apply (FREE j). rewrite nnth_snoc. pose proof (nnth_lt _ _ _ HJ).
    destruct (N.eqb_spec j (nlen os)); [lia|exact HJ].
Qed.

(** An object goes. *)
Lemma put_same {A} i (x : A) l : nnth i l = Some x -> put i x l = l.
Proof. intros H. destruct (put_split i x x l H) as (a & c & E & _ & ->). now symmetry. Qed.
Lemma xinv_destroy w0 w os K sp i x k w' sp' : xinv w0 w os K sp -> nnth i os = Some (Some x) -> nnth i K = Some k ->
  nextb w' = nextb w -> orc w' = orc w -> tick w <= tick w' -> heap w' (blk (core x)) = None ->
  (forall b, b <> blk (core x) -> heap w' b = heap w b) ->
  (forall words, ~ In (i, words) sp') -> (forall j words, j <> i -> (In (j, words) sp' <-> In (j, words) sp)) ->
  xinv w0 w' (put i None os) (put i None K) sp'.
Proof.
  intros V HI HK NXT O T HN HP SI SP. pose proof V as [WF0 WF ORC NX LEN DOM ALL NEW AP REST].
  assert (W' : wfw w').
  { intros b L. destruct (N.eq_dec b (blk (core x))) as [->|NE]; [exact HN|]. rewrite HP by exact NE. apply WF. lia. }
  split.
  - exact WF0.
  - exact W'.
  - congruence.
  - lia.
  - erewrite !nlen_put by eauto. exact LEN.
  - intros j words H. rewrite (nlen_put _ _ _ _ HK). destruct (N.eq_dec j i) as [->|NE]; [eapply nnth_lt; eauto|].
    apply (DOM j words). now apply SP.
  - intros j y k2. rewrite (nnth_put _ _ _ _ _ HI), (nnth_put _ _ _ _ _ HK). destruct (N.eqb_spec j i) as [->|NE].
    + intros E1 E2. injection E1 as <-. injection E2 as <-. exact SI.
    + intros E1 E2. eapply slot_other; [apply (ALL _ _ _ E1 E2)|exact W'|exact O|exact T| |].
      * intros words. now apply SP.
      * intros z ->. apply HP. eapply AP; eauto.
  - intros j y. rewrite (nnth_put _ _ _ _ _ HI). destruct (j =? i); [discriminate|apply NEW].
  - intros j1 j2 y1 y2. rewrite !(nnth_put _ _ _ _ _ HI). destruct (j1 =? i), (j2 =? i); try discriminate. apply AP.
  - intros b FREE. destruct (N.eq_dec b (blk (core x))) as [->|NB].
    + rewrite HN. symmetry. apply WF0. eapply NEW; eauto.
    + rewrite HP by exact NB. apply REST. intros j y HJ.
      destruct (N.eq_dec j i) as [->|NE]; [rewrite HI in HJ; injection HJ as <-; congruence|].
      apply (FREE j). rewrite (nnth_put _ _ _ _ _ HI). destruct (N.eqb_spec j i); [contradiction|exact HJ].
Qed.

(** ** Requests that are granted, or not made *)
Lemma granted_span (ans : N -> aresp N) t t' (a : option N) : t' = t + match a with None => 0 | Some _ => 1 end ->
  (a = None \/ exists fill, ans t = AOk fill) -> t <= t' /\ forall u, t <= u < t' -> exists fill, ans u = AOk fill.
Proof.
  intros -> [->|[fill H]]; split; try lia. intros u L. destruct a; [|lia]. replace u with t by lia. eauto.
Qed.
Lemma ask_cases (ans : aresp N) (a : option N) :
  (a = None \/ exists fill, ans = AOk fill) \/ exists k e, a = Some k /\ ans = AFail e.
Proof. destruct a as [k|], ans as [e|fill]; eauto 6. Qed.

Definition one_ok (w : world) : N -> aresp N := fun t => if t =? tick w then AOk (fun _ => 0) else AFail 0.
Lemma one_ok_grants w v : grants (with_oracle w (one_ok w)) v.
Proof. intros _. cbn [orc tick with_oracle]. unfold one_ok. rewrite N.eqb_refl. eauto. Qed.
Lemma one_ok_rep w v pre xs post : vrep w v pre xs post -> v_alloc v = true -> vrep (with_oracle w (one_ok w)) v pre xs post.
Proof.
  intros R A. apply rep_reorc; [exact R|]. intros NF. destruct (NF A (tick w + 1)) as [fill E]. cbn [orc with_oracle] in E.
  unfold one_ok in E. destruct (N.eqb_spec (tick w + 1) (tick w)); [lia|discriminate E].
Qed.

Lemma push_back_granted (w : world) v xs y q : vrep w v [] xs [] -> v_alloc v = true -> nlen y = v_esz v ->
  (nlen xs + 1) * v_growth v * v_esz v < W64 -> src w q y -> pb q <> blk v ->
  (v_cap v <? nlen xs + 1 = false \/ exists fill, orc w (tick w) = AOk fill) ->
  exists r w' v' xs', vpush_back v (Some q) w = Ok (r, v') w' /\ good w v w' v' [] xs' [] /\
    spec_insert (cfg_of v) (nlen xs) [y] (mkst xs (v_cap v) (dlog w)) r (mkst xs' (v_cap v') (dlog w')).
Proof.
  intros R A LY F SQ NB AK. destruct (orc w (tick w)) as [e|fill] eqn:O.
  2:{ apply push_back_ok; auto. intros _. eauto. }
  destruct AK as [AK|[? AK]]; [|discriminate AK].
  pose proof (one_ok_rep _ _ _ _ _ R A) as R1.
  destruct (push_back_ok _ _ _ _ _ y q R1 (one_ok_grants w v) LY F SQ NB) as (r & w2 & v' & xs' & E & G & S).
  pose proof (r_esz _ _ _ _ _ R). destruct (growth_bounds _ _ _ _ _ R) as [GB _].
  assert (T : tick w2 = tick w + 0).
  { assert (L : nlen xs + 1 < W64) by nia. pose proof (asks_push_back v (nlen xs) q A (r_size _ _ _ _ _ R) L _ _ _ E) as T.
    rewrite AK in T. exact T. }
  destruct (lo_vpush_back _ _ _ _ _ E) as (O2 & _ & LO). specialize (LO (orc w)). rewrite with_oracle_back in LO.
  exists r, (with_oracle w2 (orc w)), v', xs'. split; [apply LO; cbn [tick with_oracle]; intros; lia|]. split; [|exact S].
  destruct G as [GR GC GF]. destruct GC as (A' & GC'). split; [|split; [exact A'|exact GC']|].
  - apply rep_reorc; [exact GR|]. intros NF. destruct (NF ltac:(congruence) (tick w)) as [fill E']. cbn [orc with_oracle] in E'. congruence.
  - destruct GF. split; auto.
Qed.
Lemma push_back_refused (w : world) v xs q e : vrep w v [] xs [] -> v_alloc v = true -> orc w (tick w) = AFail e ->
  fits (nlen xs + 1) (v_esz v) -> v_cap v < nlen xs + 1 ->
  vpush_back v (Some q) w = Ok (err_status e, set_cap v ((nlen xs + 1) * v_growth v)) (ticked w).
Proof.
  intros R A O F L. unfold vpush_back. cbn [nonnull negb]. rewrite (bind_ok _ _ _ _ _ (rep_assert_valid _ _ _ _ _ R)).
  rewrite (bind_ok _ _ _ _ _ (vgrow_refused _ _ _ _ _ 1 _ R A O ltac:(lia) F L)). now rewrite st_success_err.
Qed.

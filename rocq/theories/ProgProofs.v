(** Objects that share a memory do not disturb each other. *)
From Verif Require Import Base NListFacts Status Mem MemFacts VectorModel VectorSpec VectorDriver VectorRep VectorProofs VectorProofs2
  VectorRefine VectorMore StringModel StringSpec StringDriver StringBytes StringProofs StringFinal StringFinal2 BitsetModel BitsetSpec BitsetDriver
  BitsetBits BitsetProofs BitsetRun BitsetQuery BitsetFinal OracleProofs LogProofs FormatModel FormatSpec FormatDriver FormatRun ProgSpec ProgCopy.
From Coq Require Import ZifyBool ZifyNat ZifyN.

Notation world := (Mem.world N).

(** ** Positions *)
Lemma put_split {A} i (x y : A) l : nnth i l = Some y -> exists a c, l = a ++ y :: c /\ nlen a = i /\ put i x l = a ++ x :: c.
Proof.
  intros H. destruct (nnth_some _ _ _ H) as (a & c & -> & L). exists a, c. split; [reflexivity|]. split; [exact L|].
  unfold put. rewrite nfirst_app_l by exact L. change (a ++ y :: c) with (a ++ [y] ++ c). rewrite (app_assoc a [y] c).
  rewrite nskip_app_l; [reflexivity|]. rewrite nlen_app. change (nlen [y]) with 1. lia.
Qed.
Lemma nnth_put {A} i (x y : A) l j : nnth i l = Some y -> nnth j (put i x l) = if j =? i then Some x else nnth j l.
Proof.
  intros H. destruct (put_split i x y l H) as (a & c & -> & L & ->). destruct (N.eqb_spec j i) as [->|NE]; [now apply nnth_mid|].
  destruct (N.lt_ge_cases j (nlen a)); [now rewrite !nnth_app1 by assumption|]. rewrite !nnth_app2 by assumption.
  unfold nnth. replace (N.to_nat (j - nlen a)) with (Datatypes.S (N.to_nat (j - nlen a - 1))) by lia. reflexivity.
Qed.
Lemma nlen_put {A} i (x y : A) l : nnth i l = Some y -> nlen (put i x l) = nlen l.
Proof. intros H. destruct (put_split i x y l H) as (a & c & -> & L & ->). now rewrite !nlen_app, !nlen_cons. Qed.
Lemma nnth_snoc {A} (x : A) l j : nnth j (l ++ [x]) = if j =? nlen l then Some x else nnth j l.
Proof.
  destruct (N.eqb_spec j (nlen l)) as [->|NE]; [now apply nnth_mid|].
  destruct (N.lt_ge_cases j (nlen l)); [now rewrite nnth_app1 by assumption|].
  rewrite !nnth_ge; [reflexivity|lia|]. rewrite nlen_app. change (nlen [x]) with 1. lia.
Qed.

(** ** The invariant *)
Definition core (x : obj) : vector N := match x with OV v => v | OS s => s_vec s | OB b => bs_bits b end.
Definition obj_ok (w : world) (x : obj) (k : content) : Prop :=
  v_alloc (core x) = true /\
  match x, k with
  | OV v, KVec c xs cap => vrep w v [] xs [] /\ cfg_of v = c /\ v_cap v = cap
  | OS s, KStr cs => srep w s [] cs []
  | OB b, KBits bs => (exists l, xrep w b [] l [] bs) /\ nlen bs < W64
  | _, _ => False
  end.
Definition pair_ok (w : world) (x : option obj) (k : option content) : Prop :=
  match x, k with Some x, Some k => obj_ok w x k | None, None => True | _, _ => False end.
Record inv (w0 w : world) (os : objs) (K : store) : Prop := mkinv {
  i_wf0 : wfw w0;
  i_wf : wfw w;
  i_orc : orc w = orc w0;
  i_next : nextb w0 <= nextb w;
  i_len : nlen os = nlen K;
  i_ok : forall i x k, nnth i os = Some x -> nnth i K = Some k -> pair_ok w x k;
  i_new : forall i x, nnth i os = Some (Some x) -> nextb w0 <= blk (core x);
  i_apart : forall i j x y, nnth i os = Some (Some x) -> nnth j os = Some (Some y) -> i <> j -> blk (core x) <> blk (core y);
  i_rest : forall b, (forall i x, nnth i os = Some (Some x) -> blk (core x) <> b) -> heap w b = heap w0 b
}.

Lemma obj_core w x k : obj_ok w x k -> exists xs, vrep w (core x) [] xs [].
Proof.
  intros [_ H]. destruct x as [v|s|b], k as [c xs cap|cs|bs]; try contradiction H; cbn [core].
  - destruct H as [R _]. eauto.
  - destruct H as [[R _] _]. eauto.
  - destruct H as [(l & X) _]. destruct (x_rep _ _ _ _ _ _ X) as [R _]. eauto.
Qed.
Lemma obj_live w x k : obj_ok w x k -> blk (core x) < nextb w.
Proof.
  intros H. apply obj_core in H as [xs R]. destruct (r_heap _ _ _ _ _ R) as (sl & _ & HH).
  destruct (N.lt_ge_cases (blk (core x)) (nextb w)) as [|L]; [assumption|].
  rewrite (r_wf _ _ _ _ _ R _ L) in HH. discriminate HH.
Qed.
Lemma vrep_heap_eq (w w' : world) v pre xs post : vrep w v pre xs post -> wfw w' -> orc w' = orc w ->
  heap w' (blk v) = heap w (blk v) -> vrep w' v pre xs post.
Proof.
  intros [] W O H. split; auto. destruct r_heap as (s & SL & HH). exists s. split; [eapply spare_orc, SL; exact O|congruence].
Qed.
Lemma obj_other w w' x k : obj_ok w x k -> wfw w' -> orc w' = orc w -> heap w' (blk (core x)) = heap w (blk (core x)) ->
  obj_ok w' x k.
Proof.
  intros [A H] W O E. split; [exact A|]. destruct x as [v|s|b], k as [c xs cap|cs|bs]; try contradiction H; cbn [core] in *.
  - destruct H as [R H]. split; [eapply vrep_heap_eq; eauto|exact H].
  - destruct H as [R F]. split; [eapply brep_heap_eq; eauto|exact F].
  - destruct H as [(l & X) L]. split; [|exact L]. exists l. destruct X as [R X1 X2 X3 X4]. split; auto. eapply brep_heap_eq; eauto.
Qed.

Lemma inv_at w0 w os K i k : inv w0 w os K -> holds K i k -> exists x, nnth i os = Some (Some x) /\ obj_ok w x k.
Proof.
  intros V H. pose proof (nnth_lt _ _ _ H) as L. rewrite <- (i_len _ _ _ _ V) in L. destruct (nnth_exists _ _ L) as [x E].
  pose proof (i_ok _ _ _ _ V _ _ _ E H) as P. destruct x as [x|]; [|contradiction P]. eauto.
Qed.

Lemma inv_update w0 w os K i x k w' x' k' : inv w0 w os K -> nnth i os = Some (Some x) -> holds K i k -> obj_ok w x k ->
  frame w w' (core x) (core x') -> obj_ok w' x' k' ->
  inv w0 w' (put i (Some x') os) (put i (Some k') K).
Proof.
  intros V HI HK OK F OK'. pose proof V as [WF0 WF ORC NX LEN ALL NEW AP REST].
  assert (W' : wfw w'). { apply obj_core in OK' as [xs R]. exact (r_wf _ _ _ _ _ R). }
  assert (APN : forall j y k2, nnth j os = Some (Some y) -> nnth j K = Some k2 -> j <> i -> blk (core y) <> blk (core x')).
  { intros j y k2 HJ HK2 NE. destruct (N.eq_dec (blk (core x')) (blk (core x))) as [->|NB]; [eapply AP; eauto|].
    destruct (fr_old _ _ _ _ F NB) as (_ & _ & L). pose proof (ALL _ _ _ HJ HK2) as P. destruct k2; [|contradiction P].
    pose proof (obj_live _ _ _ P). lia. }
  assert (KAT : forall j y, nnth j os = Some y -> exists k2, nnth j K = Some k2).
  { intros j y HJ. apply nnth_exists. rewrite <- LEN. eapply nnth_lt; eauto. }
  split.
  - exact WF0.
  - exact W'.
  - rewrite (fr_orc _ _ _ _ F). exact ORC.
  - pose proof (fr_next _ _ _ _ F). lia.
  - erewrite !nlen_put by eauto. exact LEN.
  - intros j y k2. rewrite (nnth_put _ _ _ _ _ HI), (nnth_put _ _ _ _ _ HK). destruct (N.eqb_spec j i) as [->|NE].
    + intros E1 E2. injection E1 as <-. injection E2 as <-. exact OK'.
    + intros E1 E2. pose proof (ALL _ _ _ E1 E2) as P. destruct y as [y|], k2 as [k2|]; try exact P. cbn [pair_ok] in *.
      eapply obj_other; [exact P|exact W'|apply F|]. apply (fr_heap _ _ _ _ F); [eapply AP; eauto|eapply APN; eauto].
  - intros j y. rewrite (nnth_put _ _ _ _ _ HI). destruct (N.eqb_spec j i) as [->|NE]; [|apply NEW].
    intros E. injection E as <-. destruct (N.eq_dec (blk (core x')) (blk (core x))) as [->|NB]; [eapply NEW; eauto|].
    destruct (fr_old _ _ _ _ F NB) as (_ & _ & L). lia.
  - intros j1 j2 y1 y2. rewrite !(nnth_put _ _ _ _ _ HI).
    destruct (N.eqb_spec j1 i) as [->|N1], (N.eqb_spec j2 i) as [->|N2]; intros E1 E2 NE; try congruence.
    + injection E1 as <-. destruct (KAT _ _ E2) as [k2 HK2]. intros E. symmetry in E. revert E. eapply APN; eauto.
    + injection E2 as <-. destruct (KAT _ _ E1) as [k2 HK2]. eapply APN; eauto.
    + eapply AP; eauto.
  - intros b FREE.
    assert (NB' : blk (core x') <> b). { apply (FREE i). rewrite (nnth_put _ _ _ _ _ HI), N.eqb_refl. reflexivity. }
    destruct (N.eq_dec b (blk (core x))) as [->|NB].
    + destruct (fr_old _ _ _ _ F NB') as (_ & -> & _). symmetry. apply WF0. eapply NEW; eauto.
    + rewrite (fr_heap _ _ _ _ F) by congruence. apply REST. intros j y HJ.
      destruct (N.eq_dec j i) as [->|NE]; [rewrite HI in HJ; injection HJ as <-; congruence|].
      apply (FREE j). rewrite (nnth_put _ _ _ _ _ HI). destruct (N.eqb_spec j i); [contradiction|exact HJ].
Qed.

Lemma inv_create w0 w os K w' x k : inv w0 w os K -> nextb w <= blk (core x) -> nextb w <= nextb w' -> orc w' = orc w ->
  (forall b, b <> blk (core x) -> heap w' b = heap w b) -> obj_ok w' x k ->
  inv w0 w' (os ++ [Some x]) (K ++ [Some k]).
Proof.
  intros V B NXT O HP OK. pose proof V as [WF0 WF ORC NX LEN ALL NEW AP REST].
  assert (W' : wfw w'). { apply obj_core in OK as [xs R]. exact (r_wf _ _ _ _ _ R). }
  assert (LIVE : forall j y, nnth j os = Some (Some y) -> blk (core y) < nextb w).
  { intros j y HJ. pose proof (nnth_lt _ _ _ HJ) as L. rewrite LEN in L. destruct (nnth_exists _ _ L) as [k2 E].
    pose proof (ALL _ _ _ HJ E) as P. destruct k2; [|contradiction P]. eapply obj_live; eauto. }
  split.
  - exact WF0.
  - exact W'.
  - congruence.
  - lia.
  - rewrite !nlen_app, LEN. reflexivity.
  - intros j y k2. rewrite !nnth_snoc, LEN. destruct (N.eqb_spec j (nlen K)) as [->|NE].
    + intros E1 E2. injection E1 as <-. injection E2 as <-. exact OK.
    + intros E1 E2. pose proof (ALL _ _ _ E1 E2) as P. destruct y as [y|], k2 as [k2|]; try exact P. cbn [pair_ok] in *.
      eapply obj_other; [exact P|exact W'|exact O|]. apply HP. specialize (LIVE _ _ E1). lia.
  - intros j y. rewrite nnth_snoc. destruct (j =? nlen os); [|apply NEW]. intros E. injection E as <-. lia.
  - intros j1 j2 y1 y2. rewrite !nnth_snoc.
    destruct (N.eqb_spec j1 (nlen os)) as [->|N1], (N.eqb_spec j2 (nlen os)) as [->|N2]; intros E1 E2 NE; try congruence.
    + injection E1 as <-. specialize (LIVE _ _ E2). lia.
    + injection E2 as <-. specialize (LIVE _ _ E1). lia.
    + eapply AP; eauto.
  - intros b FREE. rewrite HP.
    + apply REST. intros j y HJ. apply (FREE j). rewrite nnth_snoc. pose proof (nnth_lt _ _ _ HJ).
      destruct (N.eqb_spec j (nlen os)); [lia|exact HJ].
    + intros ->. apply (FREE (nlen os) x); [|reflexivity]. now rewrite nnth_snoc, N.eqb_refl.
Qed.

Lemma inv_destroy w0 w os K i x k w' : inv w0 w os K -> nnth i os = Some (Some x) -> holds K i k ->
  nextb w' = nextb w -> orc w' = orc w -> heap w' (blk (core x)) = None ->
  (forall b, b <> blk (core x) -> heap w' b = heap w b) ->
  inv w0 w' (put i None os) (put i None K).
Proof.
  intros V HI HK NXT O HN HP. pose proof V as [WF0 WF ORC NX LEN ALL NEW AP REST].
  assert (W' : wfw w').
  { intros b L. destruct (N.eq_dec b (blk (core x))) as [->|NE]; [exact HN|]. rewrite HP by exact NE. apply WF. lia. }
  split.
  - exact WF0.
  - exact W'.
  - congruence.
  - lia.
  - erewrite !nlen_put by eauto. exact LEN.
  - intros j y k2. rewrite (nnth_put _ _ _ _ _ HI), (nnth_put _ _ _ _ _ HK). destruct (N.eqb_spec j i) as [->|NE].
    + intros E1 E2. injection E1 as <-. injection E2 as <-. exact I.
    + intros E1 E2. pose proof (ALL _ _ _ E1 E2) as P. destruct y as [y|], k2 as [k2|]; try exact P. cbn [pair_ok] in *.
      eapply obj_other; [exact P|exact W'|exact O|]. apply HP. eapply AP; eauto.
  - intros j y. rewrite (nnth_put _ _ _ _ _ HI). destruct (j =? i); [discriminate|apply NEW].
  - intros j1 j2 y1 y2. rewrite !(nnth_put _ _ _ _ _ HI). destruct (j1 =? i), (j2 =? i); try discriminate. apply AP.
  - intros b FREE. destruct (N.eq_dec b (blk (core x))) as [->|NB].
    + rewrite HN. symmetry. apply WF0. eapply NEW; eauto.
    + rewrite HP by exact NB. apply REST. intros j y HJ.
      destruct (N.eq_dec j i) as [->|NE]; [rewrite HI in HJ; injection HJ as <-; congruence|].
      apply (FREE j). rewrite (nnth_put _ _ _ _ _ HI). destruct (N.eqb_spec j i); [contradiction|exact HJ].
Qed.

(** ** Destroying leaves the counter of blocks alone *)
Definition nonew {A} (m : Mem.M N A) : Prop := forall w a w', m w = Ok a w' -> nextb w' = nextb w.
Lemma nn_bind {A B} (m : Mem.M N A) (k : A -> Mem.M N B) : nonew m -> (forall a, nonew (k a)) -> nonew (bind m k).
Proof.
  intros H K w b w2 E. unfold bind in E. destruct (m w) as [a w1|] eqn:F; [|discriminate E].
  rewrite (K _ _ _ _ E). eapply H; eauto.
Qed.
Lemma nn_ret {A} (a : A) : nonew (ret a).
Proof. intros w x w' H. now injection H as _ <-. Qed.
Lemma nn_assert b : nonew (@assert N b).
Proof.
  unfold assert. destruct b; [apply nn_ret|]. intros w a w' H. destruct (checked w); [discriminate H|]. now injection H as _ <-.
Qed.
Lemma nn_mwrite p x : nonew (@mwrite N p x).
Proof.
  intros w a w' H. unfold mwrite in H. destruct p as [p|]; [|discriminate H].
  destruct (heap w (pb p)); [|discriminate H]. destruct (_ <=? _); [|discriminate H]. now injection H as _ <-.
Qed.
Lemma nn_dealloc p e n : nonew (@dealloc N p e n).
Proof.
  intros w a w' H. unfold dealloc in H. destruct (_ && _); [discriminate H|]. destruct p as [q|].
  - destruct (heap w (pb q)); [|discriminate H]. destruct (negb _); [discriminate H|]. now injection H as _ <-.
  - destruct (checked w); [discriminate H|]. now injection H as _ <-.
Qed.
Lemma nn_dtor_loop f (v : vector N) n : forall i, nonew (dtor_loop f v i n).
Proof.
  induction n as [|n IH]; intros i; cbn [dtor_loop]; [apply nn_ret|]. apply nn_bind; [|intros; apply IH].
  intros w a w' H. unfold call_dtor, mread in H. destruct (offset v i) as [p|]; [|discriminate H].
  destruct (heap w (pb p)); [|discriminate H]. destruct (_ <=? _); [|discriminate H]. apply nn_mwrite in H. exact H.
Qed.
Lemma nn_vdestroy (v : vector N) : nonew (vdestroy v).
Proof.
  unfold vdestroy, assert_valid, destroy_range.
  apply nn_bind; [apply nn_bind; [apply nn_assert|intros; apply nn_assert]|intros _].
  apply nn_bind; [destruct (v_dtor v); [apply nn_dtor_loop|apply nn_ret]|intros _].
  destruct (_ && _); [|apply nn_ret]. apply nn_bind; [apply nn_dealloc|]. intros a. destruct (st_success a); apply nn_ret.
Qed.
Lemma destroy_full (w : world) v xs : vrep w v [] xs [] -> v_alloc v = true ->
  exists v' w', vdestroy v w = Ok (ST_SUCCESS, v') w' /\ dlog w' = dlog w ++ destroyed (cfg_of v) xs /\
    nextb w' = nextb w /\ orc w' = orc w /\ heap w' (blk v) = None /\ forall b, b <> blk v -> heap w' b = heap w b.
Proof.
  intros R A. destruct (destroy_ok w v [] xs [] R) as (w' & E & D & H1 & _ & H2). eexists _, w'. split; [exact E|].
  split; [exact D|]. split; [exact (nn_vdestroy _ _ _ _ E)|]. split; [apply (lo_vdestroy _ _ _ _ E)|]. auto.
Qed.

(** ** One step *)
Lemma logic_step op f (w : world) d s xs ys ld ls : bytewise op f -> xrep w d [] ld [] xs -> xrep w s [] ls [] ys ->
  blk (bs_bits s) <> blk (bs_bits d) ->
  exists w2 zs, bs_byte_op op d s w = Ok ST_SUCCESS w2 /\ combined f xs ys zs /\
    xrep w2 d [] (zip op ld ls) [] zs /\ frame w w2 (bs_bits d) (bs_bits d).
Proof.
  intros OP XD XS NB. pose proof XS as [RS0 BS SS LLS HS]. pose proof XD as [RD1 BD SD LLD HD].
  destruct (zip_loop op f d s [] [] [] [] OP NB ld ls w [] [] eq_refl RD1 RS0 BD BS) as (w2 & E & G).
  unfold bs_byte_op. rewrite (brep_size _ _ _ _ _ RD1), (brep_size _ _ _ _ _ RS0).
  replace (N.to_nat (N.min (nlen ld) (nlen ls))) with (Nat.min (length ld) (length ls)) by (unfold nlen; lia).
  cbn [app] in *. set (zs := nfirst (nlen xs) (bits_of (zip op ld ls))).
  assert (LZ : nlen zs = nlen xs).
  { unfold zs. rewrite nlen_nfirst, nlen_bits_of, zip_len. lia. }
  assert (NZ : forall i, i < nlen xs -> nnth i zs = Some (bitat (zip op ld ls) i)).
  { intros i LI. unfold zs. rewrite nnth_nfirst by exact LI. apply nnth_bits_of. rewrite zip_len. lia. }
  assert (XD2 : xrep w2 d [] (zip op ld ls) [] zs).
  { split; [apply G|eapply zip_bytes; eauto|congruence|rewrite zip_len, LZ; exact LLD|]. now rewrite LZ. }
  exists w2, zs. split; [exact E|]. split; [|split; [exact XD2|apply G]].
  split; [exact LZ|split].
  - intros i x y EX EY. pose proof (nnth_lt _ _ _ EX). pose proof (nnth_lt _ _ _ EY).
    rewrite NZ by assumption. rewrite (zip_bits op f) by assumption. rewrite HD in EX by assumption. rewrite HS in EY by assumption.
    injection EX as <-. injection EY as <-. destruct (N.ltb_spec (i / 8) (N.min (nlen ld) (nlen ls))); [reflexivity|lia].
  - intros i LI. destruct (N.lt_ge_cases i (nlen xs)) as [L|L].
    + rewrite NZ, HD by exact L. rewrite (zip_bits op f) by assumption.
      destruct (N.ltb_spec (i / 8) (N.min (nlen ld) (nlen ls))); [lia|reflexivity].
    + rewrite !nnth_ge; [reflexivity|exact L|lia].
Qed.

Lemma elem_src (w : world) v xs k y : vrep w v [] xs [] -> nnth k xs = Some y ->
  exists q, vget v k w = Ok (Some q) w /\ src w q y /\ pb q = blk v /\ nlen y = v_esz v.
Proof.
  intros R NY. pose proof (nnth_lt _ _ _ NY) as L. unfold vget. rewrite (r_size _ _ _ _ _ R).
  destruct (N.leb_spec (nlen xs) k); [lia|]. rewrite (bind_ok _ _ _ _ _ (rep_assert_valid _ _ _ _ _ R)).
  pose proof (r_le _ _ _ _ _ R). rewrite (rep_offset _ _ _ _ _ _ R) by lia. eexists. split; [reflexivity|].
  destruct (nnth_some _ _ _ NY) as (a & c & -> & LA). pose proof (r_chunk _ _ _ _ _ R) as CH.
  apply chunked_app in CH as [CA CC]. apply chunked_cons in CC as [LY CC].
  destruct (r_heap _ _ _ _ _ R) as (sl & _ & HH). split; [|split; [reflexivity|exact LY]].
  exists (concat a), (concat c ++ sl ++ []). cbn [pb po]. split.
  - rewrite HH. cbn [app]. rewrite concat_app. cbn [concat]. now rewrite <- !app_assoc.
  - rewrite (nlen_concat _ _ CA). rewrite nlen_nil. lia.
Qed.

Lemma string_is_view (w : world) s x b : srep w s [] x [] -> blk (s_vec s) <> b -> is_view w s x b.
Proof.
  intros R NB. pose proof (srep_size _ _ _ _ _ R) as SZ. destruct R as [R _]. exists (mkptr (blk (s_vec s)) 0).
  split; [exact (brep_data _ _ _ _ _ R)|]. split; [exact SZ|]. split; [|exact NB].
  destruct R as [R _]. destruct (r_heap _ _ _ _ _ R) as (sl & _ & HH). exists [], ([0] ++ sl ++ []).
  split; [|reflexivity]. cbn [pb]. rewrite HH. cbn [app]. rewrite concat_cells. now rewrite <- !app_assoc.
Qed.

Lemma nofail_inv w0 w os K v : inv w0 w os K -> allocator_ok w0 -> nofail w v.
Proof. intros V A _. rewrite (i_orc _ _ _ _ V). exact A. Qed.

Lemma step_ok w0 w os K p : inv w0 w os K -> allocator_ok w0 -> plegal p K ->
  exists r os' w' K', run_step os p w = Ok (r, os') w' /\ pspec p K (dlog w) r K' (dlog w') /\ inv w0 w' os' K'.
Proof.
  intros V AO LG. assert (NF : forall v, nofail w v) by (intros; eapply nofail_inv; eauto).
  pose proof (i_wf _ _ _ _ V) as WF.
  assert (AW : allocator_ok w) by (unfold allocator_ok; rewrite (i_orc _ _ _ _ V); exact AO).
  destruct p as [e cap d g s|cap g s|n g s|i o|i o|i o|i j k|i j|i k j|op i j|i cap g s|i cap g s|i j cap g s|is64 i o|i]; cbn [plegal run_step pspec] in *.
  - destruct LG as (E & D & G & S & M). destruct (AW (tick w)) as [fill O].
    destruct (init_ok w e cap d g s fill WF O E M D G S) as (w1 & v & IE & R & CP & ES & AL & CF & DL & OR & B1 & B2 & HP).
    rewrite (bind_ok _ _ _ _ _ IE). eexists _, _, w1, _. split; [reflexivity|]. split; [repeat split; auto|].
    eapply (inv_create w0 w os K w1 (OV v)); eauto. split; [exact AL|]. split; [exact R|]. split; [exact CF|exact CP].
  - destruct LG as (G & S & M).
    destruct (sinit_ok w cap g s) as (w1 & x & IE & R & _ & AL & _ & B1 & B2 & OR & _ & _ & HP). { repeat split; auto; lia. }
    rewrite (bind_ok _ _ _ _ _ IE). eexists _, _, w1, _. split; [reflexivity|].
    split; [repeat split; auto; apply (si_sinit_ex _ _ _ _ _ _ _ IE)|].
    eapply (inv_create w0 w os K w1 (OS x)); eauto. split; [exact AL|exact R].
  - destruct LG as (G & S & M & Z).
    destruct (bitinit_ok w n g s) as (w1 & v & IE & R & _ & AL & B1 & B2 & OR & HP). { repeat split; auto; lia. }
    rewrite (bind_ok _ _ _ _ _ IE). eexists _, _, w1, _. split; [reflexivity|]. split; [repeat split; auto|].
    { apply (si_with_arg [0] (fun z => bs_init_ex z n true g s)) in IE; [apply IE|]. intros; apply si_bs_init_ex. }
    eapply (inv_create w0 w os K w1 (OB (mkbitset n v))); eauto. split; [exact AL|]. split.
    + eexists. apply xrep_zeros; eauto.
    + unfold zeros. rewrite nlen_repeat. change W32 with 4294967296 in M. change W64 with 18446744073709551616. lia.
  - destruct LG as (c & xs & cap & HK & AR & RM). destruct (inv_at _ _ _ _ _ _ V HK) as (x & HO & OK).
    pose proof OK as [AL Q]. destruct x as [v|s|b]; try contradiction Q. destruct Q as (R & CF & CP). cbn [core] in AL.
    unfold on_vec. rewrite HO. subst c. cbn [c_esz cfg_of] in *.
    destruct (run_op_ok w v [] xs [] o R (nofail_grants _ _ (NF v)) AR RM) as (r & w' & v' & xs' & E & [GR GC GF] & S).
    rewrite (bind_ok _ _ _ _ _ E). eexists _, _, w', _. split; [reflexivity|]. split.
    + exists (cfg_of v), xs, cap, xs', (v_cap v'). split; [exact HK|]. split; [subst cap; exact S|reflexivity].
    + eapply (inv_update w0 w os K i (OV v) _ w' (OV v')); eauto. split; [cbn [core]; destruct GC; congruence|].
      split; [exact GR|]. split; [now apply cfg_of_same|reflexivity].
  - destruct LG as (cs & HK & SO & RM). destruct (inv_at _ _ _ _ _ _ V HK) as (x & HO & OK).
    pose proof OK as [AL R]. destruct x as [v|s|b]; try contradiction R. cbn [core] in AL. unfold on_str. rewrite HO.
    destruct (run_sop_ok w s [] cs [] o R (nofail_grants _ _ (NF (s_vec s))) SO RM) as (r & w' & s' & cs' & E & G & S).
    rewrite (bind_ok _ _ _ _ _ E). eexists _, _, w', _. split; [reflexivity|]. rewrite (limit_own _ AL) in S. split.
    + exists cs, cs'. split; [exact HK|]. split; [exact S|]. split; [reflexivity|].
      eapply (si_run_sop s o); [|exact E]. apply R.
    + eapply (inv_update w0 w os K i (OS s) _ w' (OS s')); eauto; [apply G|]. split; [|exact (sgood_rep _ _ _ _ _ _ _ _ R G)].
      destruct G as [[_ GC _ _] _]. destruct GC. cbn [core]. congruence.
  - destruct LG as (bs & HK & LO & RM). destruct (inv_at _ _ _ _ _ _ V HK) as (x & HO & OK).
    pose proof OK as [AL Q]. destruct x as [v|s|b]; try contradiction Q. destruct Q as ((l & X) & LT). cbn [core] in AL. unfold on_bits. rewrite HO.
    rewrite <- (limit_none _ AL) in LO.
    destruct (run_bitop_ok o w b [] l [] bs X (nofail_grants _ _ (NF (bs_bits b))) LO RM) as (w' & b' & l' & E & X' & G & _).
    rewrite (limit_none _ AL) in *. rewrite (bind_ok _ _ _ _ _ E). eexists _, _, w', _. split; [reflexivity|]. split.
    + exists bs. split; [exact HK|]. split; [reflexivity|]. split; [reflexivity|]. eapply (si_run_bitop b o); [|exact E]. apply X.
    + eapply (inv_update w0 w os K i (OB b) _ w' (OB b')); eauto; [apply G|]. split; [|split; [eauto|]].
      * destruct G as [_ GC _ _]. destruct GC. cbn [core]. congruence.
      * apply bitroom_lt in RM. pose proof (step_len None o bs) as SL.
        assert (pushes [o] <= 1) by (destruct o; cbn; lia). change W64 with 18446744073709551616 in *. lia.
  - destruct LG as (NE & c & xs & cap & c2 & ys & cap2 & HK & HK2 & ES & LK & RM).
    destruct (inv_at _ _ _ _ _ _ V HK) as (x & HO & OK). destruct (inv_at _ _ _ _ _ _ V HK2) as (x2 & HO2 & OK2).
    pose proof OK as [AL Q]. destruct x as [v|s|b]; try contradiction Q. destruct Q as (R & CF & CP). cbn [core] in AL.
    pose proof OK2 as [AL2 Q]. destruct x2 as [u|s|b]; try contradiction Q. destruct Q as (R2 & CF2 & CP2). cbn [core] in AL2.
    unfold on_vec. rewrite HO, HO2. subst c c2. cbn [c_esz cfg_of] in *. destruct (nnth_exists _ _ LK) as [y NY].
    destruct (elem_src w u ys k y R2 NY) as (q & EG & SQ & PQ & LY). rewrite (bind_ok _ _ _ _ _ EG).
    pose proof (i_apart _ _ _ _ V _ _ _ _ HO HO2 NE) as AP. cbn [core] in AP.
    destruct (growth_bounds _ _ _ _ _ R) as [GB _].
    destruct (push_back_ok w v [] xs [] y q R (nofail_grants _ _ (NF v))) as (r & w' & v' & xs' & E & [GR GC GF] & S); auto.
    { congruence. } { unfold room in RM. nia. } { congruence. }
    rewrite (bind_ok _ _ _ _ _ E). eexists _, _, w', _. split; [reflexivity|]. split.
    + exists (cfg_of v), xs, cap, (cfg_of u), ys, cap2, y, xs', (v_cap v').
      split; [exact HK|]. split; [exact HK2|]. split; [exact NY|]. split; [subst cap; exact S|reflexivity].
    + eapply (inv_update w0 w os K i (OV v) _ w' (OV v')); eauto. split; [cbn [core]; destruct GC; congruence|].
      split; [exact GR|]. split; [now apply cfg_of_same|reflexivity].
  - destruct LG as (NE & cs & y & HK & HK2 & RM).
    destruct (inv_at _ _ _ _ _ _ V HK) as (x & HO & OK). destruct (inv_at _ _ _ _ _ _ V HK2) as (x2 & HO2 & OK2).
    pose proof OK as [AL R]. destruct x as [v|s|b]; try contradiction R. cbn [core] in AL.
    pose proof OK2 as [AL2 R2]. destruct x2 as [u|t|b]; try contradiction R2. cbn [core] in AL2.
    unfold on_str. rewrite HO, HO2. pose proof (i_apart _ _ _ _ V _ _ _ _ HO HO2 NE) as AP. cbn [core] in AP.
    destruct (append_ok w s [] cs [] t y R (nofail_grants _ _ (NF (s_vec s))) RM) as (r & w' & s' & cs' & E & G & S).
    { apply string_is_view; [exact R2|congruence]. }
    rewrite (bind_ok _ _ _ _ _ E). eexists _, _, w', _. split; [reflexivity|]. rewrite (limit_own _ AL) in S. split.
    + exists cs, y, cs'. split; [exact HK|]. split; [exact HK2|]. split; [exact S|]. split; [reflexivity|].
      eapply (si_sappend s t); [|exact E]. apply R.
    + eapply (inv_update w0 w os K i (OS s) _ w' (OS s')); eauto; [apply G|]. split; [|exact (sgood_rep _ _ _ _ _ _ _ _ R G)].
      destruct G as [[_ GC _ _] _]. destruct GC. cbn [core]. congruence.
  - destruct LG as (NE & cs & y & HK & HK2 & RM).
    destruct (inv_at _ _ _ _ _ _ V HK) as (x & HO & OK). destruct (inv_at _ _ _ _ _ _ V HK2) as (x2 & HO2 & OK2).
    pose proof OK as [AL R]. destruct x as [v|s|b]; try contradiction R. cbn [core] in AL.
    pose proof OK2 as [AL2 R2]. destruct x2 as [u|t|b]; try contradiction R2. cbn [core] in AL2.
    unfold on_str. rewrite HO, HO2. pose proof (i_apart _ _ _ _ V _ _ _ _ HO HO2 NE) as AP. cbn [core] in AP.
    destruct (insert_ok w s [] cs [] k t y R (nofail_grants _ _ (NF (s_vec s))) RM) as (r & w' & s' & cs' & E & G & S).
    { apply string_is_view; [exact R2|congruence]. }
    rewrite (bind_ok _ _ _ _ _ E). eexists _, _, w', _. split; [reflexivity|]. rewrite (limit_own _ AL) in S. split.
    + exists cs, y, cs'. split; [exact HK|]. split; [exact HK2|]. split; [exact S|]. split; [reflexivity|].
      eapply (si_sinsert s k t); [|exact E]. apply R.
    + eapply (inv_update w0 w os K i (OS s) _ w' (OS s')); eauto; [apply G|]. split; [|exact (sgood_rep _ _ _ _ _ _ _ _ R G)].
      destruct G as [[_ GC _ _] _]. destruct GC. cbn [core]. congruence.
  - destruct LG as (NE & xs & ys & HK & HK2).
    destruct (inv_at _ _ _ _ _ _ V HK) as (x & HO & OK). destruct (inv_at _ _ _ _ _ _ V HK2) as (x2 & HO2 & OK2).
    pose proof OK as [AL Q]. destruct x as [v|s|b]; try contradiction Q. destruct Q as ((l & X) & LT). cbn [core] in AL.
    pose proof OK2 as [AL2 Q]. destruct x2 as [u|t|c]; try contradiction Q. destruct Q as ((l2 & X2) & LT2). cbn [core] in AL2.
    unfold on_bits. rewrite HO, HO2. pose proof (i_apart _ _ _ _ V _ _ _ _ HO HO2 NE) as AP. cbn [core] in AP.
    assert (BW : exists bop, byte_op op = bs_byte_op bop /\ bytewise bop (connective op)).
    { destruct op; eexists; (split; [reflexivity|]); [apply and_bytewise|apply or_bytewise|apply xor_bytewise]. }
    destruct BW as (bop & -> & BW).
    destruct (logic_step bop _ w b c xs ys l l2 BW X X2) as (w' & zs & E & CB & X' & F). { congruence. }
    rewrite (bind_ok _ _ _ _ _ E). eexists _, _, w', _. split; [reflexivity|]. split.
    + exists xs, ys, zs. repeat (split; [eassumption || reflexivity|]). eapply (si_byte_op_loop bop b c); exact E.
    + eapply (inv_update w0 w os K i (OB b) _ w' (OB b)); eauto. split; [exact AL|]. split; [eauto|]. destruct CB as (-> & _). exact LT.
  - destruct LG as (G & S & c & xs & cap0 & HK & M). destruct (inv_at _ _ _ _ _ _ V HK) as (x & HO & OK).
    pose proof OK as [AL Q]. destruct x as [v|t|b]; try contradiction Q. destruct Q as (R & CF & CP). subst c. cbn [c_esz c_dtor cfg_of] in *.
    unfold on_vec. rewrite HO. destruct (AW (tick w)) as [fill O].
    destruct (vcopy_ok w v xs cap g s fill R O M G S) as (w1 & d & E & RD & CD & AD & CFD & D & OR & _ & B1 & B2 & HP).
    rewrite (bind_ok _ _ _ _ _ E). eexists _, _, w1, _. split; [reflexivity|]. split.
    { eexists _, xs, cap0. split; [exact HK|]. split; [reflexivity|]. split; [reflexivity|exact D]. }
    eapply (inv_create w0 w os K w1 (OV d)); eauto. split; [exact AD|]. split; [exact RD|]. split; [exact CFD|exact CD].
  - destruct LG as (G & S & cs & HK & M). destruct (inv_at _ _ _ _ _ _ V HK) as (x & HO & OK).
    pose proof OK as [AL R]. destruct x as [v|t|b]; try contradiction R.
    unfold on_str. rewrite HO. destruct (AW (tick w)) as [fill O].
    destruct (scopy_ok w t cs cap g s fill R O M G S) as (w1 & d & E & RD & AD & D & OR & _ & B1 & B2 & HP).
    rewrite (bind_ok _ _ _ _ _ E). eexists _, _, w1, _. split; [reflexivity|]. split.
    { exists cs. split; [exact HK|]. split; [reflexivity|]. split; [reflexivity|exact D]. }
    eapply (inv_create w0 w os K w1 (OS d)); eauto. split; [exact AD|exact RD].
  - destruct LG as (G & S & x & y & HK & HK2 & M). destruct (inv_at _ _ _ _ _ _ V HK) as (x1 & HO & OK).
    destruct (inv_at _ _ _ _ _ _ V HK2) as (x2 & HO2 & OK2).
    pose proof OK as [AL R]. destruct x1 as [v|t|b]; try contradiction R.
    pose proof OK2 as [AL2 R2]. destruct x2 as [v2|t2|b2]; try contradiction R2.
    unfold on_str. rewrite HO, HO2. destruct (AW (tick w)) as [fill O].
    destruct (sjoin_ok w t x t2 y cap g s fill R R2 O M G S) as (w1 & d & E & RD & AD & D & OR & _ & B1 & B2 & HP).
    rewrite (bind_ok _ _ _ _ _ E). eexists _, _, w1, _. split; [reflexivity|]. split.
    { exists x, y. split; [exact HK|]. split; [exact HK2|]. split; [reflexivity|]. split; [reflexivity|exact D]. }
    eapply (inv_create w0 w os K w1 (OS d)); eauto. split; [exact AD|exact RD].
  - destruct LG as (cs & HK & FA & RM). destruct (inv_at _ _ _ _ _ _ V HK) as (x & HO & OK).
    pose proof OK as [AL R]. destruct x as [v|s|b]; try contradiction R. cbn [core] in AL. unfold on_str. rewrite HO.
    destruct (run_fop_ok is64 w s [] cs [] o R (NF (s_vec s)) FA RM) as (r & w' & s' & cs' & E & G & S).
    rewrite (bind_ok _ _ _ _ _ E). eexists _, _, w', _. split; [reflexivity|]. rewrite (limit_own _ AL) in S. split.
    + exists cs, cs'. split; [exact HK|]. split; [exact S|]. split; [reflexivity|].
      eapply (si_run_fop is64 s o); [|exact E]. apply R.
    + eapply (inv_update w0 w os K i (OS s) _ w' (OS s')); eauto; [apply G|]. split; [|exact (sgood_rep _ _ _ _ _ _ _ _ R G)].
      destruct G as [[_ GC _ _] _]. destruct GC. cbn [core]. congruence.
  - destruct LG as (k & HK). destruct (inv_at _ _ _ _ _ _ V HK) as (x & HO & OK). rewrite HO.
    pose proof OK as [AL Q]. destruct x as [v|s|b], k as [c xs cap|cs|bs]; try contradiction Q; cbn [core] in AL.
    + destruct Q as (R & CF & CP). destruct (destroy_full w v xs R AL) as (v' & w' & E & D & NX & OR & HN & HP).
      rewrite (bind_ok _ _ _ _ _ E). eexists _, _, w', _. split; [reflexivity|]. split.
      * eexists. split; [exact HK|]. split; [reflexivity|]. split; [reflexivity|]. cbn [last_words]. now rewrite <- CF.
      * eapply (inv_destroy w0 w os K i (OV v)); eauto.
    + pose proof Q as [[R [_ DN]] FL]. destruct (destroy_full w (s_vec s) _ R AL) as (v' & w' & E & D & NX & OR & HN & HP).
      unfold sdestroy. rewrite FL, AL. change (negb (N.land 0 HAS_FIXED_CAPACITY =? 0)) with false. cbv iota.
      unfold bind. rewrite E. unfold ret. eexists _, _, w', _. split; [reflexivity|]. split.
      * eexists. split; [exact HK|]. split; [reflexivity|]. split; [reflexivity|]. cbn [last_words]. rewrite D.
        unfold destroyed. cbn [cfg_of c_dtor]. now rewrite DN.
      * eapply (inv_destroy w0 w os K i (OS s)); eauto.
    + destruct Q as ((l & X) & _). destruct (x_rep _ _ _ _ _ _ X) as [R [_ DN]].
      destruct (destroy_full w (bs_bits b) _ R AL) as (v' & w' & E & D & NX & OR & HN & HP).
      unfold bs_destroy. unfold bind. rewrite E. unfold ret. eexists _, _, w', _. split; [reflexivity|]. split.
      * eexists. split; [exact HK|]. split; [reflexivity|]. split; [reflexivity|]. cbn [last_words]. rewrite D.
        unfold destroyed. cbn [cfg_of c_dtor]. now rewrite DN.
      * eapply (inv_destroy w0 w os K i (OB b)); eauto.
Qed.

(** ** Programs *)
Lemma prog_ok ps : forall w0 w os K, inv w0 w os K -> allocator_ok w0 -> plegals ps K (dlog w) ->
  exists rs os' w' K', run_prog os ps w = Ok (rs, os') w' /\ pspecs ps K (dlog w) rs K' (dlog w') /\ inv w0 w' os' K'.
Proof.
  induction ps as [|p ps IH]; intros w0 w os K V AO LG.
  - exists [], os, w, K. split; [reflexivity|]. split; [constructor|exact V].
  - destruct LG as [L1 L2]. destruct (step_ok w0 w os K p V AO L1) as (r & os1 & w1 & K1 & E1 & S1 & V1).
    destruct (IH w0 w1 os1 K1 V1 AO (L2 _ _ _ S1)) as (rs & os2 & w2 & K2 & E2 & S2 & V2).
    exists (r :: rs), os2, w2, K2. split; [|split; [econstructor; eauto|exact V2]].
    cbn [run_prog]. now rewrite (bind_ok _ _ _ _ _ E1), (bind_ok _ _ _ _ _ E2).
Qed.
Lemma inv_nil w0 : wfw w0 -> inv w0 w0 [] [].
Proof.
  intros W. assert (E : forall A i, nnth i (@nil A) = None) by (intros; apply nnth_ge; rewrite nlen_nil; lia).
  split; auto; try lia; intros; rewrite E in *; discriminate.
Qed.
Lemma pair_shows w x k : pair_ok w x k -> obj_shows w x k.
Proof.
  destruct x as [x|], k as [k|]; try easy. intros [_ H]. destruct x as [v|s|b], k as [c xs cap|cs|bs]; try contradiction H; cbn [obj_shows].
  - destruct H as (R & _ & <-). split; [eapply rep_shows; eauto|reflexivity].
  - eapply srep_shows; eauto.
  - destruct H as ((l & X) & L). eapply xrep_shows; eauto.
Qed.
Lemma forall2_nth {A B} (P : A -> B -> Prop) l : forall m, nlen l = nlen m ->
  (forall i x y, nnth i l = Some x -> nnth i m = Some y -> P x y) -> Forall2 P l m.
Proof.
  induction l as [|x l IH]; intros [|y m] L H; rewrite ?nlen_cons, ?nlen_nil in L; try lia; constructor.
  - now apply (H 0).
  - apply IH; [lia|]. intros i a b HA HB. apply (H (1 + i)); unfold nnth in *;
      now replace (N.to_nat (1 + i)) with (Datatypes.S (N.to_nat i)) by lia.
Qed.
Lemma program_ok w0 ps : world_ok w0 -> allocator_ok w0 -> plegals ps [] (dlog w0) ->
  exists rs os w K, run_prog [] ps w0 = Ok (rs, os) w /\ pspecs ps [] (dlog w0) rs K (dlog w) /\
    Forall2 (obj_shows w) os K /\ untouched w0 w /\
    (Forall (fun k => k = None) K -> forall b, heap w b = heap w0 b).
Proof.
  intros W A LG. destruct (prog_ok ps w0 w0 [] [] (inv_nil w0 W) A LG) as (rs & os & w & K & E & S & V).
  exists rs, os, w, K. split; [exact E|]. split; [exact S|]. split; [|split].
  - apply forall2_nth; [apply V|]. intros i x k HX HK. apply pair_shows. eapply V; eauto.
  - intros b buf H. rewrite (i_rest _ _ _ _ V); [exact H|]. intros i x HX E2. pose proof (i_new _ _ _ _ V _ _ HX).
    rewrite (W b) in H by lia. discriminate H.
  - intros ALL b. apply (i_rest _ _ _ _ V). intros i x HX. exfalso.
    pose proof (nnth_lt _ _ _ HX) as L. rewrite (i_len _ _ _ _ V) in L. destruct (nnth_exists _ _ L) as [k HK].
    pose proof (i_ok _ _ _ _ V _ _ _ HX HK) as P. rewrite Forall_forall in ALL.
    rewrite (ALL k) in P; [exact P|]. unfold nnth in HK. eapply nth_error_In; eauto.
Qed.
Lemma pspec_other p K log r K' log' j : pspec p K log r K' log' -> target p <> Some j -> j < nlen K -> nnth j K' = nnth j K.
Proof.
  intros S T L.
  assert (P : forall i (k : content) x, holds K i k -> target p = Some i -> nnth j (put i x K) = nnth j K).
  { intros i k x H E. rewrite (nnth_put _ _ _ _ _ H). destruct (N.eqb_spec j i); [congruence|reflexivity]. }
  destruct p; cbn [pspec target] in *; try (destruct S as (_ & -> & _); now rewrite nnth_app1 by exact L);
    repeat match goal with H : exists _, _ |- _ => destruct H | H : _ /\ _ |- _ => destruct H end; subst;
    try (now rewrite nnth_app1 by exact L); eapply P; eauto.
Qed.
Lemma step_objs os p (w : world) r os' w' j : run_step os p w = Ok (r, os') w' -> target p <> Some j -> j < nlen os ->
  nnth j os' = nnth j os.
Proof.
  intros E T L.
  assert (P : forall i x y, nnth i os = Some y -> target p = Some i -> nnth j (put i x os) = nnth j os).
  { intros i x y H EQ. rewrite (nnth_put _ _ _ _ _ H). destruct (N.eqb_spec j i); [congruence|reflexivity]. }
  destruct p; cbn [run_step target] in *; unfold on_vec, on_str, on_bits, bind, ret in E;
    repeat match type of E with
    | match ?m with _ => _ end = _ => destruct m eqn:?; try discriminate E
    | (match ?m with _ => _ end) ?w = _ => destruct m eqn:?; try discriminate E
    end; try discriminate E; injection E as <- <- <-; try (now rewrite nnth_app1 by exact L); eapply P; eauto.
Qed.
Lemma others_unchanged w0 ps rs os w p r os' w' j x : world_ok w0 -> allocator_ok w0 -> plegals (ps ++ [p]) [] (dlog w0) ->
  run_prog [] ps w0 = Ok (rs, os) w -> run_step os p w = Ok (r, os') w' -> target p <> Some j -> nnth j os = Some (Some x) ->
  nnth j os' = Some (Some x) /\ exists k, obj_shows w (Some x) (Some k) /\ obj_shows w' (Some x) (Some k).
Proof.
  intros W A LG E1 E2 T HJ.
  assert (SPLIT : forall ps K log, plegals (ps ++ [p]) K log -> plegals ps K log /\
    forall rs K' log', pspecs ps K log rs K' log' -> plegal p K').
  { clear. induction ps as [|q ps IH]; intros K log H.
    - split; [exact I|]. intros rs K' log' S. inversion S; subst. apply H.
    - destruct H as [H1 H2]. split.
      + split; [exact H1|]. intros r K' log' S. now apply (IH K' log'), H2 with (r := r).
      + intros rs K' log' S. inversion S; subst. eapply (IH K1 log1); eauto. }
  destruct (SPLIT _ _ _ LG) as [L1 L2]. destruct (prog_ok ps w0 w0 [] [] (inv_nil w0 W) A L1) as (rs1 & os1 & w1 & K1 & F1 & S1 & V1).
  rewrite E1 in F1. injection F1 as -> -> ->.
  destruct (step_ok w0 w1 os1 K1 p V1 A (L2 _ _ _ S1)) as (r2 & os2 & w2 & K2 & F2 & S2 & V2).
  rewrite E2 in F2. injection F2 as -> -> ->. pose proof (nnth_lt _ _ _ HJ) as L.
  assert (HJ2 : nnth j os2 = Some (Some x)) by (rewrite (step_objs _ _ _ _ _ _ _ E2 T L); exact HJ).
  split; [exact HJ2|]. rewrite (i_len _ _ _ _ V1) in L. destruct (nnth_exists _ _ L) as [k HK].
  assert (HK2 : nnth j K2 = Some k) by (rewrite (pspec_other _ _ _ _ _ _ _ S2 T L); exact HK).
  pose proof (i_ok _ _ _ _ V1 _ _ _ HJ HK) as P1. pose proof (i_ok _ _ _ _ V2 _ _ _ HJ2 HK2) as P2.
  destruct k as [k|]; [|contradiction P1]. exists k. split; now apply pair_shows.
Qed.

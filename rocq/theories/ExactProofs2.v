(** The exact bitset machine: calls, histories, construction, logical operations. *)
From Verif Require Import Base NListFacts Status Mem MemFacts VectorModel VectorSpec VectorDriver
  VectorRep VectorProofs VectorProofs2 VectorProofs3 VectorRefine VectorFail StringModel StringBytes StringProofs
  BitsetModel BitsetSpec BitsetDriver BitsetBits BitsetProofs BitsetRun BitsetQuery BitsetFinal ExactSpec ExactProofs.
From Coq Require Import ZifyBool ZifyNat ZifyN.

Implicit Types (w : world) (b : bitset) (v : vector N) (s : raw).

Lemma yrep_heap w b pre l post s w' v : yrep w b pre l post s -> brep w' v pre l post ->
  yrep w' (mkbitset (bs_size b) v) pre l post s.
Proof. intros [R B S0 W H] R'. now split. Qed.
Lemma wsub_wadd n : n < W64 -> wsub (wadd n 1) 1 = n.
Proof.
  intros L. unfold wsub, wadd. change (1 mod W64) with 1. change W64 with 18446744073709551616 in *.
  destruct (N.eq_dec n 18446744073709551615) as [->|NE]; [reflexivity|].
  rewrite (N.mod_small (n + 1)) by lia. replace (n + 1 + (18446744073709551616 - 1)) with (n + 1 * 18446744073709551616) by lia.
  rewrite N.mod_add by discriminate. now apply N.mod_small.
Qed.
Lemma wsub_pred n : n < W64 -> wsub n 1 = if n =? 0 then W64 - 1 else n - 1.
Proof.
  intros L. destruct (N.eqb_spec n 0) as [->|NZ]; [reflexivity|]. apply wsub_small; lia.
Qed.
Lemma bholds_bits b n : bholds (bs_bits b) n = holds_bits (bitlimit b) (8 * n).
Proof.
  unfold bholds, bitlimit. destruct (v_alloc (bs_bits b)); [reflexivity|]. cbn [orb holds_bits]. lia.
Qed.
Lemma ypush w b pre l post s value q :
  yrep w b pre l post s -> grants w (bs_bits b) -> (nlen l + 1) * 256 < W64 -> src w q [0] -> pb q <> blk (bs_bits b) ->
  exists w' b' l', bs_push (Some q) b value w = Ok (fst (raw_step (bitlimit b) (BPush value) s), b') w' /\
    yrep w' b' pre l' post (snd (raw_step (bitlimit b) (BPush value) s)) /\ bgood w (bs_bits b) w' (bs_bits b') pre l' post.
Proof.
  intros Y NF RM Q NB. pose proof Y as [R B S0 W H]. destruct s as [n cs]. cbn [fst snd] in *. subst cs.
  unfold bs_push. cbn [bs_size bs_bits raw_step]. rewrite S0. fold (wadd n 1).
  assert (WW : wadd n 1 < W64) by (apply N.mod_lt; discriminate).
  destruct (N.eqb_spec (n mod 8) 0) as [Z|NZ].
  - destruct (bpush_ok w (bs_bits b) pre l post 0 q R NF RM Q NB) as (r & w1 & v1 & l1 & E & G & K).
    rewrite bholds_bits in K. replace (8 * (nlen l + 1)) with (nlen (bits_of l) + 8) in K by (rewrite nlen_bits_of; lia).
    unfold bind at 1 2. rewrite E. unfold ret at 1. cbv beta iota.
    destruct (holds_bits (bitlimit b) (nlen (bits_of l) + 8)); destruct K as [-> ->].
    + sst. cbn [bs_size]. rewrite wsub_wadd by exact W.
      assert (Y1 : yrep w1 (mkbitset (wadd n 1) v1) pre (l ++ [0]) post (wadd n 1, bits_of l ++ zeros 8)).
      { split; [apply G| |reflexivity|exact WW|].
        - apply Forall_app. split; [exact B|]. repeat constructor.
        - cbn [snd]. now rewrite bits_of_app. }
      destruct (yassign _ _ _ _ _ _ n value Y1) as (w2 & l2 & E2 & Y2 & G2). rewrite (bind_ok _ _ _ _ _ E2).
      exists w2, (mkbitset (wadd n 1) v1), l2. split; [reflexivity|]. split; [exact Y2|].
      eapply bgood_trans; [exact G|eapply brep_wf; eauto|exact G2].
    + exists w1, (mkbitset (wadd n 1) v1), l. split; [reflexivity|]. split; [|exact G]. split; auto. apply G.
  - unfold bind at 1, ret at 1. sst. cbn [bs_size]. rewrite wsub_wadd by exact W.
    assert (Y1 : yrep w (mkbitset (wadd n 1) (bs_bits b)) pre l post (wadd n 1, bits_of l)) by now split.
    destruct (yassign _ _ _ _ _ _ n value Y1) as (w2 & l2 & E2 & Y2 & G2). rewrite (bind_ok _ _ _ _ _ E2).
    exists w2, (mkbitset (wadd n 1) (bs_bits b)), l2. split; [reflexivity|]. split; [exact Y2|exact G2].
Qed.
Lemma ypop w b pre l post s :
  yrep w b pre l post s -> grants w (bs_bits b) -> (nlen l + 1) * 256 < W64 ->
  exists w' b' l', bs_pop b w = Ok (fst (raw_step (bitlimit b) BPop s), b') w' /\
    yrep w' b' pre l' post (snd (raw_step (bitlimit b) BPop s)) /\ bgood w (bs_bits b) w' (bs_bits b') pre l' post.
Proof.
  intros Y NF RM. pose proof Y as [R B S0 W H]. destruct s as [n cs]. cbn [fst snd] in *. subst cs.
  unfold bs_pop. cbn [bs_size bs_bits raw_step]. rewrite S0, wsub_pred by exact W.
  set (n' := if n =? 0 then W64 - 1 else n - 1).
  assert (WW : n' < W64). { unfold n'. destruct (n =? 0); change W64 with 18446744073709551616 in *; lia. }
  destruct (N.eqb_spec (n' mod 8) 0) as [Z|NZ].
  - rewrite nlen_bits_of. destruct (N.eqb_spec (8 * nlen l) 0) as [Z0|NZ0].
    + assert (nlen l = 0) by lia. unfold vpop_back. rewrite (brep_size _ _ _ _ _ R). destruct (N.eqb_spec (nlen l) 0); [|lia].
      exists w, (mkbitset n' (bs_bits b)), l. split; [reflexivity|]. split; [now split|now apply bgood_refl].
    + destruct (bpop_ok w (bs_bits b) pre l post R NF) as (w' & v' & E & G); [lia|lia|].
      rewrite (bind_ok _ _ _ _ _ E). exists w', (mkbitset n' v'), (nfirst (nlen l - 1) l).
      split; [reflexivity|]. split; [|exact G]. split; [apply G| |reflexivity|exact WW|].
      * rewrite <- (nfirst_skip (nlen l - 1) l) in B. now apply Forall_app in B.
      * cbn [snd]. now rewrite bits_of_cut, nlen_bits_of.
  - exists w, (mkbitset n' (bs_bits b)), l. split; [reflexivity|]. split; [now split|now apply bgood_refl].
Qed.
Lemma ystep o w b pre l post s :
  yrep w b pre l post s -> grants w (bs_bits b) -> (nlen l + 1) * 256 < W64 ->
  exists w' b' l', run_bitop b o w = Ok (fst (raw_step (bitlimit b) o s), b') w' /\
    yrep w' b' pre l' post (snd (raw_step (bitlimit b) o s)) /\
    bgood w (bs_bits b) w' (bs_bits b') pre l' post.
Proof.
  intros Y NF RM. pose proof Y as [R B S0 W H].
  assert (KEEP : forall m r s', (exists w' l', m w = Ok r w' /\ yrep w' b pre l' post s' /\
      bgood w (bs_bits b) w' (bs_bits b) pre l' post) ->
    exists w' b' l', keep b m w = Ok (r, b') w' /\ yrep w' b' pre l' post s' /\
      bgood w (bs_bits b) w' (bs_bits b') pre l' post).
  { intros m r s' (w' & l' & E & Y' & G). exists w', b, l'. split; [now apply keep_ok|]. now split. }
  destruct s as [n cs]. destruct o as [i|i|i value|i| | | |value| | |k|]; cbn [run_bitop raw_step].
  - apply KEEP. exact (yassign w b pre l post (n, cs) i true Y).
  - apply KEEP. exact (yassign w b pre l post (n, cs) i false Y).
  - apply KEEP. exact (yassign w b pre l post (n, cs) i value Y).
  - apply KEEP. apply (ychange flip1 negb w b pre l post (n, cs) i); [intros; now apply flip1_byte|intros; now apply flip1_bit|exact Y].
  - apply KEEP. destruct (yeach (fun _ => 255) (fun _ => true) w b pre l post n cs) as (w' & E & Y' & G); auto; [reflexivity| |].
    { intros x k _ K. apply (N.ones_spec_low 8 k K). }
    exists w', (map (fun _ => 255) l). auto.
  - apply KEEP. destruct (yeach (fun _ => 0) (fun _ => false) w b pre l post n cs) as (w' & E & Y' & G); auto; [reflexivity|].
    exists w', (map (fun _ => 0) l). auto.
  - apply KEEP. destruct (yeach not8 negb w b pre l post n cs) as (w' & E & Y' & G); auto; [exact not8_byte|exact not8_bit|].
    exists w', (map not8 l). auto.
  - destruct (bargw w (bs_bits b) pre l post [0] R) as (R1 & Q & NB).
    destruct (ypush (argw w [0]) b pre l post (n, cs) value (mkptr (nextb w) 0)) as (w' & b' & l' & E & Y' & G); auto.
    { now split. }
    exists (dropw w' (nextb w)), b', l'. assert (G' := bdropw _ _ _ _ _ _ _ _ _ R G). split; [|split; [|exact G']].
    + unfold with_zero, with_arg. unfold argw in E. rewrite E. reflexivity.
    + destruct Y'. split; auto. apply G'.
  - exact (ypop w b pre l post (n, cs) Y NF RM).
  - unfold bs_clear, vclear.
    destruct (bresize_ok w (bs_bits b) pre l post 0 R NF) as (r & w' & v' & l' & E & G & K); [lia|now vm_compute|].
    unfold vresize in E. rewrite (bind_ok _ _ _ _ _ E). destruct (N.leb_spec 0 (nlen l)); [|lia]. destruct K as [-> ->].
    rewrite nfirst_0 in G. exists w', (mkbitset 0 v'), []. split; [reflexivity|]. split; [|exact G].
    split; auto; [apply G|reflexivity].
  - unfold bs_reserve. rewrite whole_ok. pose proof (whole_lt k) as WL.
    assert (NW : whole_bytes k < W64) by (eapply N.lt_trans; [exact WL|reflexivity]).
    destruct (breserve_ok w (bs_bits b) pre l post (whole_bytes k) R NF NW) as (r & w' & v' & E & G & -> & _).
    rewrite (bind_ok _ _ _ _ _ E). exists w', (mkbitset (bs_size b) v'), l. split; [now rewrite bholds_bits|].
    split; [|exact G]. eapply yrep_heap; [exact Y|apply G].
  - unfold bs_shrink_to_fit. destruct (bshrink_ok w (bs_bits b) pre l post R NF) as (w' & v' & E & G & _).
    rewrite (bind_ok _ _ _ _ _ E). exists w', (mkbitset (bs_size b) v'), l. split; [reflexivity|].
    split; [|exact G]. eapply yrep_heap; [exact Y|apply G].
Qed.

(** Every call adds at most one byte. *)
Lemma raw_change_len f i s : nlen (snd (snd (raw_change f i s))) = nlen (snd s).
Proof. unfold raw_change. destruct s as [n cs]. destruct (_ || _); [reflexivity|]. cbn [snd]. apply nlen_put. Qed.
Lemma raw_step_len limit o s : nlen (snd (snd (raw_step limit o s))) <= nlen (snd s) + 8 * pushes [o].
Proof.
  destruct s as [n cs]. destruct o; cbn [raw_step pushes]; rewrite ?raw_change_len; cbn [fst snd]; rewrite ?nlen_map; try lia.
  - destruct (_ =? 0); [destruct (holds_bits _ _)|]; rewrite ?raw_change_len; cbn [fst snd]; try lia.
    rewrite nlen_app, nlen_zeros. lia.
  - destruct (_ =? 0); [destruct (_ =? 0)|]; cbn [fst snd]; rewrite ?nlen_nfirst; lia.
  - rewrite nlen_nil. lia.
Qed.
Lemma ysteps ops : forall w b pre l post s,
  yrep w b pre l post s -> nofail w (bs_bits b) -> bitroom (nlen (snd s) + 8 * pushes ops) ->
  exists w' b' l', run_bitops b ops w = Ok (fst (raw_steps (bitlimit b) ops s), b') w' /\
    yrep w' b' pre l' post (snd (raw_steps (bitlimit b) ops s)) /\
    bgood w (bs_bits b) w' (bs_bits b') pre l' post /\
    nlen (snd (snd (raw_steps (bitlimit b) ops s))) <= nlen (snd s) + 8 * pushes ops.
Proof.
  induction ops as [|o ops IH]; intros w b pre l post s Y NF RM.
  - exists w, b, l. split; [reflexivity|]. split; [exact Y|]. split; [apply bgood_refl; apply Y|cbn; lia].
  - rewrite pushes_cons in *.
    destruct (ystep o w b pre l post s Y (nofail_grants _ _ NF)) as (w1 & b1 & l1 & E1 & Y1 & G1).
    { unfold bitroom in RM. rewrite (y_bits _ _ _ _ _ _ Y), nlen_bits_of in RM. lia. }
    assert (LIM := bitlimit_good _ _ _ _ _ _ _ G1). pose proof (raw_step_len (bitlimit b) o s) as SL.
    destruct (IH w1 b1 pre l1 post _ Y1) as (w2 & b2 & l2 & E2 & Y2 & G2 & LE2).
    { eapply bnofail; eauto. } { eapply bitroom_le; [|exact RM]. lia. }
    rewrite LIM in *. cbn [raw_steps run_bitops]. destruct (raw_step (bitlimit b) o s) as [r s1]. cbn [fst snd] in *.
    destruct (raw_steps (bitlimit b) ops s1) as [rs s2]. cbn [fst snd] in *.
    exists w2, b2, l2. split.
    { rewrite (bind_ok _ _ _ _ _ E1). cbv beta iota. rewrite (bind_ok _ _ _ _ _ E2). reflexivity. }
    split; [exact Y2|]. split; [eapply bgood_trans; [exact G1|eapply brep_wf, Y|exact G2]|]. lia.
Qed.

(** ** Construction *)
Lemma any_init w n g t : any_init_args w n g t -> exists w' v,
  with_zero (fun z => bs_init_ex z n true g t) w = Ok (ST_SUCCESS, Some (mkbitset n v)) w' /\
  yrep w' (mkbitset n v) [] (repeat 0 (N.to_nat (whole_bytes n))) [] (raw_init n) /\ nofail w' v /\ v_alloc v = true /\
  nextb w <= blk v /\ nextb w <= nextb w' /\ orc w' = orc w /\ (forall k, k <> blk v -> heap w' k = heap w k).
Proof.
  intros (W & AO & G & T & LN). pose proof (whole_lt n) as C. set (m := whole_bytes n) in *.
  (* Init(n) builds the same vector as Init of the number of whole bytes times 8 *)
  assert (M8 : whole_bytes (8 * m) = m).
  { unfold whole_bytes at 1. rewrite N.mul_comm, N.div_mul by discriminate. now destruct (N.ltb_spec m W32); [|lia]. }
  assert (A : bitinit_args_ok w (8 * m) g t).
  { split; [exact W|]. split; [exact AO|]. split; [exact G|]. split; [exact T|]. now rewrite N.mul_comm, N.div_mul. }
  destruct (bitinit_ok w (8 * m) g t A) as (w1 & v & E & R & NF & AL & B1 & B2 & OR & HP).
  rewrite N.mul_comm, N.div_mul in R by discriminate. exists w1, v. split.
  - assert (K : forall z x, bs_init_ex z n true g t x = match bs_init_ex z (8 * m) true g t x with
        | Ok (st, ob) y => Ok (st, option_map (fun b => mkbitset n (bs_bits b)) ob) y | Fault f => Fault f end).
    { intros z x. unfold bs_init_ex. rewrite !whole_ok, M8. fold m. unfold bind at 1 3.
      destruct (vinit_ex 1 m None true g t x) as [[st ov] y|f]; [|reflexivity].
      destruct (negb (st_success st)); [unfold ret; now destruct ov|]. destruct ov as [v0|]; [|reflexivity].
      unfold bind. now destruct (init_elements v0 z (N.to_nat m) y) as [[st1 v1] y1|f]. }
    unfold with_zero, with_arg in *. rewrite K.
    match type of E with context [bs_init_ex ?z ?a ?b0 ?c ?d ?x] => destruct (bs_init_ex z a b0 c d x) as [[st ob] y|f] end;
      [|discriminate]. injection E as -> -> ->. reflexivity.
  - split; [|now repeat split]. split; [exact R| |reflexivity|exact LN|].
    + apply Forall_forall. intros x IX. apply repeat_spec in IX as ->. reflexivity.
    + cbn [raw_init snd]. rewrite bits_of_zeros, N2Nat.id. reflexivity.
Qed.
Lemma any_buffer w n cap blk0 pre buf post : any_buffer_args w n cap blk0 pre buf post ->
  whole_bytes n <= cap -> exists w' v,
  with_zero (fun z => bs_init_buffer z n (Some (mkptr blk0 (nlen pre))) cap) w = Ok (ST_SUCCESS, Some (mkbitset n v)) w' /\
  yrep w' (mkbitset n v) pre (repeat 0 (N.to_nat (whole_bytes n))) post (raw_init n) /\ nofail w' v /\ v_alloc v = false /\ v_cap v = cap /\
  blk v = blk0 /\ nextb w <= nextb w' /\ tick w' = tick w /\ orc w' = orc w /\ (forall k, k <> blk0 -> heap w' k = heap w k).
Proof.
  intros (W & H & LB & LC & LN) LW. pose proof (whole_lt n) as C. set (m := whole_bytes n) in *.
  assert (M8 : whole_bytes (8 * m) = m).
  { unfold whole_bytes at 1. rewrite N.mul_comm, N.div_mul by discriminate. now destruct (N.ltb_spec m W32); [|lia]. }
  assert (A : bitbuffer_args_ok w (8 * m) cap blk0 pre buf post).
  { split; [exact W|]. split; [exact H|]. split; [exact LB|]. split; [exact LC|]. now rewrite N.mul_comm, N.div_mul. }
  destruct (bitbuffer_ok w (8 * m) cap blk0 pre buf post A) as (w1 & v & E & R & NF & AL & CP & BK & B2 & TK & OR & HP).
  rewrite N.mul_comm, N.div_mul in R by discriminate. exists w1, v. split.
  - assert (K : forall z p x, bs_init_buffer z n p cap x = match bs_init_buffer z (8 * m) p cap x with
        | Ok (st, ob) y => Ok (st, option_map (fun b => mkbitset n (bs_bits b)) ob) y | Fault f => Fault f end).
    { intros z p x. unfold bs_init_buffer. rewrite !whole_ok, M8. fold m. destruct (cap <? m); [reflexivity|]. unfold bind at 1 3.
      destruct (vinit_custom 1 p cap None x) as [[st ov] y|f]; [|reflexivity].
      destruct (negb (st_success st)); [unfold ret; now destruct ov|]. destruct ov as [v0|]; [|reflexivity].
      unfold bind. now destruct (init_elements v0 z (N.to_nat m) y) as [[st1 v1] y1|f]. }
    unfold with_zero, with_arg in *. rewrite K.
    match type of E with context [bs_init_buffer ?z ?a ?b0 ?c ?x] => destruct (bs_init_buffer z a b0 c x) as [[st ob] y|f] end;
      [|discriminate]. injection E as -> -> ->. reflexivity.
  - split; [|now repeat split]. split; [exact R| |reflexivity|exact LN|].
    + apply Forall_forall. intros x IX. apply repeat_spec in IX as ->. reflexivity.
    + cbn [raw_init snd]. rewrite bits_of_zeros, N2Nat.id. reflexivity.
Qed.
Lemma yroom w b pre l post s n : yrep w b pre l post s -> nlen (snd s) <= n -> bitroom n -> 8 * nlen l < W64.
Proof.
  intros Y LE RM. rewrite (y_bits _ _ _ _ _ _ Y), nlen_bits_of in LE. unfold bitroom in RM.
  change W64 with 18446744073709551616 in *. lia.
Qed.
Lemma nlen_raw_init n : nlen (snd (raw_init n)) = 8 * whole_bytes n.
Proof. apply nlen_zeros. Qed.

(** Every history of a growable bitset ... *)
Lemma exact_growable w0 n g t ops :
  any_init_args w0 n g t -> bitroom (8 * whole_bytes n + 8 * pushes ops) ->
  exists b0 w1 b w b' w',
    with_zero (fun z => bs_init_ex z n true g t) w0 = Ok (ST_SUCCESS, Some b0) w1 /\
    run_bitops b0 ops w1 = Ok (fst (raw_steps None ops (raw_init n)), b) w /\
    raw_shows w b (snd (raw_steps None ops (raw_init n))) /\
    (forall k x, heap w0 k = Some x -> heap w k = Some x) /\
    bs_destroy b w = Ok (ST_SUCCESS, b') w' /\ forall k, heap w' k = heap w0 k.
Proof.
  intros A RM. destruct (any_init w0 n g t A) as (w1 & v & E & Y & NF & AL & B1 & B2 & OR & HP). set (b0 := mkbitset n v) in *.
  assert (LM : bitlimit b0 = None) by now apply limit_none. rewrite <- nlen_raw_init in RM.
  destruct (ysteps ops w1 b0 _ _ _ _ Y NF RM) as (w & b & l & E2 & Y2 & G & LE).
  rewrite LM in *. destruct G as [GR GC GF GK]. cbn [b0 bs_bits] in *.
  assert (AL' : v_alloc (bs_bits b) = true) by (destruct GC; congruence).
  destruct (destroy_ok w (bs_bits b) [] (cells l) [] (proj1 GR)) as (w3 & D & _ & D1 & _ & D2).
  eexists b0, w1, b, w, _, w3. split; [exact E|]. split; [exact E2|]. split.
  { eapply yshows; [exact Y2|]. eapply yroom; eauto. }
  assert (NX : nextb w0 <= blk (bs_bits b)).
  { destruct (N.eq_dec (blk (bs_bits b)) (blk v)) as [->|NE]; [exact B1|]. destruct (fr_old _ _ _ _ GF NE) as (_ & _ & L). lia. }
  pose proof (proj1 A) as W. split; [|split].
  - intros k x Hk. assert (LT : k < nextb w0) by (eapply live_lt; eauto).
    rewrite (fr_heap _ _ _ _ GF) by lia. rewrite HP by lia. exact Hk.
  - unfold bs_destroy. rewrite (bind_ok _ _ _ _ _ D). reflexivity.
  - intros k. destruct (N.eq_dec k (blk (bs_bits b))) as [->|NE].
    + rewrite (D1 AL'). symmetry. apply W. lia.
    + rewrite (D2 _ NE). destruct (N.eq_dec k (blk v)) as [->|NE0].
      * destruct (fr_old _ _ _ _ GF ltac:(congruence)) as (_ & -> & _). symmetry. apply W. lia.
      * rewrite (fr_heap _ _ _ _ GF) by assumption. now apply HP.
Qed.
(** ... and of one in a fixed buffer. *)
Lemma exact_fixed w0 n cap blk0 pre buf post ops :
  any_buffer_args w0 n cap blk0 pre buf post -> whole_bytes n <= cap -> bitroom (8 * whole_bytes n + 8 * pushes ops) ->
  exists b0 w1 b w buf',
    with_zero (fun z => bs_init_buffer z n (Some (mkptr blk0 (nlen pre))) cap) w0 = Ok (ST_SUCCESS, Some b0) w1 /\
    run_bitops b0 ops w1 = Ok (fst (raw_steps (Some (8 * cap)) ops (raw_init n)), b) w /\
    raw_shows w b (snd (raw_steps (Some (8 * cap)) ops (raw_init n))) /\
    heap w blk0 = Some (pre ++ buf' ++ post) /\ nlen buf' = cap /\ tick w = tick w0 /\
    (forall k, k <> blk0 -> heap w k = heap w0 k).
Proof.
  intros A LW RM. destruct (any_buffer w0 n cap blk0 pre buf post A LW) as (w1 & v & E & Y & NF & AL & CP & BK & B2 & TK & OR & HP).
  set (b0 := mkbitset n v) in *.
  assert (LM : bitlimit b0 = Some (8 * cap)) by now apply limit_some. rewrite <- nlen_raw_init in RM.
  destruct (ysteps ops w1 b0 _ _ _ _ Y NF RM) as (w & b & l & E2 & Y2 & G & LE).
  rewrite LM in *. destruct G as [GR GC GF GK]. cbn [b0 bs_bits] in *. specialize (GK AL).
  assert (BK' : blk (bs_bits b) = blk0).
  { destruct (N.eq_dec (blk (bs_bits b)) (blk v)) as [->|NE]; [exact BK|].
    destruct (fr_old _ _ _ _ GF NE) as (X & _). congruence. }
  destruct (brep_heap _ _ _ _ _ GR) as (sl & SL & HH). apply spare_exact in SL; [|destruct GC as (GA & _); intros ?; congruence]. pose proof (brep_le _ _ _ _ _ GR) as LC.
  exists b0, w1, b, w, (l ++ sl). split; [exact E|]. split; [exact E2|]. split.
  { eapply yshows; [exact Y2|]. eapply yroom; eauto. }
  split; [rewrite <- BK', HH; now rewrite <- app_assoc|]. split; [rewrite nlen_app; lia|].
  split; [rewrite (fr_tick _ _ _ _ GF AL); exact TK|].
  intros k NK. rewrite (fr_heap _ _ _ _ GF) by congruence. now apply HP.
Qed.
(** A buffer too small is refused before anything is written. *)
Lemma exact_small w0 n cap blk0 pre buf post : any_buffer_args w0 n cap blk0 pre buf post -> cap < whole_bytes n -> forall z,
  bs_init_buffer z n (Some (mkptr blk0 (nlen pre))) cap w0 = Ok (ST_INSUFFICIENT_BUFFER_SIZE, None) w0.
Proof.
  intros _ L z. unfold bs_init_buffer. rewrite whole_ok. now destruct (N.ltb_spec cap (whole_bytes n)); [|lia].
Qed.

(** ** Reached bitsets *)
Lemma raw_built_rep limit w0 w b s : raw_built limit w0 w b s ->
  exists pre l post, yrep w b pre l post s /\ nofail w (bs_bits b) /\ bitlimit b = limit /\ bitroom (nlen (snd s)) /\
    orc w = orc w0 /\ nextb w0 <= nextb w /\
    (forall k, k < nextb w0 -> k <> blk (bs_bits b) -> heap w k = heap w0 k).
Proof.
  intros (n & ops & b0 & w1 & rs & IN & RM & RE & ->).
  assert (K : exists pre l post, yrep w1 b0 pre l post (raw_init n) /\ nofail w1 (bs_bits b0) /\ bitlimit b0 = limit /\
     orc w1 = orc w0 /\ nextb w0 <= nextb w1 /\ (v_alloc (bs_bits b0) = true -> nextb w0 <= blk (bs_bits b0)) /\
     (forall k, k <> blk (bs_bits b0) -> heap w1 k = heap w0 k)).
  { destruct limit as [k|].
    - destruct IN as (cap & blk0 & pre & buf & post & -> & A & LW & IE).
      destruct (any_buffer w0 n cap blk0 pre buf post A LW) as (w1' & v & E & Y & NF & AL & CP & BK & B2 & TK & OR & HP).
      rewrite E in IE. injection IE as <- <-. eexists _, _, _. split; [exact Y|]. split; [exact NF|].
      split; [now apply limit_some|]. split; [exact OR|].
      split; [exact B2|]. split; [cbn; congruence|]. cbn. now rewrite BK.
    - destruct IN as (g & t & A & IE). destruct (any_init w0 n g t A) as (w1' & v & E & Y & NF & AL & B1 & B2 & OR & HP).
      rewrite E in IE. injection IE as <- <-. eexists _, _, _. split; [exact Y|]. split; [exact NF|].
      split; [now apply limit_none|]. split; [exact OR|].
      split; [exact B2|]. split; [auto|]. exact HP. }
  destruct K as (pre & l & post & Y & NF & LM & OR & NX & OW & HP). rewrite <- nlen_raw_init in RM.
  destruct (ysteps ops w1 b0 _ _ _ _ Y NF RM) as (w2 & b2 & l2 & E2 & Y2 & G & LE).
  rewrite RE in E2. injection E2 as -> -> ->. rewrite LM in *. exists pre, l2, post.
  split; [exact Y2|]. split; [eapply bnofail; eauto|]. split; [rewrite <- LM; eapply bitlimit_good; eauto|].
  split; [eapply bitroom_le; [exact LE|exact RM]|]. pose proof G as [GR GC GF GK].
  split; [rewrite (fr_orc _ _ _ _ GF); exact OR|]. split; [pose proof (fr_next _ _ _ _ GF); lia|].
  intros k LK NK. destruct (N.eq_dec k (blk (bs_bits b0))) as [->|NE].
  - destruct (N.eq_dec (blk (bs_bits b2)) (blk (bs_bits b0))) as [EQ|NE]; [congruence|].
    destruct (fr_old _ _ _ _ GF NE) as (AL & _ & _). specialize (OW AL). lia.
  - rewrite (fr_heap _ _ _ _ GF) by assumption. now apply HP.
Qed.
Lemma ybehaves w b pre l post s : yrep w b pre l post s -> nofail w (bs_bits b) -> raw_behaves (bitlimit b) w b s.
Proof.
  intros Y NF ops RM. destruct (ysteps ops w b pre l post s Y NF RM) as (w' & b' & l' & E & Y' & _ & LE).
  exists b', w'. split; [exact E|]. eapply yshows; [exact Y'|]. eapply yroom; eauto.
Qed.
Lemma reached_behaves limit w b s : raw_reached limit w b s -> raw_behaves limit w b s.
Proof.
  intros (w0 & H). apply raw_built_rep in H as (pre & l & post & Y & NF & <- & _). eapply ybehaves; eauto.
Qed.

(** ** The logical operations *)
Lemma merge_nth f xs : forall ys i, nnth i (merge_bits f xs ys) =
  match nnth i xs, nnth i ys with Some x, Some y => Some (f x y) | r, _ => r end.
Proof.
  assert (G : forall xs ys n, nth_error (merge_bits f xs ys) n =
    match nth_error xs n, nth_error ys n with Some x, Some y => Some (f x y) | r, _ => r end).
  { clear. induction xs as [|x l IH]; intros m n; [destruct m, n; reflexivity|]. destruct m as [|y m], n as [|n]; try reflexivity.
    - cbn. now destruct (nth_error l n).
    - cbn. apply IH. }
  intros. apply G.
Qed.
Lemma merge_len f xs : forall ys, nlen (merge_bits f xs ys) = nlen xs.
Proof.
  induction xs as [|x l IH]; intros [|y m]; try reflexivity. cbn [merge_bits]. rewrite !nlen_cons. now rewrite IH.
Qed.
Lemma zip_merge op f l m : bytewise op f -> Forall isbyte l -> Forall isbyte m ->
  bits_of (zip op l m) = merge_bits f (bits_of l) (bits_of m).
Proof.
  intros OP BL BM. apply bits_ext; [rewrite merge_len, !nlen_bits_of, zip_len; reflexivity|].
  intros i LI. rewrite nlen_bits_of, zip_len in LI. rewrite merge_nth, nnth_bits_of, !bits_of_nnth by (rewrite zip_len; exact LI).
  rewrite (zip_bits op f) by assumption. destruct (N.ltb_spec i (8 * nlen l)); [|lia].
  destruct (N.ltb_spec i (8 * nlen m)), (N.ltb_spec (i / 8) (N.min (nlen l) (nlen m))); try reflexivity; lia.
Qed.
Lemma exact_logic op f : bytewise op f -> raw_combines (bs_byte_op op) f.
Proof.
  intros OP limd w d s lims w1 e t (w0 & HD) HS AP. apply raw_built_rep in HD as (pd & ld & qd & YD & ND & LD & RD & _).
  apply raw_built_rep in HS as (ps & ls & qs & YS & NS & LS & RS & OR & NX & HP).
  assert (NB : blk (bs_bits e) <> blk (bs_bits d)).
  { pose proof (brep_data _ _ _ _ _ (y_rep _ _ _ _ _ _ YD)) as E1. pose proof (brep_data _ _ _ _ _ (y_rep _ _ _ _ _ _ YS)) as E2.
    specialize (AP _ _ E1 E2). cbn in AP. congruence. }
  assert (RD1 : brep w1 (bs_bits d) pd ld qd).
  { eapply brep_heap_eq; [apply YD|eapply brep_wf, YS|exact OR|]. apply HP; [|congruence]. eapply brep_lt, YD. }
  pose proof YS as [RS0 BS SS WS HS]. pose proof YD as [_ BD SD WD HD].
  destruct (zip_loop op f d e pd qd ps qs OP NB ld ls w1 [] [] eq_refl RD1 RS0 BD BS) as (w2 & E & G).
  unfold bs_byte_op. rewrite (brep_size _ _ _ _ _ RD1), (brep_size _ _ _ _ _ RS0).
  replace (N.to_nat (N.min (nlen ld) (nlen ls))) with (Nat.min (length ld) (length ls)) by (unfold nlen; lia).
  cbn [app] in *. destruct (brep_other _ _ _ _ _ _ _ _ _ _ _ RS0 NB G) as [RS2 _].
  exists w2. split; [exact E|]. split.
  - rewrite <- LD. apply ybehaves with pd (zip op ld ls) qd.
    + split; [apply G|eapply zip_bytes; eauto|exact SD|exact WD|]. cbn [snd]. rewrite HD, HS. symmetry. now apply zip_merge.
    + intros A k. destruct G as [_ _ GF _]. rewrite (fr_orc _ _ _ _ GF), OR. now apply ND.
  - rewrite <- LS. apply ybehaves with ps ls qs; [now split|]. intros A k. destruct G as [_ _ GF _].
    rewrite (fr_orc _ _ _ _ GF). now apply NS.
Qed.
Lemma exact_and : raw_combines bs_and andb. Proof. exact (exact_logic _ _ and_bytewise). Qed.
Lemma exact_or : raw_combines bs_or orb. Proof. exact (exact_logic _ _ or_bytewise). Qed.
Lemma exact_xor : raw_combines bs_xor xorb. Proof. exact (exact_logic _ _ xor_bytewise). Qed.

(** Refutations for every string, where the first counterexamples were single runs. *)
From Verif Require Import Base NListFacts Status Mem MemFacts VectorModel VectorSpec VectorDriver VectorRep VectorMore VectorFinal2
  StringModel StringSpec StringDriver StringProofs StringSearch StringFinal StringFinal2 EveryProofs.
From Coq Require Import ZifyBool ZifyNat ZifyN.

(** C15: GetChar(i) of a view whose struct says elements of [e] bytes is the character at [i * e]. *)
Lemma get_char_scaled w q x i e c : views_part w q x -> v_esz (s_vec q) = e -> 1 <= e -> i < nlen x -> nnth (i * e) x = Some c ->
  sget_char q i w = Ok (ST_SUCCESS, Some c) w.
Proof.
  intros V ES EP L NC. pose proof V as (SZ & LT & RD). unfold sget_char. rewrite SZ, wadd_small by lia.
  destruct (N.leb_spec (nlen x + 1) (i + 1)); [lia|]. unfold vget_pointer.
  change (v_size (s_vec q)) with (ssize q). rewrite SZ. destruct (N.leb_spec (nlen x + 1) i); [lia|].
  pose proof (nnth_lt _ _ _ NC) as LC.
  pose proof (views_part_read1 _ _ _ _ _ V NC) as R1. unfold sdata in *.
  destruct (v_data (s_vec q)) as [p|] eqn:ED; [|discriminate].
  unfold assert_valid, offset. rewrite ED, ES. unfold bind at 1 2 3, assert, ret at 1 2.
  cbn [nonnull]. destruct (N.eqb_spec e 0); [lia|]. cbn [negb]. cbv iota. unfold ret at 1 2. sst.
  rewrite wmul_small by lia. cbn [padd] in *. rewrite (bind_ok _ _ _ _ _ R1). reflexivity.
Qed.
(** With a zeroed struct it is an assertion in a debug build and the first character in a release build. *)
Lemma get_char_zero w q x i : views_part w q x -> v_esz (s_vec q) = 0 -> i < nlen x ->
  sget_char q i w = if checked w then Fault AssertFailed else Ok (ST_SUCCESS, nnth 0 x) w.
Proof.
  intros V ES L. pose proof V as (SZ & LT & RD). unfold sget_char. rewrite SZ, wadd_small by lia.
  destruct (N.leb_spec (nlen x + 1) (i + 1)); [lia|]. unfold vget_pointer.
  change (v_size (s_vec q)) with (ssize q). rewrite SZ. destruct (N.leb_spec (nlen x + 1) i); [lia|].
  assert (L0 : 0 < nlen x) by lia. destruct (nnth_exists _ _ L0) as [c NC]. rewrite NC.
  pose proof (views_part_read1 _ _ _ _ _ V NC) as R1. unfold sdata in *.
  destruct (v_data (s_vec q)) as [p|] eqn:ED; [|discriminate].
  unfold assert_valid, offset. rewrite ED, ES. change (negb (0 =? 0)) with false.
  unfold bind at 1 2 3, assert at 1. cbv iota. destruct (checked w); [reflexivity|].
  unfold assert, ret. cbn [nonnull]. sst. cbn [padd] in *.
  replace (wmul i 0) with 0 by (unfold wmul; now rewrite N.mul_0_r). rewrite (bind_ok _ _ _ _ _ R1). reflexivity.
Qed.

(** C17: a range that wraps around is accepted, and nothing is found. *)
Lemma lpos_wraps eqc w hv nv hay needle index count : views w hv hay -> views w nv needle -> nlen hay < index < W64 -> count < W64 ->
  W64 <= index + count <= W64 + nlen hay -> slpos_ex eqc hv nv index count w = Ok (ST_FALSE, None) w.
Proof.
  intros (SZ & LT & _) _ LI LC WR. unfold slpos_ex. rewrite SZ.
  assert (WA : wadd index count = index + count - W64).
  { unfold wadd. replace (index + count) with (index + count - W64 + 1 * W64) at 1 by lia. rewrite N.mod_add by discriminate. apply N.mod_small. lia. }
  rewrite WA. destruct (N.leb_spec (nlen hay + 1) (index + count - W64)); [lia|].
  destruct (_ || _); [reflexivity|]. rewrite N2Nat.inj_add. rewrite Nat.add_comm. cbn [Nat.add lpos_outer N.to_nat Pos.to_nat].
  replace (N.to_nat (nlen hay) + Pos.to_nat 1 + 1)%nat with (S (N.to_nat (nlen hay) + 1)) by lia. cbn [lpos_outer]. rewrite SZ.
  destruct (N.ltb_spec (index + 1) (nlen hay + 1)); [lia|]. reflexivity.
Qed.

(** C59: Insert one place behind the end is Append. *)
Lemma insert_past_end w s cs q : sreached w s cs -> sinsert s (nlen cs + 1) q w = sappend s q w.
Proof.
  intros H. destruct (string_views _ _ _ H) as (SZ & _). unfold sinsert. rewrite SZ, N.eqb_refl.
  destruct (ssize q =? 0) eqn:Z; [|reflexivity]. unfold sappend. now rewrite Z.
Qed.
(** ... and a range that wraps around is taken for a valid one, and the string gets longer. *)
Lemma delete_wraps w s cs i n s' w' : sreached w s cs -> i < W64 -> nlen cs + 1 < n < W64 -> W64 <= i + n <= W64 + nlen cs ->
  sdelete s i n w = Ok (ST_SUCCESS, s') w' -> sget_size s' w' = Ok (ST_SUCCESS, nlen cs + (W64 - n)) w'.
Proof.
  intros H LI [NX LN] [WR LE] E. destruct (string_views _ _ _ H) as (SZ & LT & _).
  assert (WA : wadd i n = i + n - W64).
  { unfold wadd. replace (i + n) with (i + n - W64 + 1 * W64) at 1 by lia. rewrite N.mod_add by discriminate. apply N.mod_small. lia. }
  unfold sdelete in E. rewrite SZ, WA in E. destruct (N.leb_spec (nlen cs + 1) (i + n - W64)); [lia|].
  unfold bind in E at 1. destruct (vdelete_range _ _ _ w) as [[st v] w1|] eqn:ED; [|discriminate].
  apply delete_range_size in ED; [|exact LI|lia|rewrite WA; change (v_size (s_vec s)) with (ssize s); lia].
  destruct (st_success st) eqn:SS; cbn [negb] in E; [|inversion E; subst; discriminate].
  unfold bind in E at 1. destruct (nullterminate _ w1) as [? w2|]; [|discriminate]. inversion E; subst.
  unfold sget_size, view_get_size, ssize. cbn [s_vec with_vec]. rewrite ED. change (v_size (s_vec s)) with (ssize s). rewrite SZ.
  assert (WS : wsub (nlen cs + 1) n = nlen cs + 1 + (W64 - n)).
  { unfold wsub. rewrite (N.mod_small n) by exact LN. apply N.mod_small. lia. }
  rewrite WS. unfold bind, assert. destruct (N.leb_spec 1 (nlen cs + 1 + (W64 - n))); [|lia]. unfold ret.
  rewrite wsub_small by lia. do 2 f_equal. lia.
Qed.

(** C24: the capacity for the terminator wraps around, and the string has room for the terminator only. *)
Lemma init_wraps w g t : allocator_ok w -> 1 <= g ->
  exists c w1, sinit_ex (W64 - 1) true g t w = Ok (ST_SUCCESS, Some (mkstr 0 (mkvec true g t 1 1 1 None (Some (mkptr (nextb w) 0))))) w1 /\
    heap w1 (nextb w) = Some [c] /\ (forall b, b <> nextb w -> heap w1 b = heap w b) /\ checked w1 = checked w.
Proof.
  intros AO G. destruct (AO (tick w)) as [fill O].
  exists 0, (set_heap (mkbuild (hset (heap w) (nextb w) (Some [fill 0])) (nextb w + 1) (orc w) (tick w + 1) (dlog w) (checked w))
    (hset (hset (heap w) (nextb w) (Some [fill 0])) (nextb w) (Some [0]))).
  split; [|cbn; unfold hset; rewrite N.eqb_refl; split; [reflexivity|]; split; [|reflexivity];
    intros b NB; destruct (N.eqb_spec b (nextb w)); [congruence|reflexivity]].
  unfold sinit_ex, STRING_MIN_CAPACITY. change (wadd (N.max 32 (W64 - 1)) 1) with 0.
  assert (EV : @vinit_ex N 1 0 None true g t w = Ok (ST_SUCCESS, Some (mkvec true g t 0 1 1 None (Some (mkptr (nextb w) 0))))
    (mkbuild (hset (heap w) (nextb w) (Some [fill 0])) (nextb w + 1) (orc w) (tick w + 1) (dlog w) (checked w))).
  { unfold vinit_ex. replace ((1 =? 0) || negb true || (g <? 1)) with false by lia. unfold bind, alloc. cbn [v_esz v_cap].
    change ((1 =? 0) || (N.max VECTOR_MIN_CAPACITY 0 =? 0)) with false. cbn [andb]. rewrite O. reflexivity. }
  rewrite (bind_ok _ _ _ _ _ EV). change (negb (st_success ST_SUCCESS)) with false. cbv iota. cbn [v_cap v_esz v_data].
  unfold bind, assert. change (0 <=? 1) with true. change (1 =? 1) with true. unfold ret, mwrite. cbn [heap pb po]. unfold hset at 1.
  rewrite N.eqb_refl. reflexivity.
Qed.
Lemma duplicate_wraps w q x : world_ok w -> allocator_ok w -> views w q x -> 1 <= nlen x ->
  sduplicate q (W64 - 1) w = Fault (if checked w then AssertFailed else OutOfBounds).
Proof.
  intros W AO V LX. pose proof V as (SZ & LT & RD). unfold sduplicate, sduplicate_ex. rewrite SZ. destruct (N.eqb_spec (nlen x + 1) 0); [lia|].
  rewrite wsub_small by lia. rewrite N.max_l by lia.
  destruct (init_wraps w STRING_DEFAULT_GROWTH STRING_DEFAULT_SHRINK AO ltac:(discriminate)) as (c & w1 & E & H1 & HO & CK).
  rewrite (bind_ok _ _ _ _ _ E). unfold sduplicate_into. change (negb (st_success ST_SUCCESS)) with false. cbv iota.
  cbn [s_vec v_cap]. unfold bind, assert. destruct (N.leb_spec (nlen x + 1) 1); [lia|]. rewrite CK. destruct (checked w); [reflexivity|].
  rewrite SZ, wsub_small by lia. unfold memcpy, sdata at 1 2. cbn [s_vec v_data].
  unfold sdata in *. destruct (v_data (s_vec q)) as [[b o]|] eqn:DQ; [|discriminate].
  assert (NB : b <> nextb w).
  { intros ->. unfold mread in RD. cbn [pb] in RD. rewrite (W (nextb w) ltac:(lia)) in RD. discriminate. }
  unfold overlap. cbn [pb po]. destruct (N.eqb_spec (nextb w) b); [congruence|]. cbn [andb].
  replace (nlen x + 1 - 1) with (nlen x) by lia. unfold memmove, bind.
  assert (R1 : mread (Some (mkptr b o)) (nlen x) w1 = Ok x w1).
  { unfold mread in *. cbn [pb po] in *. rewrite HO by exact NB. destruct (heap w b) as [buf|]; [|discriminate].
    destruct (N.leb_spec (o + (nlen x + 1)) (nlen buf)); [|discriminate]. destruct (N.leb_spec (o + nlen x) (nlen buf)); [|lia].
    inversion RD as [EX]. f_equal. transitivity (nfirst (nlen x) (x ++ [0])); [|apply nfirst_app_l; reflexivity].
    rewrite <- EX. unfold nsub, nfirst. rewrite firstn_firstn. f_equal. lia. }
  rewrite R1. cbv beta iota. unfold sdata. cbn [s_vec v_data]. destruct (N.eq_dec (nlen x) 1) as [L1|L1].
  - assert (WR : exists w2, mwrite (Some (mkptr (nextb w) 0)) x w1 = Ok tt w2).
    { unfold mwrite. cbn [pb po]. rewrite H1. destruct (N.leb_spec (0 + nlen x) (nlen [c])); [eauto|change (nlen [c]) with 1 in *; lia]. }
    destruct WR as (w2 & WR). rewrite WR. destruct (write_keeps _ _ _ _ _ _ _ H1 WR) as (buf & H2 & LB).
    unfold nullterminate, ssize, sdata. cbn [s_vec with_vec set_size v_size v_data padd]. rewrite wsub_small by lia.
    unfold mwrite. cbn [pb po]. rewrite H2. destruct (N.leb_spec (0 + (nlen x + 1 - 1) + nlen [0]) (nlen buf)); [change (nlen [c]) with 1 in *; change (nlen [0]) with 1 in *; lia|reflexivity].
  - erewrite write_long; [reflexivity|exact H1|]. change (nlen [c]) with 1. lia.
Qed.

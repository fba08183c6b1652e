(** Comparison functions for signed types, and searching with them. *)
From Verif Require Import Base NListFacts Status Mem MemFacts VectorModel VectorSpec VectorDriver VectorRep VectorProofs VectorProofs2 VectorProofs3 VectorRefine VectorSearch VectorFail VectorMore VectorFinal VectorFinal2
  ComparisonModel ComparisonSpec MiscProofs SignedModel SignedSpec.
From Coq Require Import ZifyBool ZifyNat ZifyN.
Import ListNotations.

Lemma signed_bytes_len k z : nlen (signed_bytes k z) = N.of_nat k.
Proof. apply bytes_of_len. Qed.
Lemma pow_even k : (0 < k)%nat -> (2 ^ (8 * Z.of_nat k) = 2 * 2 ^ (8 * Z.of_nat k - 1) /\ 0 < 2 ^ (8 * Z.of_nat k - 1))%Z.
Proof.
  intros K. split; [|lia]. rewrite <- Z.pow_succ_r by lia. f_equal. lia.
Qed.
Lemma le_signed k z : (0 < k)%nat -> Z.of_N (le_value (signed_bytes k z)) = (z mod 2 ^ (8 * Z.of_nat k))%Z.
Proof.
  intros K. destruct (pow_even k K) as [P1 P2]. pose proof (Z.mod_pos_bound z (2 ^ (8 * Z.of_nat k)) ltac:(lia)).
  unfold signed_bytes. rewrite bytes_of_value; [lia|].
  apply N2Z.inj_lt. rewrite N2Z.inj_pow. replace (Z.of_N (8 * N.of_nat k)) with (8 * Z.of_nat k)%Z by lia.
  change (Z.of_N 2) with 2%Z. lia.
Qed.
Lemma value_signed k z : (0 < k)%nat -> in_signed k z -> signed_value (N.of_nat k) (signed_bytes k z) = z.
Proof.
  intros K [L H]. unfold signed_value. rewrite le_signed by assumption. rewrite nat_N_Z.
  destruct (pow_even k K) as [P1 P2].
  destruct (Z.lt_ge_cases z 0) as [Z0|Z0].
  - rewrite <- (Z.mod_unique z (2 ^ (8 * Z.of_nat k)) (-1) (z + 2 ^ (8 * Z.of_nat k))) by lia.
    destruct (Z.ltb_spec (z + 2 ^ (8 * Z.of_nat k)) (2 ^ (8 * Z.of_nat k - 1))); lia.
  - rewrite Z.mod_small by lia. destruct (Z.ltb_spec z (2 ^ (8 * Z.of_nat k - 1))); lia.
Qed.
Lemma nfirst_signed k z : nfirst (N.of_nat k) (signed_bytes k z) = signed_bytes k z.
Proof. apply nfirst_all. rewrite signed_bytes_len. lia. Qed.

Lemma compare_signed_ok : forall k a b, (0 < k)%nat -> in_signed k a -> in_signed k b ->
  compare_signed (N.of_nat k) (signed_bytes k a) (signed_bytes k b) = sign_of a b /\
  (equals_signed (N.of_nat k) (signed_bytes k a) (signed_bytes k b) = true <-> a = b).
Proof.
  intros k a b K A B. unfold compare_signed, equals_signed, sign_of. rewrite !nfirst_signed, !value_signed by assumption.
  split.
  - rewrite Z.gtb_ltb. reflexivity.
  - destruct (Z.eqb_spec a b); split; congruence.
Qed.
Lemma compare_signed_field_ok : forall o k a b x y, (0 < k)%nat -> in_signed k a -> in_signed k b ->
  nsub o (N.of_nat k) x = signed_bytes k a -> nsub o (N.of_nat k) y = signed_bytes k b ->
  compare_signed_field o (N.of_nat k) x y = sign_of a b /\
  (equals_signed_field o (N.of_nat k) x y = true <-> a = b).
Proof.
  intros o k a b x y K A B EX EY. unfold compare_signed_field, equals_signed_field, signed_field, sign_of.
  rewrite EX, EY, !value_signed by assumption. split.
  - rewrite Z.gtb_ltb. reflexivity.
  - destruct (Z.eqb_spec a b); split; congruence.
Qed.
Lemma signed_order : forall k e, cmp_order e (compare_signed k).
Proof.
  intros k e. unfold compare_signed. split.
  - intros a b _ _. set (x := signed_value k (nfirst k a)). set (y := signed_value k (nfirst k b)).
    destruct (Z.ltb_spec x y), (Z.gtb_spec x y), (Z.ltb_spec y x), (Z.gtb_spec y x); lia.
  - intros a b c _ _ _. set (x := signed_value k (nfirst k a)). set (y := signed_value k (nfirst k b)).
    set (z := signed_value k (nfirst k c)).
    destruct (Z.ltb_spec x y), (Z.gtb_spec x y), (Z.ltb_spec y z), (Z.gtb_spec y z), (Z.ltb_spec x z), (Z.gtb_spec x z); lia.
Qed.
Lemma signed_field_order : forall o k e, cmp_order e (compare_signed_field o k).
Proof.
  intros o k e. unfold compare_signed_field. split.
  - intros a b _ _. set (x := signed_field o k a). set (y := signed_field o k b).
    destruct (Z.ltb_spec x y), (Z.gtb_spec x y), (Z.ltb_spec y x), (Z.gtb_spec y x); lia.
  - intros a b c _ _ _. set (x := signed_field o k a). set (y := signed_field o k b).
    set (z := signed_field o k c).
    destruct (Z.ltb_spec x y), (Z.gtb_spec x y), (Z.ltb_spec y z), (Z.gtb_spec y z), (Z.ltb_spec x z), (Z.gtb_spec x z); lia.
Qed.

(** The default functions compare as unsigned numbers. *)
Lemma default_sign : forall k a b, (0 < k)%nat -> in_signed k a -> in_signed k b ->
  compare (N.of_nat k) (signed_bytes k a) (signed_bytes k b) =
    sign_of (a mod 2 ^ (8 * Z.of_nat k)) (b mod 2 ^ (8 * Z.of_nat k)).
Proof.
  intros k a b K A B. unfold compare, sign_of. rewrite !nfirst_signed, <- !le_signed by assumption.
  destruct (N.ltb_spec (le_value (signed_bytes k a)) (le_value (signed_bytes k b)));
  destruct (N.ltb_spec (le_value (signed_bytes k b)) (le_value (signed_bytes k a)));
  destruct (Z.ltb_spec (Z.of_N (le_value (signed_bytes k a))) (Z.of_N (le_value (signed_bytes k b))));
  destruct (Z.ltb_spec (Z.of_N (le_value (signed_bytes k b))) (Z.of_N (le_value (signed_bytes k a)))); lia.
Qed.
Lemma default_mixed : forall k a b, (0 < k)%nat -> in_signed k a -> in_signed k b -> (a < 0 <= b)%Z ->
  compare (N.of_nat k) (signed_bytes k a) (signed_bytes k b) = 1%Z /\
  compare (N.of_nat k) (signed_bytes k b) (signed_bytes k a) = (-1)%Z.
Proof.
  intros k a b K [A1 A2] [B1 B2] AB. destruct (pow_even k K) as [P1 P2]. rewrite !default_sign by (try split; assumption).
  assert (EA : (a mod 2 ^ (8 * Z.of_nat k) = a + 2 ^ (8 * Z.of_nat k))%Z)
    by (symmetry; apply (Z.mod_unique a (2 ^ (8 * Z.of_nat k)) (-1)); lia).
  assert (EB : (b mod 2 ^ (8 * Z.of_nat k) = b)%Z) by (apply Z.mod_small; lia).
  rewrite EA, EB. unfold sign_of.
  destruct (Z.ltb_spec (a + 2 ^ (8 * Z.of_nat k)) b), (Z.ltb_spec b (a + 2 ^ (8 * Z.of_nat k))); lia.
Qed.
(** For numbers of the same sign they are right. *)
Lemma default_same : forall k a b, (0 < k)%nat -> in_signed k a -> in_signed k b -> ((a < 0)%Z <-> (b < 0)%Z) ->
  compare (N.of_nat k) (signed_bytes k a) (signed_bytes k b) = sign_of a b.
Proof.
  intros k a b K A B S0. rewrite default_sign by assumption. destruct (pow_even k K) as [P1 P2]. destruct A as [A1 A2], B as [B1 B2].
  destruct (Z.lt_ge_cases a 0).
  - rewrite <- (Z.mod_unique a (2 ^ (8 * Z.of_nat k)) (-1) (a + 2 ^ (8 * Z.of_nat k))) by lia.
    rewrite <- (Z.mod_unique b (2 ^ (8 * Z.of_nat k)) (-1) (b + 2 ^ (8 * Z.of_nat k))) by lia.
    unfold sign_of. destruct (Z.ltb_spec a b), (Z.ltb_spec b a), (Z.ltb_spec (a + 2 ^ (8 * Z.of_nat k)) (b + 2 ^ (8 * Z.of_nat k))),
      (Z.ltb_spec (b + 2 ^ (8 * Z.of_nat k)) (a + 2 ^ (8 * Z.of_nat k))); lia.
  - rewrite !Z.mod_small by lia. reflexivity.
Qed.

Lemma nnth_map : forall {A B} (f : A -> B) xs i, nnth i (map f xs) = option_map f (nnth i xs).
Proof. intros A B f xs i. unfold nnth. apply nth_error_map. Qed.
Lemma nlen_map : forall {A B} (f : A -> B) xs, nlen (map f xs) = nlen xs.
Proof. intros. unfold nlen. now rewrite map_length. Qed.

Lemma smaller_at a k zs : k <= nlen zs ->
  (forall i z, i < k -> nnth i zs = Some z -> (z < a)%Z) -> (forall i z, k <= i -> nnth i zs = Some z -> (a <= z)%Z) ->
  smaller a zs = k.
Proof.
  revert k. induction zs as [|z zs IH]; intros k L LO HI.
  - change (nlen []) with 0 in L. cbn. lia.
  - rewrite nlen_cons in L. cbn [smaller]. destruct (N.eq_dec k 0) as [->|K].
    + destruct (Z.ltb_spec z a) as [H|H]; [specialize (HI 0 z ltac:(lia) eq_refl); lia|].
      rewrite (IH 0); [lia|lia|intros; lia|]. intros i y _ NY. apply (HI (N.succ i) y); [lia|].
      unfold nnth in *. rewrite N2Nat.inj_succ. exact NY.
    + destruct (Z.ltb_spec z a) as [H|H]; [|specialize (LO 0 z ltac:(lia) eq_refl); lia].
      rewrite (IH (k - 1)); [lia|lia| |].
      * intros i y I NY. apply (LO (N.succ i) y); [lia|]. unfold nnth in *. rewrite N2Nat.inj_succ. exact NY.
      * intros i y I NY. apply (HI (N.succ i) y); [lia|]. unfold nnth in *. rewrite N2Nat.inj_succ. exact NY.
Qed.
Lemma in_range_at k zs i z : Forall (in_signed k) zs -> nnth i zs = Some z -> in_signed k z.
Proof. intros F NZ. rewrite Forall_forall in F. apply F. unfold nnth in NZ. eapply nth_error_In; exact NZ. Qed.

(** BinarySearch with a function declared for the signed type. *)
Lemma signed_search : forall (w : world N) v k zs a,
  reached w v (map (signed_bytes k) zs) -> v_esz v = N.of_nat k -> (0 < k)%nat ->
  Forall (in_signed k) zs -> in_signed k a -> ascending zs ->
  exists r w', with_arg (signed_bytes k a) (fun p => vbinary_search v p (compare_signed (N.of_nat k))) w = Ok (r, Some (smaller a zs)) w' /\
    (r = ST_TRUE /\ In a zs \/ r = ST_FALSE /\ ~ In a zs) /\ (forall b, heap w' b = heap w b).
Proof.
  intros w v k zs a R E K F A AS.
  destruct (bsearch_all_reached w v (map (signed_bytes k) zs) (signed_bytes k a) (compare_signed (N.of_nat k)) R)
    as (r & j & w' & RUN & (L1 & L2 & L3) & T & HH & _).
  { rewrite signed_bytes_len. auto. }
  { apply signed_order. }
  { intros i j x y _ IJ _ NX NY. rewrite nnth_map in NX, NY. destruct (nnth i zs) as [p|] eqn:NP; [|discriminate].
    destruct (nnth j zs) as [q|] eqn:NQ; [|discriminate]. injection NX as <-. injection NY as <-.
    destruct (compare_signed_ok k p q K (in_range_at _ _ _ _ F NP) (in_range_at _ _ _ _ F NQ)) as [-> _].
    pose proof (AS i j p q IJ NP NQ). unfold sign_of. destruct (Z.ltb_spec p q), (Z.ltb_spec q p); lia. }
  assert (C : forall z, In z zs -> compare_signed (N.of_nat k) (signed_bytes k z) (signed_bytes k a) = sign_of z a).
  { intros z IZ. apply compare_signed_ok; auto. rewrite Forall_forall in F. now apply F. }
  assert (NI : forall i z, nnth i zs = Some z -> In z zs) by (intros i z NZ; unfold nnth in NZ; eapply nth_error_In; exact NZ).
  assert (SM : smaller a zs = j).
  { rewrite nlen_map in L1. apply smaller_at; [lia| |].
    - intros i z I NZ. specialize (L2 i (signed_bytes k z)). rewrite nnth_map, NZ in L2. specialize (L2 ltac:(lia) eq_refl).
      rewrite C in L2 by eauto. unfold sign_of in L2. destruct (Z.ltb_spec z a); [assumption|]. destruct (Z.ltb_spec a z); lia.
    - intros i z I NZ. specialize (L3 i (signed_bytes k z)). rewrite nnth_map, NZ in L3.
      assert (i < nlen zs) by (eapply nnth_lt; exact NZ). rewrite nlen_map in L3. specialize (L3 ltac:(lia) eq_refl).
      rewrite C in L3 by eauto. unfold sign_of in L3. destruct (Z.ltb_spec z a); lia. }
  exists r, w'. rewrite SM. split; [exact RUN|]. split; [|exact HH].
  destruct T as [(-> & i & x & NX & CX)|[-> T]].
  - left. split; [reflexivity|]. rewrite nnth_map in NX. destruct (nnth i zs) as [z|] eqn:NZ; [|discriminate]. injection NX as <-.
    rewrite C in CX by eauto. unfold sign_of in CX. replace a with z; [eauto|]. destruct (Z.ltb_spec z a), (Z.ltb_spec a z); lia.
  - right. split; [reflexivity|]. intros IA. destruct (In_nth_error _ _ IA) as [n NA].
    specialize (T (N.of_nat n) (signed_bytes k a)). rewrite nnth_map in T. unfold nnth in T. rewrite Nat2N.id, NA in T.
    specialize (T eq_refl). rewrite C in T by assumption. unfold sign_of in T. destruct (Z.ltb_spec a a); lia.
Qed.

(** A search that meets greater elements only goes to the front. *)
Lemma bs_loop_front (w : world N) v pre xs post q y cmp :
  vrep w v pre xs post -> src w q y -> nlen y = v_esz v ->
  forall fuel h st, (-1 <= h < Z.of_N (nlen xs))%Z -> (h + 1 <= Z.of_nat fuel)%Z ->
  (forall i x, (Z.of_N i <= h)%Z -> nnth i xs = Some x -> (0 < cmp x y)%Z) ->
  bs_loop v (Some q) cmp 0 h st fuel w = Ok (st, 0) w.
Proof.
  intros R Q L. induction fuel as [|fuel IH]; intros h st HB HF P; cbn [bs_loop].
  - destruct (Z.leb_spec 0 h); [lia|reflexivity].
  - destruct (Z.leb_spec 0 h); [|reflexivity]. set (mid := (0 + (h - 0) / 2)%Z).
    assert (MB : (0 <= mid <= h)%Z) by (unfold mid; lia).
    destruct (nnth_exists (Z.to_N mid) xs) as [x NX]; [lia|].
    rewrite (bind_ok _ _ _ _ _ (elem_read _ _ _ _ _ _ _ R NX)).
    pose proof (src_read _ _ _ Q) as SR. rewrite L in SR. rewrite (bind_ok _ _ _ _ _ SR).
    pose proof (P (Z.to_N mid) x ltac:(lia) NX).
    destruct (Z.ltb_spec (cmp x y) 0); [lia|]. destruct (Z.eqb_spec (cmp x y) 0); [lia|].
    apply IH; [lia|lia|]. intros i z I. apply P. lia.
Qed.

Lemma default_search : forall (w : world N) v k zs a m,
  reached w v (map (signed_bytes k) zs) -> v_esz v = N.of_nat k -> (0 < k)%nat ->
  Forall (in_signed k) zs -> in_signed k a -> ascending zs ->
  nnth ((nlen zs - 1) / 2) zs = Some m -> (m < 0 <= a)%Z ->
  exists w', with_arg (signed_bytes k a) (fun p => vbinary_search v p (compare (N.of_nat k))) w = Ok (ST_FALSE, Some 0) w'.
Proof.
  intros w v k zs a m RE E K F A AS NM MA. destruct (reached_rep _ _ _ RE) as (pre & post & R & _ & _).
  destruct (argw_rep _ _ _ _ _ (signed_bytes k a) R) as (R1 & S1 & _).
  pose proof (nnth_lt _ _ _ NM) as LM. assert (LX : nlen (map (signed_bytes k) zs) = nlen zs) by apply nlen_map.
  pose proof (rep_len_lt _ _ _ _ _ R) as LT. pose proof (r_esz _ _ _ _ _ R) as EZ. rewrite LX in LT.
  assert (NEG : forall i z, i <= (nlen zs - 1) / 2 -> nnth i zs = Some z -> (z < 0)%Z).
  { intros i z I NZ. destruct (N.eq_dec i ((nlen zs - 1) / 2)) as [->|I'].
    - rewrite NM in NZ. injection NZ as <-. lia.
    - pose proof (AS i ((nlen zs - 1) / 2) z m ltac:(lia) NZ NM). lia. }
  assert (SMALL : nlen zs < 9223372036854775808).
  { pose proof (reached_rep _ _ _ RE) as (pre' & post' & R' & F' & _). rewrite LX in F'. unfold fits, W64 in *. nia. }
  assert (RUN : forall q, src (argw w (signed_bytes k a)) q (signed_bytes k a) ->
    vbinary_search v (Some q) (compare (N.of_nat k)) (argw w (signed_bytes k a)) = Ok (ST_FALSE, Some 0) (argw w (signed_bytes k a))).
  { intros q Q. unfold vbinary_search, vbinary_search_ex. rewrite (r_size _ _ _ _ _ R), LX.
    rewrite wadd_small by (unfold W64; lia). replace ((nlen zs <=? 0) && (0 <? nlen zs)) with false by lia.
    replace (nlen zs <? 0 + nlen zs) with false by lia. cbn [orb]. replace (nlen zs =? 0) with false by lia.
    rewrite (bind_ok _ _ _ _ _ (rep_assert_valid _ _ _ _ _ R1)). rewrite wsub_small by lia. unfold to_signed.
    replace (0 <? 9223372036854775808) with true by reflexivity.
    replace (0 + nlen zs - 1 <? 9223372036854775808) with true by lia.
    assert (B : bs_loop v (Some q) (compare (N.of_nat k)) (Z.of_N 0) (Z.of_N (0 + nlen zs - 1)) ST_FALSE (N.to_nat (nlen zs))
                  (argw w (signed_bytes k a)) = Ok (ST_FALSE, 0) (argw w (signed_bytes k a))).
    { change (Z.of_N 0) with 0%Z. destruct (N.to_nat (nlen zs)) as [|fuel] eqn:FU; [lia|]. cbn [bs_loop].
      destruct (Z.leb_spec 0 (Z.of_N (0 + nlen zs - 1))); [|lia].
      set (mid := (0 + (Z.of_N (0 + nlen zs - 1) - 0) / 2)%Z).
      assert (EM : Z.to_N mid = (nlen zs - 1) / 2) by (unfold mid; lia).
      assert (NX : nnth (Z.to_N mid) (map (signed_bytes k) zs) = Some (signed_bytes k m)) by (rewrite nnth_map, EM, NM; reflexivity).
      assert (BIG : forall i z, i <= (nlen zs - 1) / 2 -> nnth i zs = Some z ->
        compare (N.of_nat k) (signed_bytes k z) (signed_bytes k a) = 1%Z).
      { intros i z I NZ. apply default_mixed; auto; [eapply in_range_at; eassumption|]. pose proof (NEG i z I NZ). lia. }
      rewrite (bind_ok _ _ _ _ _ (elem_read _ _ _ _ _ _ _ R1 NX)).
      pose proof (src_read _ _ _ Q) as SR. rewrite signed_bytes_len, <- E in SR. rewrite (bind_ok _ _ _ _ _ SR).
      rewrite (BIG _ _ (N.le_refl _) NM). cbn [Z.ltb Z.eqb Z.compare].
      apply (bs_loop_front _ _ _ _ _ _ _ _ R1 Q); [rewrite signed_bytes_len; auto|rewrite LX; lia|lia|].
      intros i x I NX'. rewrite nnth_map in NX'. destruct (nnth i zs) as [z|] eqn:NZ; [|discriminate]. injection NX' as <-.
      rewrite (BIG i z); [reflexivity|lia|exact NZ]. }
    rewrite (bind_ok _ _ _ _ _ B). reflexivity. }
  specialize (RUN _ S1).
  destruct (with_arg_pure w v pre _ post (signed_bytes k a) (fun p => vbinary_search v p (compare (N.of_nat k))) _ R RUN) as (w' & E' & _).
  exists w'. exact E'.
Qed.

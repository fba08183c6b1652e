(** Facts about numerals, and the digit loops of Format.c. *)
From Verif Require Import Base NListFacts Status Mem MemFacts VectorModel StringModel StringSpec FormatModel FormatSpec.
From Coq Require Import ZifyBool ZifyNat ZifyN.

Lemma value_from base ds a : fold_left (fun a d => a * base + d) ds a = a * base ^ nlen ds + value_of base ds.
Proof.
  unfold value_of. revert a. induction ds as [|d ds IH]; intros a.
  - cbn. change (nlen (@nil N)) with 0. rewrite N.pow_0_r. lia.
  - cbn [fold_left]. rewrite IH, (IH (0 * base + d)). rewrite (nlen_cons d), N.pow_add_r, N.pow_1_r. lia.
Qed.
Lemma value_cons base d ds : value_of base (d :: ds) = d * base ^ nlen ds + value_of base ds.
Proof. unfold value_of at 1. cbn [fold_left]. rewrite value_from. lia. Qed.
Lemma value_app base a b : value_of base (a ++ b) = value_of base a * base ^ nlen b + value_of base b.
Proof. unfold value_of at 1. rewrite fold_left_app, value_from. reflexivity. Qed.
Lemma value_snoc base a d : value_of base (a ++ [d]) = value_of base a * base + d.
Proof. rewrite value_app. change (nlen [d]) with 1. rewrite N.pow_1_r. unfold value_of at 2. cbn. lia. Qed.
Lemma value_bound base ds : Forall (fun d => d < base) ds -> value_of base ds < base ^ nlen ds.
Proof.
  induction 1 as [|d ds H F IH].
  - reflexivity.
  - rewrite value_cons, (nlen_cons d), N.pow_add_r, N.pow_1_r. nia.
Qed.
Lemma canonical_low base ds : 2 <= base -> canonical ds -> 2 <= nlen ds -> base ^ (nlen ds - 1) <= value_of base ds.
Proof.
  intros B C L. destruct ds as [|d ds]; [destruct C|]. rewrite value_cons. rewrite (nlen_cons d) in *.
  destruct ds as [|e ds]; [change (nlen (@nil N)) with 0 in L; lia|]. cbn in C.
  replace (1 + nlen (e :: ds) - 1) with (nlen (e :: ds)) by lia.
  enough (1 * base ^ nlen (e :: ds) <= d * base ^ nlen (e :: ds)) by lia. apply N.mul_le_mono_r. lia.
Qed.

(** A number has only one numeral. *)
Lemma digits_same_length base a b : 2 <= base -> Forall (fun d => d < base) a -> Forall (fun d => d < base) b ->
  nlen a = nlen b -> value_of base a = value_of base b -> a = b.
Proof.
  intros B FA. revert b. induction FA as [|d a H FA IH]; intros b FB L V.
  - destruct b; [reflexivity|]. rewrite nlen_cons in L. change (nlen (@nil N)) with 0 in L. lia.
  - destruct b as [|e b]; [rewrite nlen_cons in L; change (nlen (@nil N)) with 0 in L; lia|].
    rewrite (nlen_cons d), (nlen_cons e) in L. inversion FB as [|? ? HE FB']; subst. rewrite !value_cons in V.
    assert (LE : nlen a = nlen b) by lia. rewrite LE in V.
    pose proof (value_bound base a FA) as VA. pose proof (value_bound base b FB') as VB. rewrite LE in VA.
    assert (d = e) by nia. subst e. f_equal. apply IH; [exact FB'|exact LE|lia].
Qed.
Lemma digits_length base a b : 2 <= base -> Forall (fun d => d < base) a -> Forall (fun d => d < base) b ->
  canonical a -> canonical b -> value_of base a = value_of base b -> nlen a <= nlen b.
Proof.
  intros B FA FB CA CB V. destruct (N.le_gt_cases (nlen a) (nlen b)) as [|G]; [assumption|exfalso].
  assert (1 <= nlen b). { destruct b; [destruct CB|]. rewrite nlen_cons. lia. }
  pose proof (canonical_low base a B CA ltac:(lia)) as LA. pose proof (value_bound base b FB) as UB.
  assert (base ^ nlen b <= base ^ (nlen a - 1)) by (apply N.pow_le_mono_r; lia). lia.
Qed.
Lemma numeral_unique base upper n a b : 2 <= base <= 16 -> numeral base upper n a -> numeral base upper n b -> a = b.
Proof.
  intros B (x & -> & FX & VX & CX) (y & -> & FY & VY & CY). f_equal.
  apply (digits_same_length base); auto; [lia| |congruence].
  pose proof (digits_length base x y ltac:(lia) FX FY CX CY ltac:(congruence)).
  pose proof (digits_length base y x ltac:(lia) FY FX CY CX ltac:(congruence)). lia.
Qed.
Lemma numeral_value base upper n ds : 2 <= base -> numeral base upper n ds ->
  n < base ^ nlen ds /\ (2 <= nlen ds -> base ^ (nlen ds - 1) <= n) /\ 1 <= nlen ds.
Proof.
  intros B (x & -> & FX & <- & CX). unfold nlen at 1 3 4. rewrite map_length. fold (nlen x).
  split; [now apply value_bound|]. split.
  - intros L. unfold nlen in L |- *. rewrite map_length in *. now apply canonical_low.
  - destruct x; [destruct CX|]. rewrite nlen_cons. lia.
Qed.

(** ** Decimal digits *)
Lemma lookup_len : nlen DECIMAL_LOOKUP = 200. Proof. reflexivity. Qed.
Lemma lookup_ok d : d < 100 -> nsub (d * 2) 2 DECIMAL_LOOKUP = map (digit_char false) [d / 10; d mod 10].
Proof.
  intros L. replace d with (N.of_nat (N.to_nat d)) by lia. assert (H : (N.to_nat d < 100)%nat) by lia.
  revert H. generalize (N.to_nat d) as k. intros k H. clear d L.
  assert (A : forallb (fun k => let d := N.of_nat k in
     if list_eq_dec N.eq_dec (nsub (d * 2) 2 DECIMAL_LOOKUP) (map (digit_char false) [d / 10; d mod 10]) then true else false) (seq 0 100) = true)
    by (vm_compute; reflexivity).
  rewrite forallb_forall in A. specialize (A k). cbv zeta in A.
  destruct (list_eq_dec _ _ _) as [e|] in A; [exact e|]. exfalso. enough (false = true) by discriminate. apply A.
  apply in_seq. lia.
Qed.
Lemma dec_push_ok max d ds (w : world N) : d < 100 -> nlen ds + 2 <= max ->
  dec_push max d (map (digit_char false) ds) w = Ok (map (digit_char false) (d / 10 :: d mod 10 :: ds)) w.
Proof.
  intros D L. unfold dec_push. unfold nlen at 1. rewrite map_length. fold (nlen ds). rewrite lookup_len.
  destruct (N.ltb_spec max (nlen ds + 2)); [lia|]. destruct (N.ltb_spec 200 (d * 2 + 2)); [lia|].
  cbn [orb]. rewrite lookup_ok by assumption. reflexivity.
Qed.
Lemma pow10_lt a b : 10 ^ a < 10 ^ b -> a < b.
Proof. apply N.pow_lt_mono_r_iff. lia. Qed.

Lemma dec_loop_ok (w : world N) max : forall fuel v ds,
  N.even max = true -> N.even (nlen ds) = true -> (v = 0 -> ds = []) -> 2 <= max -> v * 10 ^ nlen ds < 10 ^ max ->
  (max <= nlen ds + 2 * N.of_nat fuel) -> Forall (fun d => d < 10) ds ->
  exists v' ds', dec_loop fuel max v (map (digit_char false) ds) w = Ok (v', map (digit_char false) ds') w /\
    v' < 100 /\ N.even (nlen ds') = true /\ nlen ds' + 2 <= max /\ Forall (fun d => d < 10) ds' /\
    (v' = 0 -> ds' = []) /\
    v' * 10 ^ nlen ds' + value_of 10 ds' = v * 10 ^ nlen ds + value_of 10 ds.
Proof.
  assert (EV : forall a b, N.even a = true -> N.even b = true -> a < b -> a + 2 <= b).
  { intros a b A B L. apply N.even_spec in A as [x ->]. apply N.even_spec in B as [y ->]. lia. }
  induction fuel as [|fuel IH]; intros v ds EM ED Z M2 B FU FD; cbn [dec_loop].
  - assert (v < 100).
    { destruct (N.lt_ge_cases v 100) as [|G]; [assumption|exfalso]. change (N.of_nat 0) with 0 in FU.
      assert (10 ^ max <= 10 ^ nlen ds) by (apply N.pow_le_mono_r; lia). nia. }
    destruct (N.ltb_spec v 100); [|lia]. exists v, ds. split; [reflexivity|].
    split; [assumption|]. split; [assumption|]. split; [|now repeat split].
    destruct (N.eq_dec v 0) as [->|NZ]; [rewrite (Z eq_refl); change (nlen (@nil N)) with 0; lia|].
    apply EV; auto. apply pow10_lt. nia.
  - destruct (N.ltb_spec v 100) as [L|G].
    { exists v, ds. split; [reflexivity|]. split; [assumption|]. split; [assumption|]. split; [|now repeat split].
      destruct (N.eq_dec v 0) as [->|NZ]; [rewrite (Z eq_refl); change (nlen (@nil N)) with 0; lia|].
      apply EV; auto. apply pow10_lt. nia. }
    assert (R : v - v / 100 * 100 = v mod 100) by lia. rewrite R.
    assert (RL : v mod 100 < 100) by lia.
    assert (P2 : 10 ^ (nlen ds + 2) = 100 * 10 ^ nlen ds) by (rewrite N.pow_add_r; change (10 ^ 2) with 100; lia).
    assert (LM : nlen ds + 2 < max).
    { apply pow10_lt. rewrite P2. nia. }
    unfold bind. rewrite (dec_push_ok max _ ds w RL) by lia. set (ds1 := (v mod 100) / 10 :: (v mod 100) mod 10 :: ds).
    assert (L1 : nlen ds1 = nlen ds + 2). { unfold ds1. rewrite !nlen_cons. lia. }
    assert (V1 : value_of 10 ds1 = (v mod 100) * 10 ^ nlen ds + value_of 10 ds).
    { unfold ds1. rewrite !value_cons, (nlen_cons ((v mod 100) mod 10)), N.pow_add_r, N.pow_1_r.
      rewrite (N.div_mod' (v mod 100) 10) at 3. lia. }
    assert (Q : v = 100 * (v / 100) + v mod 100) by (apply N.div_mod'). set (q := v / 100) in *. set (m := v mod 100) in *.
    destruct (IH q ds1) as (v' & ds' & E & A1 & A2 & A3 & A4 & A5 & A6); auto.
    + rewrite L1. rewrite N.even_add, ED. reflexivity.
    + intros Z0. lia.
    + rewrite L1, P2. nia.
    + rewrite L1. lia.
    + constructor; [subst m; lia|]. constructor; [subst m; lia|assumption].
    + exists v', ds'. split; [exact E|]. repeat (split; [assumption|]). rewrite A6, L1, P2, V1. nia.
Qed.

(** The buffer the decimal functions end up with. *)
Lemma dec_digits_ok (w : world N) max v : N.even max = true -> 2 <= max -> v < 10 ^ max ->
  exists v' buf buf2 ds, dec_loop (N.to_nat max) max v [] w = Ok (v', buf) w /\
    dec_push max v' buf w = Ok buf2 w /\ numeral 10 false v ds /\ nlen buf2 <= max /\ 2 <= nlen buf2 /\
    nlen ds = nlen buf2 - (if v' <? 10 then 1 else 0) /\
    ds = nsub (if v' <? 10 then 1 else 0) (nlen ds) buf2.
Proof.
  intros EM M2 B. destruct (dec_loop_ok w max (N.to_nat max) v [] EM) as (v' & d1 & E & A1 & A2 & A3 & A4 & A5 & A6); auto.
  { change (nlen (@nil N)) with 0. rewrite N.pow_0_r. lia. } { change (nlen (@nil N)) with 0. lia. }
  change (nlen (@nil N)) with 0 in A6. change (value_of 10 []) with 0 in A6. rewrite N.pow_0_r in A6.
  set (full := v' / 10 :: v' mod 10 :: d1).
  assert (LF : nlen full = nlen d1 + 2) by (unfold full; rewrite !nlen_cons; lia).
  exists v', (map (digit_char false) d1), (map (digit_char false) full),
    (map (digit_char false) (if v' <? 10 then v' mod 10 :: d1 else full)).
  split; [exact E|]. split; [now apply dec_push_ok|].
  assert (NM : forall l : list N, nlen (map (digit_char false) l) = nlen l) by (intros; unfold nlen; now rewrite map_length).
  rewrite !NM. split; [|split; [lia|split; [lia|]]].
  - eexists. split; [reflexivity|]. destruct (N.ltb_spec v' 10) as [L|G].
    + split; [constructor; [lia|assumption]|]. split.
      * rewrite value_cons. rewrite (N.mod_small v' 10 L). lia.
      * cbn. destruct d1 as [|d d1]; [exact I|]. rewrite (N.mod_small v' 10 L). intros Z. now discriminate (A5 Z).
    + split; [constructor; [lia|constructor; [lia|assumption]]|]. split.
      * unfold full. rewrite !value_cons, (nlen_cons (v' mod 10)), N.pow_add_r, N.pow_1_r.
        pose proof (N.div_mod' v' 10). nia.
      * cbn. lia.
  - destruct (v' <? 10).
    + split; [rewrite LF, (nlen_cons (v' mod 10)); lia|]. unfold full. cbn [map]. unfold nsub.
      change (digit_char false (v' / 10) :: digit_char false (v' mod 10) :: map (digit_char false) d1)
        with ([digit_char false (v' / 10)] ++ map (digit_char false) (v' mod 10 :: d1)).
      change 1 with (nlen [digit_char false (v' / 10)]) at 1. rewrite nskip_app_l by reflexivity. symmetry. apply nfirst_all.
      cbn [map]. rewrite !nlen_cons, NM. lia.
    + split; [lia|]. unfold nsub. rewrite nskip_0. symmetry. apply nfirst_all. rewrite NM. lia.
Qed.

(** ** Hexadecimal digits *)
Lemma hex_char_ok upper v (w : world N) : v < 16 -> hex_char upper v w = Ok (digit_char upper v) w.
Proof.
  intros L. unfold hex_char. replace v with (N.of_nat (N.to_nat v)) by lia. assert (H : (N.to_nat v < 16)%nat) by lia.
  revert H. generalize (N.to_nat v) as k. intros k H. do 16 (destruct k as [|k]; [destruct upper; reflexivity|]). lia.
Qed.
Lemma nibble_ok value i : N.land (N.shiftr value (i * 4)) 15 = (value / 16 ^ i) mod 16.
Proof.
  change 15 with (N.ones 4). rewrite N.land_ones, N.shiftr_div_pow2. f_equal. f_equal.
  rewrite N.mul_comm, N.pow_mul_r. reflexivity.
Qed.
Lemma nibble_lt value i : N.land (N.shiftr value (i * 4)) 15 < 16.
Proof. rewrite nibble_ok. apply N.mod_lt. lia. Qed.

(** The type of the value selects enough digits. *)
Lemma high_bits_ok v : v < W64 -> (high_bits v = false <-> v < W32).
Proof.
  intros L. unfold high_bits. rewrite negb_false_iff, N.eqb_eq.
  change 18446744069414584320 with (N.shiftl (N.ones 32) 32).
  assert (E : N.land v (N.shiftl (N.ones 32) 32) = N.shiftl (v / W32) 32).
  { apply N.bits_inj. intros k. rewrite N.land_spec. destruct (N.lt_ge_cases k 32) as [A|A].
    - rewrite !N.shiftl_spec_low by assumption. now rewrite andb_false_r.
    - rewrite !N.shiftl_spec_high' by assumption.
      replace (v / W32) with (N.shiftr v 32) by (rewrite N.shiftr_div_pow2; reflexivity). rewrite N.shiftr_spec'.
      replace (k - 32 + 32) with k by lia. destruct (N.lt_ge_cases k 64) as [B|B].
      + rewrite N.ones_spec_low by lia. now rewrite andb_true_r.
      + rewrite N.ones_spec_high by lia. rewrite andb_false_r. symmetry.
        rewrite <- (N.mod_small v (2 ^ 64)) by exact L. apply N.mod_pow2_bits_high. exact B. }
  rewrite E, N.shiftl_eq_0_iff. unfold W32. lia.
Qed.

Lemma numeral_exists base upper n : 2 <= base -> exists cs, numeral base upper n cs.
Proof.
  intros B. induction n as [n IH] using (well_founded_induction N.lt_wf_0).
  destruct (N.lt_ge_cases n base) as [L|G].
  - exists (map (digit_char upper) [n]), [n]. split; [reflexivity|]. split; [now repeat constructor|]. split; [|exact I].
    unfold value_of. cbn. lia.
  - destruct (IH (n / base)) as (cs & ds & -> & FD & VD & CD). { apply N.div_lt; lia. }
    exists (map (digit_char upper) (ds ++ [n mod base])), (ds ++ [n mod base]). split; [reflexivity|].
    split; [apply Forall_app; split; [exact FD|repeat constructor; apply N.mod_lt; lia]|]. split.
    + rewrite value_snoc, VD. pose proof (N.div_mod' n base). lia.
    + destruct ds as [|d [|e ds]]; [destruct CD| |exact CD]. cbn. intros ->. unfold value_of in VD. cbn in VD.
      assert (1 <= n / base) by (apply N.div_le_lower_bound; lia). lia.
Qed.

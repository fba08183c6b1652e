(** Formatted numbers can be read back, and the comparison functions order them like numbers (C97). *)
From Verif Require Import Base NListFacts Status Mem MemFacts VectorModel VectorDriver StringModel StringSpec StringDriver
  StringProofs StringSearch StringFinal FormatModel FormatSpec FormatDriver FormatDigits FormatRun FormatFinal ReadSpec.
From Coq Require Import ZifyBool ZifyNat ZifyN.

(** ** Reading *)
Lemma digit_value_char upper d : d < 16 -> digit_value (digit_char upper d) = Some d.
Proof.
  intros D. unfold digit_value, digit_char. destruct (N.ltb_spec d 10).
  - replace ((48 <=? 48 + d) && (48 + d <=? 57)) with true by lia. f_equal. lia.
  - destruct upper.
    + replace ((48 <=? 65 + (d - 10)) && (65 + (d - 10) <=? 57)) with false by lia.
      replace ((65 <=? 65 + (d - 10)) && (65 + (d - 10) <=? 70)) with true by lia. f_equal. lia.
    + replace ((48 <=? 97 + (d - 10)) && (97 + (d - 10) <=? 57)) with false by lia.
      replace ((65 <=? 97 + (d - 10)) && (97 + (d - 10) <=? 70)) with false by lia.
      replace ((97 <=? 97 + (d - 10)) && (97 + (d - 10) <=? 102)) with true by lia. f_equal. lia.
Qed.
Lemma read_from_digits base upper : base <= 16 -> forall ds acc, Forall (fun d => d < base) ds ->
  read_from base acc (map (digit_char upper) ds) = Some (fold_left (fun a d => a * base + d) ds acc).
Proof.
  intros B. induction ds as [|d ds IH]; intros acc F; [reflexivity|]. apply Forall_cons_iff in F as [D F].
  cbn [map read_from fold_left]. rewrite digit_value_char by lia. destruct (N.ltb_spec d base); [|lia]. now apply IH.
Qed.
(** The padding consists of zero digits. *)
Lemma padded_digits upper pad ds :
  padded pad (map (digit_char upper) ds) = map (digit_char upper) (nrepeat 0 (pad - nlen ds) ++ ds).
Proof.
  unfold padded. rewrite map_app. f_equal. unfold nlen. rewrite map_length. unfold nrepeat.
  induction (N.to_nat _) as [|k IH]; [reflexivity|]. cbn [repeat map]. now rewrite IH.
Qed.
Lemma value_zeros base k ds : value_of base (nrepeat 0 k ++ ds) = value_of base ds.
Proof.
  rewrite value_app. replace (value_of base (nrepeat 0 k)) with 0; [lia|]. unfold nrepeat.
  induction (N.to_nat k) as [|n IH]; [reflexivity|]. cbn [repeat]. rewrite value_cons. lia.
Qed.
Lemma zeros_small base k : 1 <= base -> Forall (fun d => d < base) (nrepeat 0 k).
Proof. intros B. unfold nrepeat. induction (N.to_nat k); cbn [repeat]; constructor; auto; lia. Qed.
Lemma read_padded base upper pad n cs : 2 <= base <= 16 -> numeral base upper n cs ->
  read_number base (padded pad cs) = Some n.
Proof.
  intros B (ds & -> & F & V & C). rewrite padded_digits. set (l := nrepeat 0 (pad - nlen ds) ++ ds).
  assert (NE : l <> []). { subst l. destruct ds; [destruct C|]. intros Q. now apply app_eq_nil in Q as [_ Q]. }
  assert (FL : Forall (fun d => d < base) l). { subst l. apply Forall_app. split; [apply zeros_small; lia|exact F]. }
  assert (VL : value_of base l = n). { subst l. rewrite value_zeros. exact V. }
  clearbody l. destruct l as [|d l]; [congruence|]. unfold read_number.
  change (map (digit_char upper) (d :: l)) with (digit_char upper d :: map (digit_char upper) l) at 1. cbv iota.
  rewrite read_from_digits by (lia || exact FL). f_equal. exact VL.
Qed.
Lemma strip_app p cs : strip p (p ++ cs) = Some cs.
Proof. induction p as [|x p IH]; [reflexivity|]. cbn. now rewrite N.eqb_refl. Qed.
Lemma digit_not_sign upper d : d < 16 -> digit_char upper d <> 45 /\ digit_char upper d <> 43.
Proof. unfold digit_char. destruct (N.ltb_spec d 10), upper; lia. Qed.
Lemma padded_head base upper pad n cs : 2 <= base <= 16 -> numeral base upper n cs ->
  exists c l, padded pad cs = c :: l /\ c <> 45 /\ c <> 43.
Proof.
  intros B (ds & -> & F & V & C). rewrite padded_digits.
  assert (FL : Forall (fun d => d < base) (nrepeat 0 (pad - nlen ds) ++ ds)).
  { apply Forall_app. split; [apply zeros_small; lia|exact F]. }
  destruct (nrepeat 0 (pad - nlen ds) ++ ds) as [|d l] eqn:E.
  { apply app_eq_nil in E as [_ ->]. destruct C. }
  apply Forall_cons_iff in FL as [D _]. cbn [map]. do 2 eexists. split; [reflexivity|]. apply digit_not_sign. lia.
Qed.
Lemma read_signed base upper pad v force prefix cs : 2 <= base <= 16 -> numeral base upper (Z.abs_N v) cs ->
  no_sign prefix ->
  read_integer base prefix (sign_text v force ++ prefix ++ padded pad cs) = Some v.
Proof.
  intros B NU NS. pose proof (read_padded base upper pad _ cs B NU) as RD.
  destruct (padded_head base upper pad _ cs B NU) as (c & l & EQ & C1 & C2).
  unfold read_integer, sign_text. destruct (Z.ltb_spec v 0) as [NEG|POS].
  - cbn [app]. change (45 =? 45) with true. cbv iota beta. rewrite strip_app, RD. f_equal. lia.
  - destruct force.
    + cbn [app]. change (43 =? 45) with false. change (43 =? 43) with true. cbv iota beta. rewrite strip_app, RD. f_equal. lia.
    + cbn [app]. destruct prefix as [|x prefix].
      * cbn [app]. rewrite EQ. destruct (N.eqb_spec c 45); [congruence|]. destruct (N.eqb_spec c 43); [congruence|].
        cbn [strip]. rewrite <- EQ, RD. f_equal. lia.
      * cbn in NS. cbn [app]. destruct (N.eqb_spec x 45); [lia|]. destruct (N.eqb_spec x 43); [lia|].
        change (x :: prefix ++ padded pad cs) with ((x :: prefix) ++ padded pad cs). rewrite strip_app, RD. f_equal. lia.
Qed.
(** The text a successful formatting call appends reads as the number. *)
Lemma parts_success limit : forall parts cs cs', append_parts limit parts cs ST_SUCCESS cs' -> cs' = cs ++ concat parts.
Proof.
  induction parts as [|p parts IH]; intros cs cs'; cbn [append_parts concat].
  - intros [_ ->]. now rewrite app_nil_r.
  - destruct (holds_chars _ _); [|now intros [Q _]]. intros A. apply IH in A. now rewrite <- app_assoc in A.
Qed.
Lemma fspec_reads limit o cs cs' : number_call o -> fspec limit o cs ST_SUCCESS cs' ->
  exists text, cs' = cs ++ text /\ reads_back o text.
Proof.
  intros NC. destruct o as [o|v pad|v pad upper|v pad force prefix|v pad upper force prefix]; cbn [fspec reads_back].
  - destruct NC.
  - intros (ds & NU & BE). unfold become in BE. destruct (holds_chars _ _); destruct BE as [Q ->]; [|discriminate].
    exists (padded pad ds). split; [reflexivity|]. now apply (read_padded 10 false).
  - intros (ds & NU & BE). unfold become in BE. destruct (holds_chars _ _); destruct BE as [Q ->]; [|discriminate].
    exists (padded pad ds). split; [reflexivity|]. now apply (read_padded 16 upper).
  - intros (ds & NU & BE). apply parts_success in BE. cbn [concat] in BE. rewrite app_nil_r in BE. eexists.
    split; [exact BE|]. now apply (read_signed 10 false).
  - intros (ds & NU & BE). apply parts_success in BE. cbn [concat] in BE. rewrite app_nil_r in BE. eexists.
    split; [exact BE|]. now apply (read_signed 16 upper).
Qed.
Lemma call_views is64 limit w s cs o : freached is64 limit w s cs -> fargs_ok o -> sroom (nlen cs + fdemand o) ->
  exists r w' s' cs', run_fop is64 s o w = Ok (r, s') w' /\ fspec limit o cs r cs' /\ sshows w' s' cs' /\ views w' s' cs'.
Proof.
  intros RE A F. destruct (freached_rep _ _ _ _ _ RE) as (pre & post & R & NF & L).
  destruct (run_fop_ok is64 w s pre cs post o R NF A F) as (r & w' & s' & cs' & E & G & K).
  pose proof (sgood_rep _ _ _ _ _ _ _ _ R G) as R'. rewrite L in K.
  exists r, w', s', cs'. split; [exact E|]. split; [exact K|]. split; [eapply srep_shows; exact R'|eapply srep_views; exact R'].
Qed.
Lemma number_read_back is64 limit w s cs o : freached is64 limit w s cs -> number_call o -> fargs_ok o ->
  sroom (nlen cs + fdemand o) ->
  exists r s' w', run_fop is64 s o w = Ok (r, s') w' /\
    (r = ST_SUCCESS \/ r = ST_INSUFFICIENT_BUFFER_SIZE /\ limit <> None) /\
    (r = ST_SUCCESS -> exists text, sshows w' s' (cs ++ text) /\ views w' s' (cs ++ text) /\ reads_back o text).
Proof.
  intros RE NC A F. destruct (call_views is64 limit w s cs o RE A F) as (r & w' & s' & cs' & E & K & SH & BE).
  exists r, s', w'. split; [exact E|]. split.
  - assert (PR : forall parts c, append_parts limit parts c r cs' -> r = ST_SUCCESS \/ r = ST_INSUFFICIENT_BUFFER_SIZE /\ limit <> None).
    { induction parts as [|p parts IH]; intros c; cbn [append_parts]; [intros [-> _]; now left|].
      destruct (holds_chars limit (nlen (c ++ p))) eqn:H; [apply IH|]. intros [-> _]. right. split; [reflexivity|].
      intros ->. discriminate. }
    assert (PB : forall t, become limit t cs r cs' -> r = ST_SUCCESS \/ r = ST_INSUFFICIENT_BUFFER_SIZE /\ limit <> None).
    { intros t. unfold become. destruct (holds_chars limit (nlen t)) eqn:H; intros [-> _]; [now left|]. right.
      split; [reflexivity|]. intros ->. discriminate. }
    destruct o; cbn [fspec] in K; [destruct NC|..]; destruct K as (ds & _ & K); eauto.
  - intros ->. destruct (fspec_reads _ _ _ _ NC K) as (text & -> & RB). now exists text.
Qed.

(** ** Comparing *)
Lemma compare_common eqc w v1 v2 p a b : decides eqc (fun x y => fold32 x = fold32 y) a b -> (forall c, eqc c c = true) ->
  views w v1 (p ++ a) -> views w v2 (p ++ b) ->
  exists st, scompare eqc v1 v2 w = Ok (st, order_sign a b) w /\
    ((st = ST_TRUE /\ Forall2 (fun x y => fold32 x = fold32 y) a b) \/ (st = ST_FALSE /\ order_sign a b <> 0%Z)).
Proof.
  intros D RF V1 V2. destruct (scompare_ok eqc w v1 v2 _ _ V1 V2 RF) as (st & r & E & K).
  exists st. rewrite E. unfold order_sign. rewrite !nlen_app in K.
  destruct K as [(L & -> & ->)|[(L & -> & ->)|[(F & -> & ->)|(L & -> & x & y & (k & LK & A & X & Y & NE) & ->)]]].
  - destruct (N.ltb_spec (nlen a) (nlen b)); [|lia]. split; [reflexivity|]. right. split; [reflexivity|lia].
  - destruct (N.ltb_spec (nlen a) (nlen b)); [lia|]. destruct (N.ltb_spec (nlen b) (nlen a)); [|lia].
    split; [reflexivity|]. right. split; [reflexivity|lia].
  - assert (F' : Forall2 (fun x y => fold32 x = fold32 y) a b).
    { clear V1 V2 E. assert (F2 : Forall2 (fun x y => eqc x y = true) a b).
      { induction p as [|c p IH]; [exact F|]. cbn [app] in F. inversion F; subst. now apply IH. }
      eapply forall2_iff; [|exact F2]. exact D. }
    assert (LEN : nlen a = nlen b). { eapply forall2_nlen; eauto. }
    rewrite LEN, N.ltb_irrefl. rewrite (lex_sign_eq _ _ F'). split; [reflexivity|]. left. now split.
  - assert (LEN : nlen a = nlen b) by lia. rewrite LEN, N.ltb_irrefl.
    destruct (N.lt_ge_cases k (nlen p)) as [KP|KP].
    { exfalso. rewrite nnth_app1 in X, Y by exact KP. rewrite X in Y. injection Y as ->. rewrite RF in NE. discriminate. }
    replace k with (nlen p + (k - nlen p)) in X, Y by lia. rewrite nnth_app2 in X, Y by lia.
    replace (nlen p + (k - nlen p) - nlen p) with (k - nlen p) in X, Y by lia.
    assert (IN : forall (l : list N) i c, nnth i l = Some c -> In c l).
    { intros l i c NC. unfold nnth in NC. eapply nth_error_In; eauto. }
    assert (FXY : fold32 x <> fold32 y). { intros Q. apply (D x y) in Q; eauto. congruence. }
    assert (LS : lex_sign a b = if (fold32 x <? fold32 y)%Z then (-1)%Z else 1%Z).
    { apply (lex_sign_diff x y FXY) with (k := k - nlen p); auto.
      intros t T. destruct (A (nlen p + t)) as (u & v & U & V & UV); [lia|]. rewrite !N.add_0_l in *.
      rewrite nnth_app2 in U, V by lia. replace (nlen p + t - nlen p) with t in U, V by lia. exists u, v. split; [exact U|]. split; [exact V|]. apply (D u v); eauto. }
    rewrite LS. unfold fold32. split; [reflexivity|]. right. split; [reflexivity|]. destruct (_ <? _)%Z; lia.
Qed.
Lemma fold_digit upper d : d < 16 ->
  fold32 (digit_char upper d) = if d <? 10 then (48 + Z.of_N d)%Z else (97 + (Z.of_N d - 10))%Z.
Proof.
  intros D. assert (IN : In d (map N.of_nat (seq 0 16))).
  { replace d with (N.of_nat (N.to_nat d)) by lia. apply in_map, in_seq. lia. }
  cbn in IN. repeat (destruct IN as [<-|IN]; [destruct upper; reflexivity|]). destruct IN.
Qed.
Lemma fold_digit_lt upper d e : d < 16 -> e < 16 ->
  (fold32 (digit_char upper d) <? fold32 (digit_char upper e))%Z = (d <? e).
Proof. intros D E. rewrite !fold_digit by assumption. destruct (N.ltb_spec d 10), (N.ltb_spec e 10); lia. Qed.
Definition number_sign (m n : N) : Z := if m =? n then 0%Z else if m <? n then (-1)%Z else 1%Z.
Lemma lex_digits base upper : 2 <= base <= 16 -> forall a b, Forall (fun d => d < base) a -> Forall (fun d => d < base) b ->
  nlen a = nlen b ->
  lex_sign (map (digit_char upper) a) (map (digit_char upper) b) = number_sign (value_of base a) (value_of base b).
Proof.
  intros B. induction a as [|x a IH]; intros b FA FB L.
  - destruct b; [reflexivity|]. rewrite nlen_cons in L. change (nlen (@nil N)) with 0 in L. lia.
  - destruct b as [|y b]; [rewrite nlen_cons in L; change (nlen (@nil N)) with 0 in L; lia|]. rewrite !nlen_cons in L.
    apply Forall_cons_iff in FA as [X FA]. apply Forall_cons_iff in FB as [Y FB]. cbn [map lex_sign].
    rewrite !fold_digit_lt by lia. rewrite !value_cons. assert (LL : nlen a = nlen b) by lia. rewrite <- LL.
    pose proof (value_bound base a FA) as UA. pose proof (value_bound base b FB) as UB. rewrite <- LL in UB.
    set (q := base ^ nlen a) in *. clearbody q. unfold number_sign in *.
    destruct (N.ltb_spec x y).
    + assert (x * q + q <= y * q) by nia. destruct (N.eqb_spec (x * q + value_of base a) (y * q + value_of base b)); [lia|].
      destruct (N.ltb_spec (x * q + value_of base a) (y * q + value_of base b)); lia.
    + destruct (N.ltb_spec y x).
      * assert (y * q + q <= x * q) by nia. destruct (N.eqb_spec (x * q + value_of base a) (y * q + value_of base b)); [lia|].
        destruct (N.ltb_spec (x * q + value_of base a) (y * q + value_of base b)); lia.
      * assert (x = y) by lia. subst y. rewrite IH by assumption.
        destruct (N.eqb_spec (value_of base a) (value_of base b)), (N.eqb_spec (x * q + value_of base a) (x * q + value_of base b)); try lia.
        destruct (N.ltb_spec (value_of base a) (value_of base b)), (N.ltb_spec (x * q + value_of base a) (x * q + value_of base b)); lia.
Qed.
Lemma nlen_padded pad cs : nlen (padded pad cs) = N.max pad (nlen cs).
Proof. unfold padded. rewrite nlen_app, nlen_repeat. lia. Qed.
Lemma order_numbers base upper pad m n cm cn : 2 <= base <= 16 -> numeral base upper m cm -> numeral base upper n cn ->
  order_sign (padded pad cm) (padded pad cn) = number_sign m n.
Proof.
  intros B NM NN. pose proof (numeral_value base upper m cm ltac:(lia) NM) as (UM & LM & PM).
  pose proof (numeral_value base upper n cn ltac:(lia) NN) as (UN & LN & PN).
  unfold order_sign. rewrite !nlen_padded. destruct (N.ltb_spec (N.max pad (nlen cm)) (N.max pad (nlen cn))) as [L|L].
  - assert (base ^ nlen cm <= base ^ (nlen cn - 1)) by (apply N.pow_le_mono_r; lia). specialize (LN ltac:(lia)).
    unfold number_sign. destruct (N.eqb_spec m n); [lia|]. destruct (N.ltb_spec m n); lia.
  - destruct (N.ltb_spec (N.max pad (nlen cn)) (N.max pad (nlen cm))) as [L'|L'].
    + assert (base ^ nlen cn <= base ^ (nlen cm - 1)) by (apply N.pow_le_mono_r; lia). specialize (LM ltac:(lia)).
      unfold number_sign. destruct (N.eqb_spec m n); [lia|]. destruct (N.ltb_spec m n); lia.
    + destruct NM as (a & -> & FA & <- & CA). destruct NN as (b & -> & FB & <- & CB).
      unfold nlen in L, L'. rewrite !map_length in L, L'. fold (nlen a) (nlen b) in L, L'. rewrite !padded_digits.
      rewrite (lex_digits base) by (try exact B; try (apply Forall_app; split; [apply zeros_small; lia|assumption]);
        rewrite !nlen_app, !nlen_repeat; lia).
      now rewrite !value_zeros.
Qed.
Definition is_digit (upper : bool) (c : N) : Prop := exists d, d < 16 /\ c = digit_char upper d.
Lemma padded_are_digits base upper pad n cs : 2 <= base <= 16 -> numeral base upper n cs -> Forall (is_digit upper) (padded pad cs).
Proof.
  intros B (ds & -> & F & _). rewrite padded_digits. apply Forall_map.
  assert (FL : Forall (fun d => d < base) (nrepeat 0 (pad - nlen ds) ++ ds)).
  { apply Forall_app. split; [apply zeros_small; lia|exact F]. }
  revert FL. apply Forall_impl. intros d D. exists d. split; [lia|reflexivity].
Qed.
Lemma class_digits eqc upper : eqc = eq_cs \/ eqc = eq_ci -> class_ok eqc (is_digit upper).
Proof.
  intros K. split.
  - intros c. destruct K as [-> | ->]; [apply eq_cs_refl|apply eq_ci_refl].
  - intros x y (d & D & ->) (e & E & ->).
    assert (IND : In d (map N.of_nat (seq 0 16))). { replace d with (N.of_nat (N.to_nat d)) by lia. apply in_map, in_seq. lia. }
    assert (INE : In e (map N.of_nat (seq 0 16))). { replace e with (N.of_nat (N.to_nat e)) by lia. apply in_map, in_seq. lia. }
    assert (T : forallb (fun d => forallb (fun e => Bool.eqb (eqc (digit_char upper d) (digit_char upper e))
       (fold32 (digit_char upper d) =? fold32 (digit_char upper e))%Z) (map N.of_nat (seq 0 16))) (map N.of_nat (seq 0 16)) = true).
    { destruct K as [-> | ->], upper; vm_compute; reflexivity. }
    rewrite forallb_forall in T. specialize (T d IND). rewrite forallb_forall in T. specialize (T e INE).
    apply Bool.eqb_prop in T. rewrite T. apply Z.eqb_eq.
Qed.
Lemma compare_numbers eqc base upper pad w v1 v2 p m n cm cn : eqc = eq_cs \/ eqc = eq_ci -> 2 <= base <= 16 ->
  numeral base upper m cm -> numeral base upper n cn ->
  views w v1 (p ++ padded pad cm) -> views w v2 (p ++ padded pad cn) ->
  scompare eqc v1 v2 w =
    Ok (if m =? n then (ST_TRUE, 0%Z) else (ST_FALSE, if m <? n then (-1)%Z else 1%Z)) w.
Proof.
  intros K B NM NN V1 V2. pose proof (class_digits eqc upper K) as C.
  pose proof (padded_are_digits base upper pad _ _ B NM) as DM. pose proof (padded_are_digits base upper pad _ _ B NN) as DN.
  destruct (compare_common eqc w v1 v2 p _ _ (class_decides _ _ _ _ C DM DN) (proj1 C) V1 V2) as (st & E & S).
  rewrite E, (order_numbers base upper pad m n) by assumption. rewrite (order_numbers base upper pad m n) in S by assumption.
  unfold number_sign in *. destruct (N.eqb_spec m n).
  - destruct S as [[-> _]|[_ Q]]; [reflexivity|lia].
  - destruct S as [[-> F]|[-> _]]; [|reflexivity]. exfalso.
    pose proof (forall2_nlen _ _ _ F) as LEN. pose proof (order_numbers base upper pad m n cm cn B NM NN) as O.
    unfold order_sign in O. rewrite LEN, N.ltb_irrefl, (lex_sign_eq _ _ F) in O. unfold number_sign in O.
    destruct (N.eqb_spec m n); [lia|]. destruct (m <? n); lia.
Qed.
(** Negative numbers come out in the wrong order. *)
Lemma compare_negative eqc base upper pad w v1 v2 px x y force cx cy : eqc = eq_cs \/ eqc = eq_ci -> 2 <= base <= 16 ->
  (x < y < 0)%Z -> numeral base upper (Z.abs_N x) cx -> numeral base upper (Z.abs_N y) cy ->
  views w v1 (sign_text x force ++ px ++ padded pad cx) -> views w v2 (sign_text y force ++ px ++ padded pad cy) ->
  scompare eqc v1 v2 w = Ok (ST_FALSE, 1%Z) w.
Proof.
  intros K B XY NX NY V1 V2. unfold sign_text in *. replace (x <? 0)%Z with true in V1 by lia. replace (y <? 0)%Z with true in V2 by lia.
  rewrite app_assoc in V1, V2. rewrite (compare_numbers eqc base upper pad w v1 v2 _ _ _ cx cy K B NX NY V1 V2).
  replace (Z.abs_N x =? Z.abs_N y) with false by lia. replace (Z.abs_N x <? Z.abs_N y) with false by lia. reflexivity.
Qed.

(** Writing several numbers into one string and reading them back. *)
From Verif Require Import Base NListFacts Status MemFacts VectorModel VectorDriver StringModel StringSpec StringDriver
  StringProofs StringSearch StringFinal FormatModel FormatSpec FormatDriver FormatDigits FormatProofs FormatRun FormatFinal ReadSpec ReadProofs
  ReplaceDriver ReplaceProofs SplitDriver SplitProofs NumsSpec Mem.
From Coq Require Import ZifyBool ZifyNat ZifyN.

(** ** The characters of a number *)
Lemma read_from_chars base : forall cs acc n, read_from base acc cs = Some n -> Forall (fun c => digit_value c <> None) cs.
Proof.
  induction cs as [|c cs IH]; intros acc n H; [constructor|]. cbn [read_from] in H. destruct (digit_value c) as [d|] eqn:E; [|discriminate].
  destruct (d <? base); [|discriminate]. constructor; [now rewrite E|]. eapply IH; eauto.
Qed.
Lemma read_number_chars base cs n : read_number base cs = Some n -> cs <> [] /\ Forall (fun c => digit_value c <> None) cs.
Proof. destruct cs as [|c cs]; [discriminate|]. intros H. split; [discriminate|]. eapply read_from_chars; exact H. Qed.
Lemma strip_some : forall p cs r, strip p cs = Some r -> cs = p ++ r.
Proof.
  induction p as [|x p IH]; intros cs r H; [injection H as <-; reflexivity|]. destruct cs as [|c cs]; [discriminate|]. cbn [strip] in H.
  destruct (N.eqb_spec x c); [|discriminate]. subst. cbn [app]. f_equal. now apply IH.
Qed.
Definition number_char (p : list N) (c : N) : Prop := digit_value c <> None \/ c = 43 \/ c = 45 \/ In c p.
Lemma digits_chars p cs : Forall (fun c => digit_value c <> None) cs -> Forall (number_char p) cs.
Proof. apply Forall_impl. intros c H. now left. Qed.
Lemma read_integer_chars base p cs v : read_integer base p cs = Some v -> cs <> [] /\ Forall (number_char p) cs.
Proof.
  assert (K : forall rest (f : N -> Z), match strip p rest with
      | Some digits => match read_number base digits with Some n => Some (f n) | None => None end | None => None end = Some v ->
    rest <> [] /\ Forall (number_char p) rest).
  { intros rest f H. destruct (strip p rest) as [ds|] eqn:S; [|discriminate]. apply strip_some in S. subst rest.
    destruct (read_number base ds) as [n|] eqn:R; [|discriminate]. apply read_number_chars in R as [NE F]. split.
    - intros Q. now apply app_eq_nil in Q as [_ ->].
    - apply Forall_app. split; [|now apply digits_chars]. apply Forall_forall. intros c I. now right; right; right. }
  unfold read_integer. destruct cs as [|c cs]; [intros H; now apply (K []) in H|].
  destruct (N.eqb_spec c 45) as [->|N1].
  - intros H. apply K in H as [_ F]. split; [discriminate|]. constructor; [now right; right; left|exact F].
  - destruct (N.eqb_spec c 43) as [->|N2]; intros H; apply K in H as [_ F]; (split; [discriminate|]); [|exact F].
    constructor; [now right; left|exact F].
Qed.
Lemma reads_chars o text : number_call o -> reads_back o text -> text <> [] /\ Forall (number_char (prefix_of o)) text.
Proof.
  destruct o as [o|v pad|v pad u|v pad f p|v pad u f p]; cbn [number_call reads_back prefix_of]; intros NC R.
  - destruct NC.
  - apply read_number_chars in R as [A B]. split; [exact A|now apply digits_chars].
  - apply read_number_chars in R as [A B]. split; [exact A|now apply digits_chars].
  - now apply read_integer_chars in R.
  - now apply read_integer_chars in R.
Qed.

(** ** The written text *)
Lemma write_texts limit sep : forall nums cs rs cs', Forall number_call nums ->
  fspecs limit (write_list sep nums) cs rs cs' -> Forall (eq ST_SUCCESS) rs ->
  exists texts, cs' = cs ++ joined sep texts /\ Forall2 (fun o t => reads_back o t) nums texts.
Proof.
  induction nums as [|o nums IH]; intros cs rs cs' NC H S.
  - inversion H; subst. exists []. split; [now rewrite app_nil_r|constructor].
  - apply Forall_cons_iff in NC as [N1 NC]. destruct nums as [|o' nums].
    + cbn [write_list] in H. inversion H as [|? ? ? r c1 rs1 c2 F1 F2]; subst. inversion F2; subst.
      apply Forall_cons_iff in S as [<- _]. apply fspec_reads in F1 as (t & -> & R); [|exact N1].
      exists [t]. split; [reflexivity|]. now repeat constructor.
    + change (write_list sep (o :: o' :: nums)) with (o :: FStr (SAppend sep) :: write_list sep (o' :: nums)) in H.
      inversion H as [|? ? ? r c1 rs1 c2 F1 F2]; subst. inversion F2 as [|? ? ? r' c3 rs2 c4 F3 F4]; subst.
      apply Forall_cons_iff in S as [<- S]. apply Forall_cons_iff in S as [<- S].
      apply fspec_reads in F1 as (t & -> & R); [|exact N1].
      cbn [fspec sspec] in F3. unfold become in F3. destruct (holds_chars _ _); destruct F3 as [Q ->]; [|discriminate].
      apply IH in F4 as (ts & -> & F); [|exact NC|exact S]. exists (t :: ts). split.
      * inversion F; subst. change (joined sep (t :: y :: l')) with (t ++ sep ++ joined sep (y :: l')). now rewrite <- !app_assoc.
      * now constructor.
Qed.
Lemma write_succeeds sep : forall nums cs rs cs', Forall number_call nums ->
  fspecs None (write_list sep nums) cs rs cs' -> Forall (eq ST_SUCCESS) rs.
Proof.
  assert (P : forall parts cs r cs', append_parts None parts cs r cs' -> r = ST_SUCCESS).
  { induction parts as [|p parts IH]; intros cs r cs'; cbn [append_parts holds_chars]; [now intros [-> _]|apply IH]. }
  assert (O : forall o cs r cs', number_call o -> fspec None o cs r cs' -> ST_SUCCESS = r).
  { intros o cs r cs' NC H. destruct o as [o|v pad|v pad u|v pad f p|v pad u f p]; cbn [fspec] in H; [destruct NC|..]; destruct H as (ds & _ & H).
    - now destruct H as [-> _].
    - now destruct H as [-> _].
    - apply P in H. now symmetry.
    - apply P in H. now symmetry. }
  induction nums as [|o nums IH]; intros cs rs cs' NC H; [inversion H; constructor|].
  apply Forall_cons_iff in NC as [N1 NC]. destruct nums as [|o' nums].
  - inversion H as [|? ? ? r c1 rs1 c2 F1 F2]; subst. inversion F2; subst. constructor; [eapply O; eauto|constructor].
  - change (write_list sep (o :: o' :: nums)) with (o :: FStr (SAppend sep) :: write_list sep (o' :: nums)) in H.
    inversion H as [|? ? ? r c1 rs1 c2 F1 F2]; subst. inversion F2 as [|? ? ? r' c3 rs2 c4 F3 F4]; subst.
    constructor; [eapply O; eauto|]. cbn [fspec sspec] in F3. destruct F3 as [-> _]. constructor; [reflexivity|]. eapply IH; eauto.
Qed.
(** The pieces are the texts. *)
Lemma no_occurrence p sep o i rest : separates sep o -> Forall (number_char (prefix_of o)) p -> i < nlen p -> ~ occurs eq (p ++ rest) sep i.
Proof.
  intros S F L H. destruct sep as [|c sep]; [destruct S|]. destruct S as (D & N1 & N2 & N3).
  apply occurs_split in H as (u & v & E & LU). assert (NT : nnth i (p ++ rest) = Some c).
  { rewrite E. now apply nnth_mid. }
  rewrite nnth_app1 in NT by exact L. unfold nnth in NT. apply nth_error_In in NT. rewrite Forall_forall in F. destruct (F _ NT) as [K|[K|[K|K]]]; easy.
Qed.
Lemma texts_pieces sep nums texts : nums <> [] -> Forall number_call nums -> Forall (separates sep) nums ->
  Forall2 (fun o t => reads_back o t) nums texts -> pieces sep (joined sep texts) texts.
Proof.
  intros NE NC SE F. induction F as [|o t nums texts R F IH]; [easy|]. apply Forall_cons_iff in NC as [N1 NC]. apply Forall_cons_iff in SE as [S1 SE].
  pose proof (reads_chars _ _ N1 R) as [_ CH]. destruct F as [|o' t' nums' texts' R' F].
  - cbn [joined]. constructor. intros i H. assert (L : i < nlen t).
    { destruct H as [L _]. destruct sep; [destruct S1|]. rewrite nlen_cons in L. lia. }
    rewrite <- (app_nil_r t) in H. eapply no_occurrence; eauto.
  - change (joined sep (t :: t' :: texts')) with (t ++ sep ++ joined sep (t' :: texts')). constructor.
    + intros i L. eapply no_occurrence; eauto.
    + apply IH; [discriminate|exact NC|exact SE].
Qed.
Lemma all_nonempty (nums : list fop) texts : Forall number_call nums -> Forall2 (fun o t => reads_back o t) nums texts -> filter nonempty texts = texts.
Proof.
  intros NC F. induction F as [|o t nums texts R F IH]; [reflexivity|]. apply Forall_cons_iff in NC as [N1 NC].
  apply reads_chars in R as [NE _]; [|exact N1]. cbn [filter]. unfold nonempty at 1. destruct t as [|c t]; [easy|].
  rewrite nlen_cons. destruct (N.eqb_spec (1 + nlen t) 0); [lia|]. cbn [negb]. now rewrite IH.
Qed.
Lemma split_reads w old s sq sep nums texts : views w s (joined sep texts) -> views w sq sep -> ~ In 0 sep -> sep <> [] ->
  Forall number_call nums -> Forall (separates sep) nums -> Forall2 (fun o t => reads_back o t) nums texts ->
  exists qs, split old s sq w = Ok qs w /\ Forall2 (fun q o => exists text, views_part w q text /\ reads_back o text) qs nums.
Proof.
  intros V VS NZ NE NC SE F.
  assert (P : exists ps, pieces sep (joined sep texts) ps /\ filter nonempty ps = texts).
  { destruct nums as [|o nums].
    - inversion F; subst. exists [[]]. split; [|reflexivity]. constructor. intros i [L _]. cbn [joined] in L. change (nlen (@nil N)) with 0 in L.
      destruct sep; [easy|]. rewrite nlen_cons in L. lia.
    - exists texts. split; [apply texts_pieces with (o :: nums); easy|]. now apply all_nonempty with (o :: nums). }
  destruct P as (ps & P & FE). destruct (split_ok w old s sq _ sep ps V VS NE NZ P) as (qs & E & FQ & _). rewrite FE in FQ.
  exists qs. split; [exact E|]. clear - F FQ. revert nums F. induction FQ as [|q t qs ts H FQ IH]; intros nums F; inversion F; subst; constructor; [eauto|].
  now apply IH.
Qed.

(** ** Programs *)
Lemma separates_nonnil sep (nums : list fop) : nums <> [] -> Forall (separates sep) nums -> sep <> [].
Proof. intros NE F. destruct F as [|o nums S F]; [easy|]. intros ->. destruct S. Qed.
Lemma write_args sep nums : Forall fargs_ok nums -> Forall fargs_ok (write_list sep nums).
Proof.
  induction 1 as [|o nums A F IH]; [constructor|]. destruct F as [|o' nums A' F]; [now repeat constructor|].
  change (write_list sep (o :: o' :: nums)) with (o :: FStr (SAppend sep) :: write_list sep (o' :: nums)).
  constructor; [exact A|]. constructor; [exact Logic.I|exact IH].
Qed.
Lemma views_heap w w' q x : (forall p y, sdata q = Some p -> heap w (pb p) = Some y -> heap w' (pb p) = Some y) -> views w q x -> views w' q x.
Proof.
  intros H V. destruct (view_place _ _ _ V) as (b & u & z & D & HB). pose proof V as (SZ & LT & _). split; [exact SZ|]. split; [exact LT|].
  rewrite D. eapply (mread_mid w' b (nlen u) _ u (x ++ [0]) z).
  - exact (H _ _ D HB).
  - reflexivity.
  - now rewrite nlen_app.
Qed.
Lemma numbers_growable is64 w0 cap g t sep sq old nums :
  sinit_args_ok w0 cap g t -> views w0 sq sep -> sep <> [] -> ~ In 0 sep ->
  Forall number_call nums -> Forall fargs_ok nums -> Forall (separates sep) nums -> sroom (fdemands (write_list sep nums)) ->
  exists s0 w1 rs s w qs,
    sinit_ex cap true g t w0 = Ok (ST_SUCCESS, Some s0) w1 /\
    run_fops is64 s0 (write_list sep nums) w1 = Ok (rs, s) w /\ Forall (eq ST_SUCCESS) rs /\
    split old s sq w = Ok qs w /\ Forall2 (fun q o => exists text, views_part w q text /\ reads_back o text) qs nums.
Proof.
  intros A VS NE NZ NC FA SE RM. apply (write_args sep) in FA.
  destruct (growable_format is64 w0 cap g t _ A FA RM) as (s0 & w1 & rs & s & w & cs & E1 & E2 & FS & SH & HP).
  pose proof (write_succeeds _ _ _ _ _ NC FS) as OKS. destruct (write_texts _ _ _ _ _ _ NC FS OKS) as (ts & -> & F).
  assert (V : views w s ([] ++ joined sep ts)).
  { assert (R : freached is64 None w s ([] ++ joined sep ts)) by (exists w0, s0, w1, (write_list sep nums), rs; eauto 10).
    destruct (freached_rep _ _ _ _ _ R) as (pre & post & R' & _). eapply srep_views; eauto. }
  destruct (split_reads w old s sq sep nums ts) as (qs & E & FQ); auto.
  { eapply views_heap; [|exact VS]. intros p y _. apply HP. }
  exists s0, w1, rs, s, w, qs. auto.
Qed.
Lemma numbers_fixed is64 w0 cap b pre buf post sep sq old nums :
  sbuffer_args_ok w0 cap b pre buf post -> views w0 sq sep -> (forall p, sdata sq = Some p -> pb p <> b) -> sep <> [] -> ~ In 0 sep ->
  Forall number_call nums -> Forall fargs_ok nums -> Forall (separates sep) nums -> sroom (fdemands (write_list sep nums)) ->
  exists s0 w1 rs s w,
    sinit_custom (Some (mkptr b (nlen pre))) cap w0 = Ok (ST_SUCCESS, Some s0) w1 /\
    run_fops is64 s0 (write_list sep nums) w1 = Ok (rs, s) w /\
    (Forall (eq ST_SUCCESS) rs ->
     exists qs, split old s sq w = Ok qs w /\ Forall2 (fun q o => exists text, views_part w q text /\ reads_back o text) qs nums).
Proof.
  intros A VS BE NE NZ NC FA SE RM. apply (write_args sep) in FA.
  destruct (fixed_format is64 w0 cap b pre buf post _ A FA RM) as (s0 & w1 & rs & s & w & cs & buf' & E1 & E2 & FS & SH & _ & _ & HP).
  exists s0, w1, rs, s, w. split; [exact E1|]. split; [exact E2|]. intros OKS. destruct (write_texts _ _ _ _ _ _ NC FS OKS) as (ts & -> & F).
  assert (V : views w s ([] ++ joined sep ts)).
  { assert (C1 : cap - 1 + 1 = cap) by (destruct A as (_ & _ & _ & A & _); lia).
    assert (R : freached is64 (Some (cap - 1)) w s ([] ++ joined sep ts)).
    { exists w0, s0, w1, (write_list sep nums), rs. split; [|auto]. exists b, pre, buf, post. rewrite C1. now split. }
    destruct (freached_rep _ _ _ _ _ R) as (pre' & post' & R' & _). eapply srep_views; eauto. }
  apply (split_reads w old s sq sep nums ts); auto.
  eapply views_heap; [|exact VS]. intros p y D H. rewrite HP; [exact H|]. now apply BE.
Qed.

(** ** A buffer with room for all of them *)
Lemma numeral_short base upper v ds : 10 <= base -> v < W64 -> numeral base upper v ds -> nlen ds <= 20.
Proof.
  intros B L NU. destruct (numeral_value base upper v ds ltac:(lia) NU) as (A1 & A2 & A3).
  destruct (N.le_gt_cases (nlen ds) 20) as [K|K]; [exact K|]. specialize (A2 ltac:(lia)).
  assert (P1 : 10 ^ (nlen ds - 1) <= base ^ (nlen ds - 1)) by (apply N.pow_le_mono_l; lia).
  assert (P2 : 10 ^ 20 <= 10 ^ (nlen ds - 1)) by (apply N.pow_le_mono_r; lia).
  change (10 ^ 20) with 100000000000000000000 in P2. unfold W64 in L. lia.
Qed.
Lemma parts_fit k : forall parts cs r cs', nlen cs + nlen (concat parts) <= k -> append_parts (Some k) parts cs r cs' ->
  r = ST_SUCCESS /\ cs' = cs ++ concat parts.
Proof.
  induction parts as [|p parts IH]; intros cs r cs' L; cbn [append_parts concat] in *.
  - intros [-> ->]. now rewrite app_nil_r.
  - rewrite nlen_app in L. cbn [holds_chars]. rewrite nlen_app. destruct (N.leb_spec (nlen cs + nlen p) k); [|lia].
    intros A. apply IH in A; [|rewrite nlen_app; lia]. now rewrite <- app_assoc in A.
Qed.
Lemma number_fits k o cs r cs' : number_call o -> fargs_ok o -> fspec (Some k) o cs r cs' -> nlen cs + fdemand o <= k ->
  r = ST_SUCCESS /\ nlen cs' <= nlen cs + fdemand o.
Proof.
  assert (SG : forall base upper v pad force p ds, 10 <= base -> (-9223372036854775808 <= v < 9223372036854775808)%Z ->
    numeral base upper (Z.abs_N v) ds -> nlen (concat [sign_text v force; p; padded pad ds]) <= 1 + nlen p + pad + 20).
  { intros base upper v pad force p ds B V NU. apply numeral_short in NU; [|exact B|unfold W64; lia].
    cbn [concat]. rewrite app_nil_r, !nlen_app, nlen_padded. unfold sign_text. destruct (v <? 0)%Z, force; change (nlen [45]) with 1; change (nlen [43]) with 1; change (nlen (@nil N)) with 0; lia. }
  intros NC A F L. destruct o as [o|v pad|v pad u|v pad f p|v pad u f p]; cbn [fspec fargs_ok fdemand] in *; [destruct NC|..]; destruct F as (ds & NU & F).
  - unfold become, holds_chars in F. apply numeral_short in NU; [|lia|apply A]. rewrite nlen_app, nlen_padded in F.
    destruct (N.leb_spec (nlen cs + N.max pad (nlen ds)) k); [|lia]. destruct F as [-> ->]. split; [reflexivity|]. rewrite nlen_app, nlen_padded. lia.
  - unfold become, holds_chars in F. apply numeral_short in NU; [|lia|apply A]. rewrite nlen_app, nlen_padded in F.
    destruct (N.leb_spec (nlen cs + N.max pad (nlen ds)) k); [|lia]. destruct F as [-> ->]. split; [reflexivity|]. rewrite nlen_app, nlen_padded. lia.
  - specialize (SG 10 false v pad f (prefix_text p) ds ltac:(lia) (proj1 A) NU). apply parts_fit in F as [-> ->]; [|lia]. split; [reflexivity|]. rewrite nlen_app. lia.
  - specialize (SG 16 u v pad f (prefix_text p) ds ltac:(lia) (proj1 A) NU). apply parts_fit in F as [-> ->]; [|lia]. split; [reflexivity|]. rewrite nlen_app. lia.
Qed.
Lemma write_fits k sep : forall nums cs rs cs', Forall number_call nums -> Forall fargs_ok nums ->
  fspecs (Some k) (write_list sep nums) cs rs cs' -> nlen cs + fdemands (write_list sep nums) <= k -> Forall (eq ST_SUCCESS) rs.
Proof.
  induction nums as [|o nums IH]; intros cs rs cs' NC FA H L; [inversion H; constructor|].
  apply Forall_cons_iff in NC as [N1 NC]. apply Forall_cons_iff in FA as [A1 FA]. destruct nums as [|o' nums].
  - inversion H as [|? ? ? r c1 rs1 c2 F1 F2]; subst. inversion F2; subst. cbn [write_list fdemands] in L.
    apply number_fits in F1 as [-> _]; [|exact N1|exact A1|lia]. now repeat constructor.
  - change (write_list sep (o :: o' :: nums)) with (o :: FStr (SAppend sep) :: write_list sep (o' :: nums)) in *.
    inversion H as [|? ? ? r c1 rs1 c2 F1 F2]; subst. inversion F2 as [|? ? ? r' c3 rs2 c4 F3 F4]; subst. cbn [fdemands] in L.
    change (fdemand (FStr (SAppend sep))) with (nlen sep) in L.
    apply number_fits in F1 as [-> L1]; [|exact N1|exact A1|lia]. constructor; [reflexivity|].
    cbn [fspec sspec] in F3. unfold become, holds_chars in F3. rewrite nlen_app in F3. destruct (N.leb_spec (nlen c1 + nlen sep) k); [|lia].
    destruct F3 as [-> ->]. constructor; [reflexivity|]. apply IH in F4; auto. rewrite nlen_app. lia.
Qed.
Lemma numbers_fixed' is64 w0 cap b pre buf post sep sq old nums :
  sbuffer_args_ok w0 cap b pre buf post -> views w0 sq sep -> (forall p, sdata sq = Some p -> pb p <> b) -> sep <> [] -> ~ In 0 sep ->
  Forall number_call nums -> Forall fargs_ok nums -> Forall (separates sep) nums -> sroom (fdemands (write_list sep nums)) ->
  exists s0 w1 rs s w,
    sinit_custom (Some (mkptr b (nlen pre))) cap w0 = Ok (ST_SUCCESS, Some s0) w1 /\
    run_fops is64 s0 (write_list sep nums) w1 = Ok (rs, s) w /\
    (fdemands (write_list sep nums) < cap -> Forall (eq ST_SUCCESS) rs) /\
    (Forall (eq ST_SUCCESS) rs ->
     exists qs, split old s sq w = Ok qs w /\ Forall2 (fun q o => exists text, views_part w q text /\ reads_back o text) qs nums).
Proof.
  intros A VS BE NE NZ NC FA SE RM. destruct (numbers_fixed is64 w0 cap b pre buf post sep sq old nums A VS BE NE NZ NC FA SE RM) as (s0 & w1 & rs & s & w & E1 & E2 & K).
  exists s0, w1, rs, s, w. split; [exact E1|]. split; [exact E2|]. split; [|exact K]. intros L.
  destruct (fixed_format is64 w0 cap b pre buf post _ A (write_args sep _ FA) RM) as (s0' & w1' & rs' & s' & w' & cs & buf' & E1' & E2' & FS & _).
  rewrite E1 in E1'. injection E1' as <- <-. rewrite E2 in E2'. injection E2' as <- <- <-. eapply write_fits; eauto. change (nlen (@nil N)) with 0. lia.
Qed.

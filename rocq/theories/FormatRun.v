(** Histories of string and formatting calls. *)
From Verif Require Import Base NListFacts Status Mem MemFacts VectorModel VectorSpec VectorDriver
  VectorRep VectorProofs VectorProofs2 VectorProofs3 VectorRefine StringModel StringSpec StringDriver StringBytes
  StringProofs StringSearch StringFinal StringFinal2 FormatModel FormatSpec FormatDriver FormatDigits FormatProofs.
From Coq Require Import ZifyBool ZifyNat ZifyN.

Implicit Types (w : world) (s : str).

Lemma srep_holds w s pre cs post : srep w s pre cs post -> holds_chars (limit_of s) (nlen cs) = true.
Proof.
  intros [R FL]. pose proof (brep_le _ _ _ _ _ R) as L. rewrite nlen_app in L. change (nlen [0]) with 1 in L.
  unfold limit_of, holds_chars. destruct (v_alloc (s_vec s)); [reflexivity|]. lia.
Qed.

Lemma decu_ok is64 w s pre cs post v pad ds : srep w s pre cs post -> snofail w s ->
  v < W64 -> pad < 256 -> (nlen cs + pad + 20 + 1) * 256 < W64 -> numeral 10 false v ds ->
  exists r w' s' cs', sappend_decu is64 s v pad w = Ok (r, s') w' /\ sgood w s w' s' pre cs' post /\
    become (limit_of s) (cs ++ padded pad ds) cs r cs'.
Proof.
  intros R NF V P F NU. unfold sappend_decu. destruct (is64 || high_bits v) eqn:HB.
  - destruct (dec_ok w s pre cs post MAXCHARS_DEC_64 v pad R NF) as (ds' & NU' & K); auto.
    { unfold MAXCHARS_DEC_64. lia. } { eapply N.lt_le_trans; [exact V|]. now vm_compute. }
    now rewrite (numeral_unique 10 false v ds ds' ltac:(lia) NU NU').
  - apply orb_false_iff in HB. destruct HB as [_ HB]. apply (proj1 (high_bits_ok v V)) in HB. rewrite N.mod_small by exact HB.
    destruct (dec_ok w s pre cs post MAXCHARS_DEC_32 v pad R NF) as (ds' & NU' & K); auto.
    { unfold MAXCHARS_DEC_32. lia. } { eapply N.lt_le_trans; [exact HB|]. now vm_compute. }
    now rewrite (numeral_unique 10 false v ds ds' ltac:(lia) NU NU').
Qed.
Lemma hexu_ok is64 w s pre cs post v pad upper ds : srep w s pre cs post -> snofail w s ->
  v < W64 -> pad < 256 -> (nlen cs + pad + 20 + 1) * 256 < W64 -> numeral 16 upper v ds ->
  exists r w' s' cs', sappend_hexu is64 s v pad upper w = Ok (r, s') w' /\ sgood w s w' s' pre cs' post /\
    become (limit_of s) (cs ++ padded pad ds) cs r cs'.
Proof.
  intros R NF V P F NU. unfold sappend_hexu, sappend_hex64.
  assert (GO : forall k, (k <= 16)%nat -> v < 16 ^ N.of_nat k ->
    exists r w' s' cs', sappend_hex k s v pad upper w = Ok (r, s') w' /\ sgood w s w' s' pre cs' post /\
    become (limit_of s) (cs ++ padded pad ds) cs r cs').
  { intros k K V'. destruct (hex_ok w s pre cs post k v pad upper R NF K V') as (ds' & NU' & K'); auto.
    now rewrite (numeral_unique 16 upper v ds ds' ltac:(lia) NU NU'). }
  pose proof (high_bits_ok v V) as HB. destruct (high_bits v).
  - rewrite orb_true_r. apply GO; [unfold MAXCHARS_HEX_64; lia|exact V].
  - assert (V32 : v < W32) by now apply HB. rewrite (N.mod_small v) by exact V32.
    rewrite orb_false_r. destruct is64; (apply GO; [unfold MAXCHARS_HEX_32; lia|exact V32]).
Qed.

Lemma is_view_good w s w' s' pre cs cs' post q x : srep w s pre cs post -> sgood w s w' s' pre cs' post ->
  is_view w q x (blk (s_vec s)) -> is_view w' q x (blk (s_vec s')).
Proof.
  intros [R _] [[_ _ F _] _] (p & A & B & Q & NB).
  destruct (src_frame _ _ _ _ _ _ Q NB (brep_wf _ _ _ _ _ R) F) as (Q' & NB'). now exists p.
Qed.

Definition opt_view w (q : option view) (x : list N) (b : N) : Prop :=
  match q with Some q => is_view w q x b | None => x = [] end.
(** An append that may be left out, followed by the rest. *)
Lemma part_ok w s pre cs post q x parts (k : str -> M (status * str)) : srep w s pre cs post -> snofail w s ->
  (nlen cs + nlen x + 1) * 256 < W64 -> opt_view w q x (blk (s_vec s)) ->
  (forall w1 s1, sgood w s w1 s1 pre (cs ++ x) post ->
     exists r w' s' cs', k s1 w1 = Ok (r, s') w' /\ sgood w1 s1 w' s' pre cs' post /\
       append_parts (limit_of s) parts (cs ++ x) r cs') ->
  exists r w' s' cs',
    (let* (st, s1) := match q with Some q => sappend s q | None => ret (ST_SUCCESS, s) end in
     if negb (st_success st) then ret (st, s1) else k s1) w = Ok (r, s') w' /\
    sgood w s w' s' pre cs' post /\ append_parts (limit_of s) (x :: parts) cs r cs'.
Proof.
  intros R NF F Q NEXT. destruct q as [q|].
  - destruct (append_ok w s pre cs post q x R (nofail_grants _ _ NF) F Q) as (r & w1 & s1 & cs1 & E & G & B). rewrite (bind_ok _ _ _ _ _ E).
    unfold become in B. cbn [append_parts]. destruct (holds_chars _ _); destruct B as [-> ->]; sst.
    + destruct (NEXT w1 s1 G) as (r & w2 & s2 & cs2 & E2 & G2 & A2). exists r, w2, s2, cs2. split; [exact E2|].
      split; [eapply sgood_trans; [exact G|eapply brep_wf; apply R|exact G2]|exact A2].
    + exists ST_INSUFFICIENT_BUFFER_SIZE, w1, s1, cs. split; [reflexivity|]. split; [exact G|now split].
  - cbn in Q. subst x. unfold bind, ret. sst. cbn [append_parts]. rewrite app_nil_r in *.
    rewrite (srep_holds _ _ _ _ _ R). apply NEXT. now apply sgood_refl.
Qed.

Lemma abs_i64_ok v : (-9223372036854775808 <= v < 9223372036854775808)%Z ->
  (if (v <? 0)%Z then abs_i64 v else Z.to_N v) = Z.abs_N v.
Proof. intros B. unfold abs_i64. destruct (Z.ltb_spec v 0); [destruct (Z.eqb_spec v (-9223372036854775808))|]; lia. Qed.
Lemma abs_lt v : (-9223372036854775808 <= v < 9223372036854775808)%Z -> Z.abs_N v < W64.
Proof. change W64 with 18446744073709551616. lia. Qed.
Lemma signed_ok w s pre cs post sub add v force prefix px pad ds digits : srep w s pre cs post -> snofail w s ->
  (-9223372036854775808 <= v < 9223372036854775808)%Z -> pad < 256 ->
  (nlen cs + (1 + nlen px + pad + 20) + 1) * 256 < W64 ->
  is_view w sub [45] (blk (s_vec s)) -> is_view w add [43] (blk (s_vec s)) -> opt_view w prefix px (blk (s_vec s)) ->
  (forall w1 s1 cs1, srep w1 s1 pre cs1 post -> snofail w1 s1 -> (nlen cs1 + pad + 20 + 1) * 256 < W64 ->
    exists r w' s' cs', digits s1 (Z.abs_N v) w1 = Ok (r, s') w' /\ sgood w1 s1 w' s' pre cs' post /\
      become (limit_of s1) (cs1 ++ padded pad ds) cs1 r cs') ->
  exists r w' s' cs', sappend_signed sub add s v force prefix digits w = Ok (r, s') w' /\
    sgood w s w' s' pre cs' post /\
    append_parts (limit_of s) [sign_text v force; px; padded pad ds] cs r cs'.
Proof.
  intros R NF B P F VS VA VP D. unfold sappend_signed. rewrite (abs_i64_ok v B).
  set (sg := if (v <? 0)%Z then Some sub else if force then Some add else None).
  assert (LS : nlen (sign_text v force) <= 1).
  { unfold sign_text. destruct (v <? 0)%Z; [|destruct force]; now vm_compute. }
  apply part_ok; auto; [lia| |].
  { unfold opt_view, sg, sign_text. destruct (v <? 0)%Z; [exact VS|]. destruct force; [exact VA|reflexivity]. }
  intros w1 s1 G1. pose proof (sgood_rep _ _ _ _ _ _ _ _ R G1) as R1. rewrite <- (sgood_limit _ _ _ _ _ _ _ G1).
  assert (NF1 : snofail w1 s1) by (eapply bnofail; [exact NF|apply G1]).
  apply part_ok; auto; [rewrite nlen_app; lia| |].
  { destruct prefix; [|exact VP]. eapply is_view_good; [exact R|exact G1|exact VP]. }
  intros w2 s2 G2. pose proof (sgood_rep _ _ _ _ _ _ _ _ R1 G2) as R2. rewrite <- (sgood_limit _ _ _ _ _ _ _ G2).
  assert (NF2 : snofail w2 s2) by (eapply bnofail; [exact NF1|apply G2]).
  destruct (D w2 s2 _ R2 NF2) as (r & w3 & s3 & cs3 & E3 & G3 & B3); [rewrite !nlen_app; lia|].
  exists r, w3, s3, cs3. split; [exact E3|]. split; [exact G3|]. cbn [append_parts]. unfold become in B3.
  destruct (holds_chars _ _); exact B3.
Qed.

Lemma with_view_step w s pre cs post x (k : view -> M (status * str)) (P : status -> list N -> Prop) :
  srep w s pre cs post -> snofail w s ->
  (forall w1 q, srep w1 s pre cs post -> snofail w1 s -> is_view w1 q x (blk (s_vec s)) ->
     (forall q y, is_view w q y (blk (s_vec s)) -> is_view w1 q y (blk (s_vec s))) ->
     exists r w' s' cs', k q w1 = Ok (r, s') w' /\ sgood w1 s w' s' pre cs' post /\ P r cs') ->
  exists r w' s' cs', with_view x k w = Ok (r, s') w' /\ sgood w s w' s' pre cs' post /\ P r cs'.
Proof.
  intros R NF H. unfold with_view.
  apply (with_sarg_step w s pre cs post (x ++ [0]) (fun p => k (define_view p (nlen x + 1))) P R).
  destruct (arg_view w s pre cs post x R) as (R1 & V). apply H; auto.
  intros q y (p & A & B & (a & c & Q & E) & NB). exists p. split; [exact A|]. split; [exact B|]. split; [|exact NB].
  exists a, c. split; [|exact E]. destruct R as [BR _]. pose proof (live_lt _ _ _ (brep_wf _ _ _ _ _ BR) Q) as L.
  unfold argw. cbn [heap]. unfold hset. destruct (N.eqb_spec (pb p) (nextb w)); [lia|exact Q].
Qed.
Lemma with_all_step w s pre cs post prefix (k : view -> view -> option view -> M (status * str)) (P : status -> list N -> Prop) :
  srep w s pre cs post -> snofail w s ->
  (forall w1 sub add q, srep w1 s pre cs post -> snofail w1 s -> is_view w1 sub [45] (blk (s_vec s)) ->
     is_view w1 add [43] (blk (s_vec s)) -> opt_view w1 q (prefix_text prefix) (blk (s_vec s)) ->
     exists r w' s' cs', k sub add q w1 = Ok (r, s') w' /\ sgood w1 s w' s' pre cs' post /\ P r cs') ->
  exists r w' s' cs', with_signs (fun sub add => with_prefix prefix (fun p => k sub add p)) w = Ok (r, s') w' /\
    sgood w s w' s' pre cs' post /\ P r cs'.
Proof.
  intros R NF H. unfold with_signs. apply (with_view_step _ s pre cs post); auto. intros w1 sub R1 NF1 VS _.
  apply (with_view_step _ s pre cs post); auto. intros w2 add R2 NF2 VA K2. unfold with_prefix. destruct prefix as [px|].
  - apply (with_view_step _ s pre cs post); auto.
  - apply H; auto. reflexivity.
Qed.

Theorem run_fop_ok is64 w s pre cs post o : srep w s pre cs post -> snofail w s -> fargs_ok o ->
  (nlen cs + fdemand o + 1) * 256 < W64 ->
  exists r w' s' cs', run_fop is64 s o w = Ok (r, s') w' /\ sgood w s w' s' pre cs' post /\
    fspec (limit_of s) o cs r cs'.
Proof.
  intros R NF A F. destruct o as [o|v pad|v pad upper|v pad force prefix|v pad upper force prefix];
    cbn [run_fop fdemand fargs_ok fspec] in *.
  - now apply run_sop_ok; [|apply nofail_grants|..].
  - destruct (numeral_exists 10 false v) as (ds & NU); [lia|].
    destruct (decu_ok is64 w s pre cs post v pad ds R NF) as (r & w' & s' & cs' & E & G & B); try tauto; [lia|].
    exists r, w', s', cs'. split; [exact E|]. split; [exact G|]. now exists ds.
  - destruct (numeral_exists 16 upper v) as (ds & NU); [lia|].
    destruct (hexu_ok is64 w s pre cs post v pad upper ds R NF) as (r & w' & s' & cs' & E & G & B); try tauto; [lia|].
    exists r, w', s', cs'. split; [exact E|]. split; [exact G|]. now exists ds.
  - destruct (numeral_exists 10 false (Z.abs_N v)) as (ds & NU); [lia|].
    apply (with_all_step w s pre cs post); auto. intros w1 sub add q R1 NF1 VS VA VP.
    destruct (signed_ok w1 s pre cs post sub add v force q (prefix_text prefix) pad ds
      (fun s v => sappend_decu is64 s v pad) R1 NF1) as (r & w' & s' & cs' & E & G & B); try tauto.
    { intros. apply decu_ok; auto; [now apply abs_lt|tauto]. }
    exists r, w', s', cs'. split; [exact E|]. split; [exact G|]. now exists ds.
  - destruct (numeral_exists 16 upper (Z.abs_N v)) as (ds & NU); [lia|].
    apply (with_all_step w s pre cs post); auto. intros w1 sub add q R1 NF1 VS VA VP.
    destruct (signed_ok w1 s pre cs post sub add v force q (prefix_text prefix) pad ds
      (fun s v => sappend_hexu is64 s v pad upper) R1 NF1) as (r & w' & s' & cs' & E & G & B); try tauto.
    { intros. apply hexu_ok; auto; [now apply abs_lt|tauto]. }
    exists r, w', s', cs'. split; [exact E|]. split; [exact G|]. now exists ds.
Qed.

Lemma numeral_short base upper v ds k : 2 <= base -> numeral base upper v ds -> 1 <= k -> v < base ^ k -> nlen ds <= k.
Proof.
  intros B NU K V. destruct (numeral_value base upper v ds B NU) as (A1 & A2 & A3).
  destruct (N.le_gt_cases (nlen ds) k) as [|G]; [assumption|]. specialize (A2 ltac:(lia)).
  assert (nlen ds - 1 < k) by (apply (N.pow_lt_mono_r_iff base); lia). lia.
Qed.
Lemma append_parts_len lim : forall parts cs r cs', append_parts lim parts cs r cs' -> nlen cs' <= nlen cs + nlen (concat parts).
Proof.
  induction parts as [|p parts IH]; intros cs r cs'; cbn [append_parts concat].
  - intros [_ ->]. lia.
  - destruct (holds_chars _ _).
    + intros H. apply IH in H. rewrite nlen_app in H |- *. lia.
    + intros [_ ->]. lia.
Qed.
Lemma fspec_len lim o cs r cs' : fargs_ok o -> fspec lim o cs r cs' -> nlen cs' <= nlen cs + fdemand o.
Proof.
  assert (DL : forall v ds, v < W64 -> numeral 10 false v ds -> nlen ds <= 20).
  { intros v ds L NU. apply (numeral_short 10 false v); auto; [lia|lia|]. eapply N.lt_le_trans; [exact L|]. now vm_compute. }
  assert (HL : forall u v ds, v < W64 -> numeral 16 u v ds -> nlen ds <= 20).
  { intros u v ds L NU. apply N.le_trans with 16; [|lia]. apply (numeral_short 16 u v); auto; lia. }
  assert (SL : forall v f, nlen (sign_text v f) <= 1).
  { intros v f. unfold sign_text. destruct (v <? 0)%Z; [|destruct f]; now vm_compute. }
  destruct o as [o|v pad|v pad upper|v pad force prefix|v pad upper force prefix]; cbn [fspec fdemand fargs_ok].
  - intros _. apply sspec_len.
  - intros [V P] (ds & NU & H). apply become_len in H. rewrite nlen_app, nlen_padded in H. pose proof (DL v ds V NU). lia.
  - intros [V P] (ds & NU & H). apply become_len in H. rewrite nlen_app, nlen_padded in H. pose proof (HL upper v ds V NU). lia.
  - intros [V P] (ds & NU & H). apply append_parts_len in H. cbn [concat] in H. rewrite !nlen_app, nlen_padded in H.
    change (nlen (@nil N)) with 0 in H. pose proof (DL _ ds (abs_lt v V) NU). specialize (SL v force). lia.
  - intros [V P] (ds & NU & H). apply append_parts_len in H. cbn [concat] in H. rewrite !nlen_app, nlen_padded in H.
    change (nlen (@nil N)) with 0 in H. pose proof (HL upper _ ds (abs_lt v V) NU). specialize (SL v force). lia.
Qed.
Theorem run_fops_ok is64 : forall ops w s pre cs post, srep w s pre cs post -> snofail w s -> Forall fargs_ok ops ->
  (nlen cs + fdemands ops + 1) * 256 < W64 ->
  exists rs w' s' cs', run_fops is64 s ops w = Ok (rs, s') w' /\ sgood w s w' s' pre cs' post /\
    fspecs (limit_of s) ops cs rs cs' /\ nlen cs' <= nlen cs + fdemands ops.
Proof.
  induction ops as [|o ops IH]; intros w s pre cs post R NF SO F.
  - exists [], w, s, cs. split; [reflexivity|]. split; [now apply sgood_refl|]. split; [constructor|cbn; lia].
  - inversion SO as [|? ? H1 H2]; subst. cbn [fdemands] in *.
    destruct (run_fop_ok is64 w s pre cs post o R NF H1) as (r & w1 & s1 & cs1 & E1 & G1 & S1); [lia|].
    pose proof (fspec_len _ _ _ _ _ H1 S1) as L1.
    destruct (IH w1 s1 pre cs1 post) as (rs & w2 & s2 & cs2 & E2 & G2 & S2 & L2); auto.
    { eapply sgood_rep; eauto. } { eapply bnofail; [exact NF|apply G1]. } { lia. }
    exists (r :: rs), w2, s2, cs2. split; [|split; [|split]].
    + cbn [run_fops]. rewrite (bind_ok _ _ _ _ _ E1), (bind_ok _ _ _ _ _ E2). reflexivity.
    + eapply sgood_trans; [exact G1|eapply brep_wf; apply R|exact G2].
    + econstructor; [exact S1|]. now rewrite (sgood_limit _ _ _ _ _ _ _ G1) in S2.
    + lia.
Qed.

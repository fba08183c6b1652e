(** Formatting a number with an allocator that may refuse any request: signs, prefixes, and the calls. *)
From Verif Require Import Base NListFacts Status Mem MemFacts VectorModel VectorSpec VectorDriver VectorRep VectorProofs VectorProofs2
  VectorRefine VectorFail VectorMore StringModel StringSpec StringDriver StringBytes StringProofs StringFinal StringFinal2 FormatModel FormatSpec
  FormatDigits FormatDriver FormatProofs FormatRun FormatFinal
  OracleProofs RefuseSpec RefuseProofs StrRefuseSpec StrRefuseProofs StrRefuseProofs2 ProgSpec ProgProofs ExhaustSpec ExhaustProofs ExhaustProofs2
  FmtRefuseSpec FmtRefuseProofs.
From Coq Require Import ZifyBool ZifyNat ZifyN.

Implicit Types (w : world) (s : str).

Lemma append_any w s cs q x : srep w s [] cs [] -> v_alloc (s_vec s) = true -> is_view w q x (blk (s_vec s)) -> (nlen cs + nlen x + 1) * 256 < W64 ->
  outcome w s (fun c => c = cs) (fun r c => r = ST_SUCCESS /\ c = cs ++ x) 1 (sappend s q w).
Proof.
  intros R A Q F.
  assert (OK : sask s cs (SAppend x) = None \/ (exists fill, orc w (tick w) = AOk fill) ->
    outcome w s (fun c => c = cs) (fun r c => r = ST_SUCCESS /\ c = cs ++ x) 1 (sappend s q w)).
  { intros AK. destruct (append_from_granted w s cs R A q x Q F AK) as (r & w2 & s' & cs' & E & G & H & T). rewrite E.
    cbn [sspec] in H. unfold become, holds_chars in H. destruct H as [-> ->].
    eapply outcome_good; [exact G|now split| |]; destruct (sask _ _ _); try lia; intros u L; [|lia].
    replace u with (tick w) by lia. destruct AK as [AK|AK]; [discriminate AK|exact AK]. }
  destruct (sask s cs (SAppend x)) as [k|] eqn:AK; [|apply OK; now left].
  destruct (orc w (tick w)) as [e|fill] eqn:O; [|apply OK; right; eauto]. clear OK.
  exists (err_status e), (with_vec s (set_cap (s_vec s) k)), (ticked w), cs.
  split; [now apply (append_from_refused w s cs R A e O q x k Q F)|]. split; [cbn; lia|]. split; [reflexivity|]. right.
  exists e. cbn [tick ticked]. replace (tick w + 1 - 1) with (tick w) by lia. split; [lia|]. split; [apply all_granted_nil|].
  split; [exact O|]. split; [reflexivity|]. split; [|reflexivity]. apply sleft_refused; auto.
  rewrite (sask_vec w s cs R A) in AK. cbn [change_of asked c_shrink c_growth] in AK.
  destruct (_ =? _); [discriminate AK|]. destruct (_ || _); [|discriminate AK].
  match type of AK with context [1 <=? ?y] => destruct (N.leb_spec 1 y); [injection AK as <-; lia|] end.
  destruct (_ <? _); [|discriminate AK]. injection AK as <-. lia.
Qed.

Lemma decu_any is64 w s cs v pad ds : srep w s [] cs [] -> v_alloc (s_vec s) = true ->
  v < W64 -> pad < 256 -> (nlen cs + pad + 20 + 1) * 256 < W64 -> numeral 10 false v ds ->
  outcome w s (fun c => c = cs) (fun r c => r = ST_SUCCESS /\ c = cs ++ padded pad ds)
    (if v_cap (s_vec s) <? nlen cs + N.max (nlen ds) pad + 1 then 1 else 0) (sappend_decu is64 s v pad w).
Proof.
  intros R A V P F NU. unfold sappend_decu. destruct (is64 || high_bits v) eqn:HB.
  - apply dec_any; auto; [unfold MAXCHARS_DEC_64; lia|]. eapply N.lt_le_trans; [exact V|]. now vm_compute.
  - apply orb_false_iff in HB. destruct HB as [_ HB]. apply (proj1 (high_bits_ok v V)) in HB. rewrite N.mod_small by exact HB.
    apply dec_any; auto; [unfold MAXCHARS_DEC_32; lia|]. eapply N.lt_le_trans; [exact HB|]. now vm_compute.
Qed.
Lemma hexu_any is64 w s cs v pad upper ds : srep w s [] cs [] -> v_alloc (s_vec s) = true ->
  v < W64 -> pad < 256 -> (nlen cs + pad + 20 + 1) * 256 < W64 -> numeral 16 upper v ds ->
  outcome w s (fun c => c = cs \/ exists junk, c = cs ++ junk /\ empty_room v pad upper junk)
    (fun r c => r = ST_SUCCESS /\ c = cs ++ padded pad ds)
    (if v_cap (s_vec s) <? nlen cs + N.max (nlen ds) pad + 1 then 2 else 0) (sappend_hexu is64 s v pad upper w).
Proof.
  intros R A V P F NU. unfold sappend_hexu, sappend_hex64.
  assert (GO : forall k, (k <= 16)%nat -> v < 16 ^ N.of_nat k -> outcome w s (fun c => c = cs \/ exists junk, c = cs ++ junk /\ empty_room v pad upper junk)
    (fun r c => r = ST_SUCCESS /\ c = cs ++ padded pad ds)
    (if v_cap (s_vec s) <? nlen cs + N.max (nlen ds) pad + 1 then 2 else 0) (sappend_hex k s v pad upper w)).
  { intros k K V'. eapply outcome_weaken; [apply (hex_any w s cs k v pad upper ds); auto| |auto|lia].
    intros c [->|(junk & -> & J1 & J2 & J3)]; [now left|right]. exists junk. split; [reflexivity|]. repeat split; auto. now exists ds. }
  pose proof (high_bits_ok v V) as HB. destruct (high_bits v).
  - rewrite orb_true_r. apply GO; [unfold MAXCHARS_HEX_64; lia|exact V].
  - assert (V32 : v < W32) by now apply HB. rewrite (N.mod_small v) by exact V32.
    rewrite orb_false_r. destruct is64; (apply GO; [unfold MAXCHARS_HEX_32; lia|exact V32]).
Qed.

(** An append that may be left out, followed by the rest. *)
Lemma part_any w s cs q x (k : str -> M (status * str)) L S n : srep w s [] cs [] -> v_alloc (s_vec s) = true ->
  (nlen cs + nlen x + 1) * 256 < W64 -> opt_view w q x (blk (s_vec s)) -> (L cs : Prop) ->
  (forall w1 s1, sgood w s w1 s1 [] (cs ++ x) [] -> outcome w1 s1 L S n (k s1 w1)) ->
  outcome w s L S (1 + n)
    ((let* (st, s1) := match q with Some q => sappend s q | None => ret (ST_SUCCESS, s) end in
      if negb (st_success st) then ret (st, s1) else k s1) w).
Proof.
  intros R A F Q LC NEXT. destruct q as [q|].
  - eapply outcome_bind with (n1 := 1) (n2 := n); [exact R| |lia| | |].
    + eapply outcome_weaken; [now apply (append_any w s cs q x)| |intros ? ? HH; exact HH|lia]. now intros c ->.
    + now intros ? ? [HH _].
    + intros e s1. now rewrite st_success_err.
    + intros w1 s1 cs1 G (_ & ->) T. sst. now apply NEXT.
  - cbn in Q. subst x. unfold bind, ret. sst. rewrite app_nil_r in NEXT.
    eapply outcome_weaken; [apply NEXT; now apply sgood_refl| | |]; auto. lia.
Qed.

Lemma signed_any w s cs sub add v force prefix px pad ds digits (J : list N -> Prop) n : srep w s [] cs [] -> v_alloc (s_vec s) = true ->
  (-9223372036854775808 <= v < 9223372036854775808)%Z -> pad < 256 ->
  (nlen cs + (1 + nlen px + pad + 20) + 1) * 256 < W64 ->
  is_view w sub [45] (blk (s_vec s)) -> is_view w add [43] (blk (s_vec s)) -> opt_view w prefix px (blk (s_vec s)) ->
  (forall w1 s1 cs1, srep w1 s1 [] cs1 [] -> v_alloc (s_vec s1) = true -> (nlen cs1 + pad + 20 + 1) * 256 < W64 ->
    outcome w1 s1 (fun c => c = cs1 \/ exists junk, c = cs1 ++ junk /\ J junk) (fun r c => r = ST_SUCCESS /\ c = cs1 ++ padded pad ds) n
      (digits s1 (Z.abs_N v) w1)) ->
  outcome w s (fun c => (c = cs \/ c = cs ++ sign_text v force \/ c = cs ++ sign_text v force ++ px) \/
      exists junk, c = cs ++ sign_text v force ++ px ++ junk /\ J junk)
    (fun r c => r = ST_SUCCESS /\ c = cs ++ sign_text v force ++ px ++ padded pad ds) (1 + (1 + n)) (sappend_signed sub add s v force prefix digits w).
Proof.
  intros R A B P F VS VA VP D. unfold sappend_signed. rewrite (abs_i64_ok v B).
  set (sg := if (v <? 0)%Z then Some sub else if force then Some add else None).
  assert (LS : nlen (sign_text v force) <= 1).
  { unfold sign_text. destruct (v <? 0)%Z; [|destruct force]; now vm_compute. }
  apply (part_any w s cs sg (sign_text v force)); auto; [lia| |].
  { unfold opt_view, sg, sign_text. destruct (v <? 0)%Z; [exact VS|]. destruct force; [exact VA|reflexivity]. }
  intros w1 s1 G1. pose proof (sgood_rep _ _ _ _ _ _ _ _ R G1) as R1.
  assert (A1 : v_alloc (s_vec s1) = true) by now rewrite (sgood_alloc _ _ _ _ _ G1).
  apply (part_any w1 s1 (cs ++ sign_text v force) prefix px); auto; [rewrite nlen_app; lia| |].
  { destruct prefix; [|exact VP]. eapply is_view_good; [exact R|exact G1|exact VP]. }
  intros w2 s2 G2. pose proof (sgood_rep _ _ _ _ _ _ _ _ R1 G2) as R2.
  eapply outcome_weaken; [apply (D w2 s2 _ R2)| | |lia].
  - now rewrite (sgood_alloc _ _ _ _ _ G2).
  - rewrite !nlen_app. lia.
  - intros c [->|(junk & -> & HJ)]; rewrite <- !app_assoc; [left; right; right; reflexivity|right; eauto].
  - intros r c [-> ->]. now rewrite <- !app_assoc.
Qed.

Lemma sgood_drop w s cs x w' s' cs' : srep w s [] cs [] -> sgood (argw w x) s w' s' [] cs' [] -> sgood w s (dropw w' (nextb w)) s' [] cs' [].
Proof. intros [R _] [G FS]. split; [|exact FS]. eapply bdropw; eauto. Qed.
Lemma with_arg_any w s cs x k (L : list N -> Prop) (S : status -> list N -> Prop) n : srep w s [] cs [] ->
  outcome (argw w x) s L S n (k (Some (mkptr (nextb w) 0)) (argw w x)) -> outcome w s L S n (with_arg x k w).
Proof.
  intros R (r & s' & w' & cs' & E & T & O & H).
  exists r, s', (dropw w' (nextb w)), cs'. split; [unfold with_arg, argw in *; rewrite E; reflexivity|]. split; [exact T|]. split; [exact O|].
  destruct H as [(G & HS & AG)|(e & T1 & AG & OF & ER & (c & SL & C) & HL)]; [left|right].
  - split; [eapply sgood_drop; eauto|]. split; [exact HS|exact AG].
  - exists e. split; [exact T1|]. split; [exact AG|]. split; [exact OF|]. split; [exact ER|]. split; [|exact HL].
    exists c. split; [eapply sgood_drop; eauto|exact C].
Qed.
Lemma with_view_any w s cs x (k : view -> M (status * str)) (L : list N -> Prop) (S : status -> list N -> Prop) n : srep w s [] cs [] ->
  (forall w1 q, srep w1 s [] cs [] -> is_view w1 q x (blk (s_vec s)) -> (forall q y, is_view w q y (blk (s_vec s)) -> is_view w1 q y (blk (s_vec s))) ->
     outcome w1 s L S n (k q w1)) ->
  outcome w s L S n (with_view x k w).
Proof.
  intros R H. unfold with_view. eapply with_arg_any; [exact R|].
  destruct (arg_view w s [] cs [] x R) as (R1 & V). apply H; auto.
  intros q y (p & A & B & (a & c & Q & E) & NB). exists p. split; [exact A|]. split; [exact B|]. split; [|exact NB].
  exists a, c. split; [|exact E]. destruct R as [BR _]. pose proof (live_lt _ _ _ (brep_wf _ _ _ _ _ BR) Q) as L0.
  unfold argw. cbn [heap]. unfold hset. destruct (N.eqb_spec (pb p) (nextb w)); [lia|exact Q].
Qed.
Lemma with_all_any w s cs prefix (k : view -> view -> option view -> M (status * str)) (L : list N -> Prop) (S : status -> list N -> Prop) n :
  srep w s [] cs [] ->
  (forall w1 sub add q, srep w1 s [] cs [] -> is_view w1 sub [45] (blk (s_vec s)) ->
     is_view w1 add [43] (blk (s_vec s)) -> opt_view w1 q (prefix_text prefix) (blk (s_vec s)) -> outcome w1 s L S n (k sub add q w1)) ->
  outcome w s L S n (with_signs (fun sub add => with_prefix prefix (fun p => k sub add p)) w).
Proof.
  intros R H. unfold with_signs. apply (with_view_any _ s cs); auto. intros w1 sub R1 VS _.
  apply (with_view_any _ s cs); auto. intros w2 add R2 VA K2. unfold with_prefix. destruct prefix as [px|].
  - apply (with_view_any _ s cs); auto.
  - apply H; auto. reflexivity.
Qed.

Lemma append_parts_all a b c cs : append_parts None [a; b; c] cs ST_SUCCESS (cs ++ a ++ b ++ c).
Proof. cbn [append_parts holds_chars]. rewrite <- !app_assoc. now split. Qed.
Theorem run_fop_any is64 w s cs o : srep w s [] cs [] -> v_alloc (s_vec s) = true -> formats_number o -> fargs_ok o ->
  (nlen cs + fdemand o + 1) * 256 < W64 ->
  outcome w s (refused_text o cs) (fspec None o cs) (max_requests o) (run_fop is64 s o w).
Proof.
  intros R A NB FA F. destruct o as [o|v pad|v pad upper|v pad force prefix|v pad upper force prefix];
    cbn [run_fop fdemand fargs_ok formats_number max_requests] in *.
  - destruct NB.
  - destruct (numeral_exists 10 false v) as (ds & NU); [lia|].
    eapply outcome_weaken; [apply (decu_any is64 w s cs v pad ds R A); try tauto; lia|now intros ? ->| |destruct (_ <? _); lia].
    intros r c [-> ->]. exists ds. split; [exact NU|]. now split.
  - destruct (numeral_exists 16 upper v) as (ds & NU); [lia|].
    eapply outcome_weaken; [apply (hexu_any is64 w s cs v pad upper ds R A); try tauto; lia|now intros ? HH| |destruct (_ <? _); lia].
    intros r c [-> ->]. exists ds. split; [exact NU|]. now split.
  - destruct (numeral_exists 10 false (Z.abs_N v)) as (ds & NU); [lia|].
    apply (with_all_any w s cs); auto. intros w1 sub add q R1 VS VA VP.
    eapply outcome_weaken; [apply (signed_any w1 s cs sub add v force q (prefix_text prefix) pad ds
      (fun s v => sappend_decu is64 s v pad) (fun _ => False) 1 R1 A); try tauto| | |lia].
    + intros w2 s2 cs2 R2 A2 F2. eapply outcome_weaken; [apply (decu_any is64 w2 s2 cs2 (Z.abs_N v) pad ds R2 A2); try tauto; now apply abs_lt| |auto|destruct (_ <? _); lia].
      now intros ? ->; left.
    + intros c [H|(junk & _ & [])]. exact H.
    + intros r c [-> ->]. exists ds. split; [exact NU|]. apply append_parts_all.
  - destruct (numeral_exists 16 upper (Z.abs_N v)) as (ds & NU); [lia|].
    apply (with_all_any w s cs); auto. intros w1 sub add q R1 VS VA VP.
    eapply outcome_weaken; [apply (signed_any w1 s cs sub add v force q (prefix_text prefix) pad ds
      (fun s v => sappend_hexu is64 s v pad upper) (empty_room (Z.abs_N v) pad upper) 2 R1 A); try tauto| | |lia].
    + intros w2 s2 cs2 R2 A2 F2. eapply outcome_weaken; [apply (hexu_any is64 w2 s2 cs2 (Z.abs_N v) pad upper ds R2 A2); try tauto; now apply abs_lt| | |destruct (_ <? _); lia]; auto.
    + now intros c H.
    + intros r c [-> ->]. exists ds. split; [exact NU|]. apply append_parts_all.
Qed.

(** ** Strings that a history has reached *)
Lemma freached_own is64 w s cs orc' : freached is64 None w s cs -> srep (with_oracle w orc') s [] cs [] /\ v_alloc (s_vec s) = true.
Proof.
  intros RE. destruct (freached_rep _ _ _ _ _ RE) as (pre & post & [[R B] FL] & NF & L).
  assert (A : v_alloc (s_vec s) = true) by (unfold limit_of in L; destruct (v_alloc (s_vec s)); [reflexivity|discriminate L]).
  pose proof (r_alloc _ _ _ _ _ R) as RA. rewrite A in RA. destruct RA as (-> & -> & _). split; [|exact A]. split; [|exact FL]. split; [|exact B].
  destruct R. split; auto. destruct r_heap as (sl & SL & HH). exists sl. split; [|exact HH]. split; [now apply spare_le in SL|]. intros _. now apply SL.
Qed.
Lemma sleft_rep w s cs w' s' cs' : srep w s [] cs [] -> sleft w s w' s' cs' ->
  exists c, srep w' (with_vec s' (set_cap (s_vec s') c)) [] cs' [] /\ 1 <= v_cap (s_vec s').
Proof. intros R (c & G & C). exists c. split; [eapply sgood_rep; eauto|exact C]. Qed.

Lemma number_any is64 w s cs o orc' : freached is64 None w s cs -> formats_number o -> fargs_ok o -> sroom (nlen cs + fdemand o) ->
  exists r s' w' cs', run_fop is64 s o (with_oracle w orc') = Ok (r, s') w' /\ sshows w' s' cs' /\
    tick w <= tick w' <= tick w + max_requests o /\
    ((fspec None o cs r cs' /\ all_granted orc' (tick w) (tick w')) \/
     (exists e, tick w < tick w' /\ all_granted orc' (tick w) (tick w' - 1) /\ orc' (tick w' - 1) = AFail e /\
        r = err_status e /\ refused_text o cs cs')).
Proof.
  intros RE NB FA F. destruct (freached_own _ _ _ _ orc' RE) as [R A].
  destruct (run_fop_any is64 _ s cs o R A NB FA F) as (r & s' & w' & cs' & E & T & O & H).
  exists r, s', w', cs'. split; [exact E|]. destruct H as [(G & FS & AG)|(e & T1 & AG & OF & ER & SL & TX)].
  - split; [eapply srep_shows, sgood_rep; eauto|]. split; [exact T|]. left. split; [exact FS|exact AG].
  - split; [|split; [exact T|]; right; exists e; auto].
    destruct (sleft_rep _ _ _ _ _ _ R SL) as (c & RL & _). exact (srep_shows _ _ _ _ _ RL).
Qed.

(** Destroy. *)
Lemma frame_back (w w' : world) (v v' : vector N) (h : N -> option (list N)) : wfw w -> blk v < nextb w -> frame w w' v v' ->
  h (blk v') = None -> (forall b, b <> blk v' -> h b = heap w' b) -> forall b, h b = if b =? blk v then None else heap w b.
Proof.
  intros W LT FR H1 H2 b. destruct (N.eq_dec (blk v') (blk v)) as [Q|Q].
  - destruct (N.eqb_spec b (blk v)) as [->|NB]; [now rewrite <- Q|]. rewrite H2 by congruence. apply (fr_heap _ _ _ _ FR); congruence.
  - destruct (fr_old _ _ _ _ FR Q) as (O1 & O2 & O3). destruct (N.eqb_spec b (blk v)) as [->|NB]; [rewrite H2 by congruence; exact O2|].
    destruct (N.eq_dec b (blk v')) as [->|NB']; [rewrite H1; symmetry; apply W; exact O3|].
    rewrite H2 by exact NB'. apply (fr_heap _ _ _ _ FR); auto.
Qed.
Lemma sdestroy_good w s cs : srep w s [] cs [] -> v_alloc (s_vec s) = true ->
  exists s' w', sdestroy s w = Ok (ST_SUCCESS, s') w' /\ heap w' (blk (s_vec s)) = None /\ forall b, b <> blk (s_vec s) -> heap w' b = heap w b.
Proof.
  intros [[R _] FL] A. rewrite A in FL. destruct (destroy_ok w (s_vec s) [] (cells (cs ++ [0])) [] R) as (w' & E & _ & D1 & _ & D2).
  unfold sdestroy. rewrite FL. change (N.land 0 HAS_FIXED_CAPACITY =? 0) with true. cbn [negb]. rewrite (bind_ok _ _ _ _ _ E). eauto 10.
Qed.
Lemma sdestroy_left w s c cs : srep w (with_vec s (set_cap (s_vec s) c)) [] cs [] -> 1 <= v_cap (s_vec s) -> v_alloc (s_vec s) = true -> 1 <= tick w ->
  exists s' w', sdestroy s w = Ok (ST_SUCCESS, s') w' /\ heap w' (blk (s_vec s)) = None /\ forall b, b <> blk (s_vec s) -> heap w' b = heap w b.
Proof.
  intros [[R _] FL] C A T. cbn [s_vec with_vec set_cap v_alloc s_flags] in R, FL. rewrite A in FL.
  destruct (wrong_cap_destroy w (s_vec s) c (cells (cs ++ [0])) R) as (w' & v' & E & D & H1 & H2); [lia|exact C|exact A|].
  unfold sdestroy. rewrite FL. change (N.land 0 HAS_FIXED_CAPACITY =? 0) with true. cbn [negb]. rewrite (bind_ok _ _ _ _ _ E). eauto 10.
Qed.
Lemma number_destroyed is64 w s cs o orc' r s' w' : freached is64 None w s cs -> formats_number o -> fargs_ok o -> sroom (nlen cs + fdemand o) ->
  run_fop is64 s o (with_oracle w orc') = Ok (r, s') w' ->
  exists p s2 w2, snd (sget_data s) = Some p /\ sdestroy s' w' = Ok (ST_SUCCESS, s2) w2 /\
    forall b, heap w2 b = if b =? pb p then None else heap w b.
Proof.
  intros RE NB FA F E. destruct (freached_own _ _ _ _ orc' RE) as [R A].
  destruct (run_fop_any is64 _ s cs o R A NB FA F) as (r0 & s0 & w0 & cs' & E0 & T & O & H).
  rewrite E in E0. injection E0 as <- <- <-. pose proof R as [[V _] _].
  exists (mkptr (blk (s_vec s)) 0).
  assert (D : exists s2 w2, sdestroy s' w' = Ok (ST_SUCCESS, s2) w2 /\ heap w2 (blk (s_vec s')) = None /\ (forall b, b <> blk (s_vec s') -> heap w2 b = heap w' b) /\
    frame (with_oracle w orc') w' (s_vec s) (s_vec s')).
  { destruct H as [(G & FS & AG)|(e & T1 & AG & OF & ER & (c & SL & C) & TX)].
    - destruct (sdestroy_good w' s' cs' (sgood_rep _ _ _ _ _ _ _ _ R G)) as (s2 & w2 & E2 & H1 & H2); [now rewrite (sgood_alloc _ _ _ _ _ G)|].
      exists s2, w2. split; [exact E2|]. split; [exact H1|]. split; [exact H2|]. apply G.
    - pose proof (sgood_alloc _ _ _ _ _ SL) as AL. cbn [s_vec with_vec set_cap v_alloc] in AL.
      destruct (sdestroy_left w' s' c cs' (sgood_rep _ _ _ _ _ _ _ _ R SL) C) as (s2 & w2 & E2 & H1 & H2); [congruence|lia|].
      exists s2, w2. split; [exact E2|]. split; [exact H1|]. split; [exact H2|]. eapply frame_cap. apply SL. }
  destruct D as (s2 & w2 & E2 & H1 & H2 & FR). exists s2, w2. split; [|split; [exact E2|]].
  - unfold sget_data, sdata. cbn [snd]. rewrite (r_data _ _ _ _ _ V). reflexivity.
  - change (heap w) with (heap (with_oracle w orc')). eapply frame_back; eauto; [apply V|].
    destruct (r_heap _ _ _ _ _ V) as (sl & _ & HH). eapply live_lt; [apply V|exact HH].
Qed.

(** A number that fits into the capacity needs no memory. *)
Lemma fits_quiet is64 w s cs o v pad ds orc' : freached is64 None w s cs -> fargs_ok o -> sroom (nlen cs + fdemand o) ->
  o = FDecU v pad /\ numeral 10 false v ds \/ (exists upper, o = FHexU v pad upper /\ numeral 16 upper v ds) ->
  nlen (cs ++ padded pad ds) + 1 <= v_cap (s_vec s) ->
  exists s' w', run_fop is64 s o (with_oracle w orc') = Ok (ST_SUCCESS, s') w' /\ tick w' = tick w /\ sshows w' s' (cs ++ padded pad ds).
Proof.
  intros RE FA F K C. destruct (freached_own _ _ _ _ orc' RE) as [R A]. rewrite nlen_app, nlen_padded in C.
  assert (FIN : forall x L, outcome (with_oracle w orc') s L (fun r c => r = ST_SUCCESS /\ c = cs ++ padded pad ds)
    0 x -> exists s' w', x = Ok (ST_SUCCESS, s') w' /\ tick w' = tick w /\ sshows w' s' (cs ++ padded pad ds)).
  { intros x L (r & s' & w' & c & -> & T & O & [(G & [-> ->] & AG)|(e & T1 & _)]); [|lia].
    exists s', w'. split; [reflexivity|]. split; [cbn [tick with_oracle] in T; lia|]. eapply srep_shows, sgood_rep; eauto. }
  unfold sroom in F. destruct K as [[-> NU]|(upper & -> & NU)]; cbn [run_fop fargs_ok fdemand] in *.
  - pose proof (decu_any is64 _ s cs v pad ds R A (proj1 FA) (proj2 FA) ltac:(lia) NU) as H.
    destruct (N.ltb_spec (v_cap (s_vec s)) (nlen cs + N.max (nlen ds) pad + 1)); [lia|]. eapply FIN. exact H.
  - pose proof (hexu_any is64 _ s cs v pad upper ds R A (proj1 FA) (proj2 FA) ltac:(lia) NU) as H.
    destruct (N.ltb_spec (v_cap (s_vec s)) (nlen cs + N.max (nlen ds) pad + 1)); [lia|]. eapply FIN. exact H.
Qed.

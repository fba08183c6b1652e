(** Argument parser: consequences of the main theorem. *)
From Verif Require Import Base NListFacts Status Mem MemFacts VectorModel VectorSpec VectorRep VectorDriver VectorProofs VectorProofs2
  VectorProofs3 VectorRefine StringModel StringDriver ArgModel ArgSpec ArgDriver ArgText ArgVec ArgProofs ArgFinal.
From Coq Require Import ZifyBool ZifyNat ZifyN.
Implicit Types (w : world acell) (v : avec).

Lemma any_release tw cfg prog ts ds w : config_is tw cfg prog ts ds -> names_ok ds -> ac_min cfg <= ac_max cfg -> world_ok w -> arg_room ts ->
  exists es stop r w', scan ds actual true ts es stop /\ argparse_ex tw cfg true w = Ok r w' /\
    ((exists o, judged ds (ac_min cfg) (ac_max cfg) es stop o /\ delivered tw w w' r o) \/ out_of_memory w r w').
Proof.
  intros C N M W R. destruct (argparse_any tw cfg prog ts ds w C N M W R) as (es & stop & r & w' & S & E & X).
  exists es, stop, r, w'. split; [exact S|]. split; [exact E|]. destruct X as [(o & J & D & _)|(X & _)]; [left; now exists o|now right].
Qed.
Lemma parse_flat tw cfg prog ts ds w : parse_args tw cfg prog ts ds w ->
  exists es stop o r w', scan ds actual true ts es stop /\ judged ds (ac_min cfg) (ac_max cfg) es stop o /\
    argparse_ex tw cfg true w = Ok r w' /\ delivered tw w w' r o /\ flat es r w' o.
Proof.
  intros (C & N & M & W & A & R). destruct (argparse_any tw cfg prog ts ds w C N M W R) as (es & stop & r & w' & S & E & X).
  destruct X as [(o & J & D & F & _)|((st & t & v & O & _) & _)].
  - exists es, stop, o, r, w'. auto.
  - destruct (A t) as (fill & A'). congruence.
Qed.
Lemma parse_ok tw cfg prog ts ds w : parse_args tw cfg prog ts ds w ->
  exists es stop o r w', scan ds actual true ts es stop /\ judged ds (ac_min cfg) (ac_max cfg) es stop o /\
    argparse_ex tw cfg true w = Ok r w' /\ delivered tw w w' r o.
Proof. intros P. destruct (parse_flat _ _ _ _ _ _ P) as (es & stop & o & r & w' & H). exists es, stop, o, r, w'. tauto. Qed.

Lemma scan_stop ds bf a ts es stop : scan ds bf a ts es stop -> forall st t, stop = Some (st, t) -> st = ST_ARG_MISSES_VALUE \/ st = ST_ARG_NOT_UNDERSTOOD.
Proof. induction 1; intros st' t' E; try discriminate E; eauto; injection E as <- <-; auto. Qed.
Lemma judged_accepts ds bf ts lo hi es stop o : scan ds bf true ts es stop -> judged ds lo hi es stop o ->
  (exists es', accepts ds bf lo hi ts es' /\ o = Accept es') \/
  (exists st tok, o = Reject st tok /\ st <> ST_SUCCESS /\ forall es', ~ accepts ds bf lo hi ts es').
Proof.
  intros S J. assert (D : forall es', accepts ds bf lo hi ts es' -> es' = es /\ stop = None).
  { intros es' (S' & _). destruct (scan_det _ _ _ _ _ _ S _ _ S') as [-> ->]. auto. }
  destruct J as [(L & t & _ & ->)|[(L & st & t & E & ->)|[(L & _ & L' & ->)|[(L & _ & name & M & ->)|(L & E & R & ->)]]]].
  - right. eexists _, _. split; [reflexivity|]. split; [discriminate|]. intros es' A. destruct (D _ A) as [-> _]. destruct A as (_ & X & _). lia.
  - right. eexists _, _. split; [reflexivity|]. split.
    + destruct (scan_stop _ _ _ _ _ _ S _ _ E) as [-> | ->]; discriminate.
    + intros es' A. destruct (D _ A) as [_ X]. congruence.
  - right. eexists _, _. split; [reflexivity|]. split; [discriminate|]. intros es' A. destruct (D _ A) as [-> _]. destruct A as (_ & X & _). lia.
  - right. eexists _, _. split; [reflexivity|]. split; [discriminate|]. intros es' A. destruct (D _ A) as [-> _]. destruct A as (_ & _ & X).
    destruct M as (d & x & ND & RQ & _ & NO & _). exact (NO (X _ _ ND RQ)).
  - left. exists es. split; [|reflexivity]. subst stop. now split.
Qed.
Lemma parse_language tw cfg prog ts ds w : parse_args tw cfg prog ts ds w ->
  exists st ov tok w', argparse_ex tw cfg true w = Ok (st, ov, tok) w' /\
    (st = ST_SUCCESS <-> exists es, accepts ds actual (ac_min cfg) (ac_max cfg) ts es) /\
    (forall es, accepts ds actual (ac_min cfg) (ac_max cfg) ts es -> delivered tw w w' (st, ov, tok) (Accept es)).
Proof.
  intros P. destruct (parse_ok _ _ _ _ _ _ P) as (es & stop & o & ((st & ov) & tok) & w' & S & J & E & D).
  exists st, ov, tok, w'. split; [exact E|]. destruct (judged_accepts _ _ _ _ _ _ _ _ S J) as [(es' & A & ->)|(st' & t' & -> & NS & NA)].
  - pose proof D as (-> & _). split.
    + split; [now exists es'|reflexivity].
    + intros es2 (A2 & _). destruct A as (A & _). destruct (scan_det _ _ _ _ _ _ A _ _ A2) as [<- _]. exact D.
  - destruct D as (-> & _). split.
    + split; [congruence|]. intros (es' & A). destruct (NA _ A).
    + intros es' A. destruct (NA _ A).
Qed.
Lemma accepts_agree ds lo hi ts es : Forall (fun t => ~ flags_only ds t) ts -> accepts ds actual lo hi ts es <-> accepts ds documented lo hi ts es.
Proof. intros F. unfold accepts. split; intros (S & R); (split; [|exact R]); eapply scan_agree; eauto. Qed.
Lemma parse_documented tw cfg prog ts ds w : parse_args tw cfg prog ts ds w -> Forall (fun t => ~ flags_only ds t) ts ->
  exists st ov tok w', argparse_ex tw cfg true w = Ok (st, ov, tok) w' /\
    (st = ST_SUCCESS <-> exists es, accepts ds documented (ac_min cfg) (ac_max cfg) ts es) /\
    (forall es, accepts ds documented (ac_min cfg) (ac_max cfg) ts es -> delivered tw w w' (st, ov, tok) (Accept es)).
Proof.
  intros P F. destruct (parse_language _ _ _ _ _ _ P) as (st & ov & tok & w' & E & I & D). exists st, ov, tok, w'.
  split; [exact E|]. split.
  - rewrite I. split; intros (es & A); exists es; now apply (accepts_agree _ _ _ _ _ F).
  - intros es A. apply D. now apply (accepts_agree _ _ _ _ _ F).
Qed.
Lemma grammar_function ds behind a ts : exists! x : list entry * option (status * token), scan ds behind a ts (fst x) (snd x).
Proof.
  destruct (scan_total ds behind ts a) as (es & stop & S). exists (es, stop). split; [exact S|]. intros (es' & stop') S'.
  destruct (scan_det _ _ _ _ _ _ S _ _ S') as [E1 E2]. cbn in E1, E2. now rewrite E1, E2.
Qed.

(** ** Memory *)
Lemma judged_error ds ts lo hi es stop st tok : scan ds actual true ts es stop -> judged ds lo hi es stop (Reject st tok) -> In st grammar_errors.
Proof.
  intros S J. unfold grammar_errors.
  destruct J as [(L & t & _ & E)|[(L & st' & t & E' & E)|[(L & _ & L' & E)|[(L & _ & name & M & E)|(L & _ & R & E)]]]]; try discriminate E; injection E as -> ->.
  - right; right; now left.
  - destruct (scan_stop _ _ _ _ _ _ S _ _ E') as [-> | ->]; [right; now left|now left].
  - do 3 right; now left.
  - do 4 right; now left.
Qed.
Lemma other_errors tw cfg prog ts ds w st ov tok w' : config_is tw cfg prog ts ds -> names_ok ds -> ac_min cfg <= ac_max cfg -> world_ok w -> arg_room ts ->
  argparse_ex tw cfg true w = Ok (st, ov, tok) w' -> st <> ST_SUCCESS ->
  In st grammar_errors /\ (forall k, heap w' k = heap w k) \/ out_of_memory w (st, ov, tok) w'.
Proof.
  intros C N M W R E NS. destruct (any_release tw cfg prog ts ds w C N M W R) as (es & stop & r & w2 & S & E2 & X).
  rewrite E in E2. injection E2 as <- <-. destruct X as [(o & J & D)|X]; [|now right]. left. destruct o as [es'|st' tok'].
  - destruct D as (D & _). contradiction.
  - destruct D as (-> & _ & H). split; [eapply judged_error; eauto|exact H].
Qed.
Lemma later_refusal tw cfg prog ts ds w fill st ov tok w' : config_is tw cfg prog ts ds -> names_ok ds -> ac_min cfg <= ac_max cfg -> world_ok w -> arg_room ts ->
  orc w (tick w) = AOk fill -> argparse_ex tw cfg true w = Ok (st, ov, tok) w' -> st <> ST_SUCCESS -> ~ In st grammar_errors ->
  exists v b v2 w2, ov = Some v /\ v_data v = Some (mkptr b 0) /\ heap w b = None /\ heap w' b <> None /\
    vdestroy v w' = Ok (ST_SUCCESS, v2) w2 /\ forall k, heap w2 k = heap w k.
Proof.
  intros C N M W R O E NS NG. destruct (other_errors _ _ _ _ _ _ _ _ _ _ C N M W R E NS) as [[I _]|X]; [contradiction|].
  destruct X as (e & t & v & OT & ER & [(_ & -> & _)|(_ & (b & DB & NB & HB) & v2 & w2 & ED & HD)]); [congruence|].
  injection ER as -> -> ->. exists v, b, v2, w2. split; [reflexivity|]. split; [exact DB|]. split; [now apply W|auto].
Qed.
Lemma first_refusal tw cfg prog ts ds w e : config_is tw cfg prog ts ds -> names_ok ds -> ac_min cfg <= ac_max cfg -> orc w (tick w) = AFail e ->
  exists v w', argparse_ex tw cfg true w = Ok (err_status e, Some v, None) w' /\ (forall k, heap w' k = heap w k) /\ checked w' = checked w /\
    (checked w = true -> vdestroy v w' = Fault AssertFailed).
Proof.
  intros (FT & FD) NO MM O. eexists _, _. split; [|split; [|split]].
  - unfold argparse_ex. destruct (N.ltb_spec (ac_max cfg) (ac_min cfg)); [lia|].
    rewrite (bind_ok _ _ _ _ _ (check_defs_ok tw w _ _ FD NO)). cbn [negb].
    unfold vinit_ex, VECTOR_MIN_CAPACITY. cbn [negb orb]. change (ARG_SIZE =? 0) with false. change (VECTOR_DEFAULT_GROWTH <? 1) with false. cbn [orb].
    unfold bind at 1 2. unfold alloc. cbn [v_esz v_cap]. unfold bind. change (ARG_SIZE =? 0) with false. cbn [orb].
    destruct (N.eqb_spec (N.max 1 (argc cfg)) 0); [lia|]. cbn [andb]. rewrite O. unfold ret. rewrite st_success_err. cbn [negb]. reflexivity.
  - reflexivity.
  - reflexivity.
  - intros CK. unfold vdestroy, assert_valid, bind, assert. cbn. now rewrite CK.
Qed.

(** ** Bad configurations *)
Lemma bad_bounds tw cfg allocator w : ac_max cfg < ac_min cfg -> argparse_ex tw cfg allocator w = Ok (ST_INVALID_ARGUMENT, None, None) w.
Proof. intros L. unfold argparse_ex. destruct (N.ltb_spec (ac_max cfg) (ac_min cfg)); [reflexivity|lia]. Qed.
Lemma bad_name tw cfg prog ts ds allocator w : config_is tw cfg prog ts ds -> Exists (fun x : sdef => ~ name_ok (sd_name x)) ds ->
  argparse_ex tw cfg allocator w = Ok (ST_INVALID_ARGUMENT, None, None) w.
Proof.
  intros (_ & FD) EX. unfold argparse_ex. destruct (ac_max cfg <? ac_min cfg); [reflexivity|].
  now rewrite (bind_ok _ _ _ _ _ (check_defs_bad tw w _ _ FD EX)).
Qed.
Lemma no_allocator tw cfg prog ts ds w : config_is tw cfg prog ts ds -> names_ok ds ->
  argparse_ex tw cfg false w = Ok (ST_INVALID_ARGUMENT, None, None) w.
Proof.
  intros (_ & FD) EX. unfold argparse_ex. destruct (ac_max cfg <? ac_min cfg); [reflexivity|].
  now rewrite (bind_ok _ _ _ _ _ (check_defs_ok tw w _ _ FD EX)).
Qed.
Lemma bad_config tw cfg prog ts ds allocator w : config_is tw cfg prog ts ds ->
  ac_max cfg < ac_min cfg \/ ~ names_ok ds \/ allocator = false ->
  argparse_ex tw cfg allocator w = Ok (ST_INVALID_ARGUMENT, None, None) w.
Proof.
  intros C H.
  assert (DEC : names_ok ds \/ Exists (fun x : sdef => ~ name_ok (sd_name x)) ds).
  { assert (D : forall x, name_ok x \/ ~ name_ok x).
    { intros [|c0 [|c1 x]].
      - right. intros [(c & E)|(y & E)]; discriminate E.
      - right. intros [(c & E)|(y & E)]; discriminate E.
      - destruct (N.eq_dec c0 dash) as [->|NE]; [|right; intros [(c & E)|(y & E)]; injection E as E _; congruence].
        destruct x as [|c2 x]; [left; left; now exists c1|].
        destruct (N.eq_dec c1 dash) as [->|NE]; [left; right; now exists (c2 :: x)|].
        right. intros [(c & E)|(y & E)]; [discriminate E|]. injection E as E _. congruence. }
    clear C H. induction ds as [|x ds IH]; [left; constructor|]. destruct (D (sd_name x)); [|right; now constructor].
    destruct IH; [left; now constructor|right; now constructor 2]. }
  destruct H as [H|[H|H]].
  - now apply bad_bounds.
  - destruct DEC as [D|D]; [contradiction|]. eapply bad_name; eauto.
  - subst allocator. destruct DEC as [D|D]; [eapply no_allocator; eauto|eapply bad_name; eauto].
Qed.

(** ** Clusters *)
Lemma clusters_unnamed tw cfg prog ds cs fs w : parse_args tw cfg prog [dash :: cs] ds w -> short (dash :: cs) -> flags ds cs fs ->
  exists r w', argparse_ex tw cfg true w = Ok r w' /\
    (ac_max cfg = 0 -> delivered tw w w' r (Reject ST_TOO_MANY_ARGS (Some (dash :: cs)))) /\
    (ac_min cfg <= 1 <= ac_max cfg -> required_present ds fs -> delivered tw w w' r (Accept (fs ++ [unnamed (dash :: cs)]))).
Proof.
  intros P SH F. destruct (parse_ok _ _ _ _ _ _ P) as (es & stop & o & r & w' & S & J & E & D). exists r, w'. split; [exact E|].
  assert (S0 : scan ds actual true [dash :: cs] (fs ++ [unnamed (dash :: cs)]) None).
  { pose proof (scan_flags ds actual (dash :: cs) cs fs [] [] None SH eq_refl F (scan_end _ _ _)) as X. now rewrite app_nil_r in X. }
  destruct (scan_det _ _ _ _ _ _ S _ _ S0) as [-> ->].
  assert (U : unnamed_of (fs ++ [unnamed (dash :: cs)]) = [dash :: cs]) by (rewrite unnamed_app, (flags_unnamed _ _ _ F); reflexivity).
  unfold judged in J. rewrite U in J. change (nlen [dash :: cs]) with 1 in J. split.
  - intros Z. rewrite Z in J. destruct J as [(_ & t & X & ->)|[(L & _)|[(L & _)|[(L & _)|(L & _)]]]]; try lia. injection X as <-. exact D.
  - intros L RQ. destruct J as [(L' & _)|[(_ & st & t & X & _)|[(_ & _ & L' & _)|[(_ & _ & name & M & _)|(_ & _ & _ & ->)]]]]; try lia; try discriminate X.
    + exfalso. destruct M as (d & x & ND & RX & _ & NO & _). apply NO. destruct (RQ d x ND RX) as (e & I & ED). exists e. split; [|exact ED].
      apply in_or_app. now left.
    + exact D.
Qed.

(** ** Bounds and required options *)
Lemma success_bounds tw cfg prog ts ds w : parse_args tw cfg prog ts ds w ->
  forall ov tok w', argparse_ex tw cfg true w = Ok (ST_SUCCESS, ov, tok) w' ->
  exists es v, ov = Some v /\ ashows tw w' v es /\ ac_min cfg <= nlen (unnamed_of es) <= ac_max cfg /\ required_present ds es.
Proof.
  intros P ov tok w' E. destruct (parse_ok _ _ _ _ _ _ P) as (es & stop & o & r & w2 & S & J & E2 & D). rewrite E in E2. injection E2 as <- <-.
  destruct (judged_accepts _ _ _ _ _ _ _ _ S J) as [(es' & (_ & A & R) & ->)|(st' & t' & -> & NS & _)].
  - destruct D as (_ & _ & v & -> & SH & _). exists es', v. auto.
  - destruct D as (X & _). congruence.
Qed.
Lemma matching_error tw cfg prog ts ds w es : parse_args tw cfg prog ts ds w -> scan ds actual true ts es None ->
  exists st ov tok w', argparse_ex tw cfg true w = Ok (st, ov, tok) w' /\
    let n := nlen (unnamed_of es) in
    (n < ac_min cfg -> st = ST_TOO_FEW_ARGS) /\
    (ac_max cfg < n -> st = ST_TOO_MANY_ARGS /\ exists t, nnth (ac_max cfg) (unnamed_of es) = Some t /\ etok_is tw tok (Some t)) /\
    (forall name, ac_min cfg <= n <= ac_max cfg -> first_missing ds es name -> st = ST_REQUIRED_ARG_MISSING /\ etok_is tw tok (Some name)) /\
    (ac_min cfg <= n <= ac_max cfg -> required_present ds es -> st = ST_SUCCESS).
Proof.
  intros P S0. destruct (parse_ok _ _ _ _ _ _ P) as (es' & stop & o & ((st & ov) & tok) & w' & S & J & E & D).
  destruct (scan_det _ _ _ _ _ _ S _ _ S0) as [-> ->]. exists st, ov, tok, w'. split; [exact E|].
  assert (MM : ac_min cfg <= ac_max cfg) by apply P.
  assert (ND : forall name, first_missing ds es name -> required_present ds es -> False).
  { intros name (d & x & N & RX & _ & NO & _) R. exact (NO (R _ _ N RX)). }
  destruct J as [(L & t & NT & ->)|[(L & st' & t & X & _)|[(L & _ & L' & ->)|[(L & _ & name & M & ->)|(L & _ & R & ->)]]]]; try discriminate X;
    destruct D as (-> & D2 & _); split; try lia; split; try lia; split; intros; try lia; auto.
  - now exists t.
  - split; [reflexivity|]. destruct M as (d & x & N & RX & NA & NO & BE).
    match goal with H : first_missing _ _ ?n |- _ => destruct H as (d' & x' & N' & RX' & NA' & NO' & BE') end.
    destruct (N.lt_trichotomy d d') as [LT|[EQ|LT]].
    + destruct (NO (BE' _ _ LT N RX)).
    + subst d'. rewrite N in N'. injection N' as <-. rewrite NA in NA'. subst. exact D2.
    + destruct (NO' (BE _ _ LT N' RX')).
Qed.
Lemma flags_named ds cs fs e d : flags ds cs fs -> In e fs -> e_def e = Some d -> exists name b, named ds name d b.
Proof.
  induction 1 as [|c k cs fs NM _ IH]; intros I E; [destruct I|]. destruct I as [<-|I]; [|now apply IH].
  injection E as <-. exists [dash; c], true. exact NM.
Qed.
Lemma scan_named ds a ts es stop : scan ds actual a ts es stop -> forall e d, In e es -> e_def e = Some d -> exists name b, named ds name d b.
Proof.
  induction 1; intros e d' I E; repeat (rewrite in_app_iff in I || cbn [In actual] in I);
    repeat match goal with H : _ \/ _ |- _ => destruct H | H : False |- _ => destruct H end; subst;
    try discriminate E; eauto using flags_named; injection E as <-; eauto.
Qed.
Lemma duplicate_never tw cfg prog ts ds w i j x y : parse_args tw cfg prog ts ds w ->
  i < j -> nnth i ds = Some x -> nnth j ds = Some y -> sd_name x = sd_name y -> sd_required y = true ->
  exists st ov tok w', argparse_ex tw cfg true w = Ok (st, ov, tok) w' /\ st <> ST_SUCCESS.
Proof.
  intros P L NI NJ SAME RQ. destruct (parse_language _ _ _ _ _ _ P) as (st & ov & tok & w' & E & I & _). exists st, ov, tok, w'. split; [exact E|].
  intros X. apply I in X as (es & S & _ & R). destruct (R j y NJ RQ) as (e & IN & ED).
  destruct (scan_named _ _ _ _ _ S _ _ IN ED) as (name & b & z & NZ & NZN & _ & BE). rewrite NJ in NZ. injection NZ as <-.
  apply (BE i x L NI). congruence.
Qed.

(** ** The views of the values *)
Lemma value_view tw cfg prog ts ds w : parse_args tw cfg prog ts ds w ->
  forall v tok w' i d (q : view) w2 k x, argparse_ex tw cfg true w = Ok (ST_SUCCESS, Some v, tok) w' ->
  i < snd (vget_size v) -> get_arg v i w' = Ok (d, true, q) w2 -> views tw q x -> k < nlen x ->
  sget_char q k tw = if checked tw then Fault AssertFailed else Ok (ST_SUCCESS, nnth 0 x) tw.
Proof.
  intros P v tok w' i d q w2 k x E LI EG (SZ & LX & RD) LK. destruct (parse_flat _ _ _ _ _ _ P) as (es & stop & o & r & w3 & S & J & E2 & D & FL).
  rewrite E in E2. injection E2 as <- <-.
  destruct (judged_accepts _ _ _ _ _ _ _ _ S J) as [(es' & (S' & _) & ->)|(st' & t' & -> & NS & _)]; [|destruct D as (X & _); congruence].
  destruct (scan_det _ _ _ _ _ _ S _ _ S') as [-> ->]. destruct D as (_ & _ & v2 & EV & (GS & _) & _). injection EV as <-.
  rewrite GS in LI. pose proof (FL v i d true q w2 eq_refl LI EG) as Z. unfold sget_char. rewrite SZ. rewrite wadd_small by lia.
  destruct (N.leb_spec (nlen x + 1) (k + 1)); [lia|]. unfold vget_pointer. unfold ssize in SZ. rewrite SZ.
  destruct (N.leb_spec (nlen x + 1) k); [lia|]. unfold assert_valid, assert, bind. rewrite Z. change (negb (0 =? 0)) with false. cbn iota beta.
  destruct (checked tw) eqn:CK; [reflexivity|].
  assert (NN : nonnull (v_data (s_vec q)) = true).
  { unfold sdata in RD. destruct (v_data (s_vec q)); [reflexivity|]. unfold mread in RD. destruct (nlen x + 1); discriminate RD. }
  rewrite NN. unfold ret. cbn iota beta. change (negb (st_success ST_SUCCESS)) with false. cbn iota.
  unfold offset. rewrite Z. unfold wmul. rewrite N.mul_0_r.
  change (0 mod W64) with 0. unfold sdata in RD. destruct (v_data (s_vec q)) as [[b o]|]; [|discriminate RD].
  unfold mread1, bind, mread, padd in *. cbn [pb po] in *. rewrite N.add_0_r.
  destruct (heap tw b) as [buf|]; [|discriminate RD]. destruct (N.leb_spec (o + (nlen x + 1)) (nlen buf)); [|discriminate RD].
  destruct (N.leb_spec (o + 1) (nlen buf)); [|lia]. injection RD as RD.
  destruct x as [|c x]; [unfold nlen in LK; cbn in LK; lia|].
  unfold nsub, nfirst in *. destruct (nskip o buf) as [|c0 y]; [now rewrite firstn_nil in RD|].
  rewrite nlen_cons in RD. replace (N.to_nat (1 + nlen x + 1)) with (Datatypes.S (N.to_nat (nlen x + 1))) in RD by lia.
  cbn [firstn app] in RD. injection RD as -> _. reflexivity.

Qed.

(** Argument parser: the theorem about ZyanArgParse. *)
From Verif Require Import Base NListFacts Status Mem MemFacts VectorModel VectorSpec VectorRep VectorDriver VectorProofs VectorProofs2
  VectorProofs3 VectorRefine VectorFail VectorFinal2 StringModel StringDriver ArgModel ArgSpec ArgDriver ArgText ArgVec ArgProofs.
From Coq Require Import ZifyBool ZifyNat ZifyN.
Implicit Types (w : world acell) (v : avec) (q : ptr).

(** ** The grammar is total and deterministic *)
Lemma lookup ds name : (exists d b, named ds name d b) \/ unknown ds name.
Proof.
  assert (X : exists r, result_of ds name 0 r).
  { assert (H : forall k, exists r, result_of ds name k r); [|apply H]. induction ds as [|x ds IH]; intros k.
    - exists None. intros j y E. unfold nnth in E. destruct (N.to_nat j); discriminate E.
    - destruct (list_eq_dec N.eq_dec (sd_name x) name) as [EQ|NE].
      + exists (Some k). now apply result_here.
      + destruct (IH (k + 1)) as (r & R). exists r. now apply result_skip. }
  destruct X as ([d|] & R).
  - left. apply result_named in R as (b & R). now exists d, b.
  - right. exact R.
Qed.
Lemma cluster ds cs : (exists fs, flags ds cs fs) \/
  (exists a c y fs, cs = a ++ c :: y /\ flags ds a fs /\ ((exists d, named ds [dash; c] d false) \/ unknown ds [dash; c])).
Proof.
  induction cs as [|c cs IH]; [left; exists []; constructor|].
  destruct (lookup ds [dash; c]) as [(d & [|] & NM)|U].
  - destruct IH as [(fs & F)|(a & c' & y & fs & -> & F & X)].
    + left. exists (flag d :: fs). now constructor.
    + right. exists (c :: a), c', y, (flag d :: fs). split; [reflexivity|]. split; [now constructor|exact X].
  - right. exists [], c, cs, []. split; [reflexivity|]. split; [constructor|]. left. now exists d.
  - right. exists [], c, cs, []. split; [reflexivity|]. split; [constructor|]. now right.
Qed.
Lemma shapes t : plain t \/ t = [dash; dash] \/ long t \/ short t.
Proof.
  destruct t as [|c0 [|c1 y]]; try (left; intros (c & y' & E); discriminate E).
  destruct (N.eq_dec c0 dash) as [->|NE].
  - destruct (N.eq_dec c1 dash) as [->|NE].
    + destruct y as [|c y]; [right; left; reflexivity|]. right; right; left. now exists c, y.
    + right; right; right. now exists c1, y.
  - left. intros (c & y' & E). injection E as E _. congruence.
Qed.
Lemma scan_total ds bf : forall ts a, exists es stop, scan ds bf a ts es stop.
Proof.
  assert (H : forall n ts a, (length ts <= n)%nat -> exists es stop, scan ds bf a ts es stop); [|intros; eapply H; reflexivity].
  induction n as [|n IH]; intros [|t ts] a L; try (exists [], None; constructor); [cbn in L; lia|]. cbn [length] in L.
  assert (RT : forall a, exists es stop, scan ds bf a ts es stop) by (intros b; apply IH; lia).
  destruct a.
  2:{ destruct (RT false) as (es & stop & S). exists (unnamed t :: es), stop. constructor; [now left|exact S]. }
  destruct (shapes t) as [P|[->|[LG|ST]]].
  - destruct (RT true) as (es & stop & S). exists (unnamed t :: es), stop. constructor; [now right|exact S].
  - destruct (RT false) as (es & stop & S). exists es, stop. now constructor.
  - destruct (lookup ds t) as [(d & [|] & NM)|U].
    + destruct (RT true) as (es & stop & S). exists (flag d :: es), stop. now apply scan_long_flag.
    + destruct ts as [|x ts]; [eexists _, _; now apply (scan_long_missing ds bf t d)|].
      destruct (IH ts true) as (es & stop & S); [cbn in L; lia|]. eexists _, _. eapply scan_long_value; eauto.
    + eexists _, _. now apply scan_long_unknown.
  - pose proof ST as (c0 & y0 & E & _). destruct (cluster ds (c0 :: y0)) as [(fs & F)|(b & c & y & fs & EC & F & X)].
    + destruct (RT true) as (es & stop & S). eexists _, _. eapply scan_flags; eauto.
    + rewrite EC in E. destruct X as [(d & NM)|U].
      * destruct y as [|c' y'].
        -- destruct ts as [|x ts]; [eexists _, _; eapply scan_missing; eauto|].
           destruct (IH ts true) as (es & stop & S); [cbn in L; lia|]. eexists _, _. eapply scan_value; eauto.
        -- destruct (RT true) as (es & stop & S). eexists _, _. eapply scan_attached; eauto. congruence.
      * eexists _, _. eapply scan_unknown; eauto.
Qed.
Lemma named_same ds name d b d' b' : named ds name d b -> named ds name d' b' -> d = d' /\ b = b'.
Proof.
  intros (x & E & N & B & F) (x' & E' & N' & B' & F'). assert (d = d').
  { destruct (N.lt_trichotomy d d') as [L|[->|L]]; [|reflexivity|].
    - destruct (F' d x L E N).
    - destruct (F d' x' L E' N'). }
  subst d'. split; [reflexivity|]. congruence.
Qed.
Lemma named_not_unknown ds name d b : named ds name d b -> unknown ds name -> False.
Proof. intros (x & E & N & _) U. exact (U _ _ E N). Qed.
Lemma flags_split ds a fs c y b : flags ds b a -> b = fs ++ c :: y -> exists d, named ds [dash; c] d true.
Proof.
  intros F. revert fs. induction F as [|c' d cs fs' NM _ IH]; intros [|f fs] E; try discriminate E.
  - injection E as -> ->. now exists d.
  - injection E as -> E. exact (IH _ E).
Qed.
Lemma flags_same ds cs fs fs' : flags ds cs fs -> flags ds cs fs' -> fs = fs'.
Proof.
  intros F. revert fs'. induction F as [|c d cs fs NM _ IH]; intros fs' F'; inversion F' as [|c' d' cs' fs2 NM' F2]; subst; [reflexivity|].
  destruct (named_same _ _ _ _ _ _ NM NM') as [-> _]. now rewrite (IH _ F2).
Qed.
(** The cut of a token behind its flags is unique. *)
Lemma flags_cut ds a fs c y a' fs' c' y' : flags ds a fs -> flags ds a' fs' -> a ++ c :: y = a' ++ c' :: y' ->
  ~ (exists d, named ds [dash; c] d true) -> ~ (exists d, named ds [dash; c'] d true) -> a = a' /\ fs = fs' /\ c = c' /\ y = y'.
Proof.
  intros F. revert fs' a'. induction F as [|e d cs fs NM _ IH]; intros fs' a' F' E N1 N2; inversion F' as [|e' d' cs' fs2 NM' F2]; subst; cbn [app] in E.
  - injection E as -> ->. auto.
  - injection E as -> ->. destruct N1. now exists d'.
  - injection E as <- <-. destruct N2. now exists d.
  - injection E as -> E. destruct (IH _ _ F2 E N1 N2) as (-> & -> & -> & ->). destruct (named_same _ _ _ _ _ _ NM NM') as [-> _]. auto.
Qed.
Lemma not_flag ds name d : named ds name d false -> ~ (exists d, named ds name d true).
Proof. intros NM (e & NM'). destruct (named_same _ _ _ _ _ _ NM NM') as [_ X]. discriminate X. Qed.
Lemma not_flag' ds name : unknown ds name -> ~ (exists d, named ds name d true).
Proof. intros U (e & NM'). exact (named_not_unknown _ _ _ _ NM' U). Qed.

Lemma long_not_plain t : long t -> ~ plain t.
Proof. intros (c & y & ->) P. apply P. now eexists _, _. Qed.
Lemma short_not_plain t : short t -> ~ plain t.
Proof. intros (c & y & -> & _) P. apply P. now eexists _, _. Qed.
Lemma long_not_short t : long t -> ~ short t.
Proof. intros (c & y & ->) (c' & y' & E & NE). injection E as <- _. now apply NE. Qed.

Lemma scan_det ds bf a ts es stop : scan ds bf a ts es stop -> forall es' stop', scan ds bf a ts es' stop' -> es = es' /\ stop = stop'.
Proof.
  induction 1 as [a|ts es s _ IH|a t ts es s UN _ IH|t d ts es s LG NM _ IH|t d x ts es s LG NM _ IH|t d LG NM|t ts LG UK|
      t fl fs ts es s SHT ET FLS _ IH|t fl c x fs d ts es s SHT ET NX FLS NM _ IH|t fl c fs d x ts es s SHT ET FLS NM _ IH|
      t fl c fs d SHT ET FLS NM|t fl c y fs ts SHT ET FLS UK]; intros es' stop' S'; inversion S'; subst;
    try match goal with H : _ = false \/ plain _ |- _ => destruct H as [H|H]; [discriminate H|] end;
    try match goal with
      | H : plain _, H' : long _ |- _ => destruct (long_not_plain _ H' H)
      | H : plain _, H' : short _ |- _ => destruct (short_not_plain _ H' H)
      | H : short _, H' : long _ |- _ => destruct (long_not_short _ H' H)
      | H : plain [dash; dash] |- _ => destruct H; now exists dash, []
      | H : long [dash; dash] |- _ => destruct H as (? & ? & H); discriminate H
      | H : short [dash; dash] |- _ => destruct H as (? & ? & H & H'); injection H as <- <-; now destruct H'
      | H : named _ _ _ _, H' : unknown _ _ |- _ => exfalso; exact (named_not_unknown _ _ _ _ H H')
      | H : named ?ds ?t ?d ?b, H' : named ?ds ?t ?d' ?b' |- _ =>
          destruct (named_same _ _ _ _ _ _ H H') as [EQD EQB]; try discriminate EQB; subst
      end; try (split; reflexivity);
    try (match goal with H : scan _ _ _ _ _ _, IH : forall es' stop', _ |- _ => destruct (IH _ _ H) as [-> ->]; split; reflexivity end).
  all: repeat match goal with H : dash :: _ = dash :: _ |- _ => injection H as H end; subst.
  all: repeat match goal with
       | H : named _ _ _ false |- _ => apply not_flag in H as ?; revert H
       | H : unknown _ _ |- _ => apply not_flag' in H as ?; revert H end; intros.
  all: try match goal with F : flags _ (?a ++ ?c :: ?y) _, NF : ~ (exists d, named _ [dash; ?c] d true) |- _ =>
         destruct (NF (flags_split _ _ _ _ _ _ F eq_refl)) end.
  all: try match goal with H : short ?t |- _ => lazymatch goal with E : t = [dash; dash] |- _ => rewrite E in H | _ => idtac end end.
  all: try match goal with H : short [dash; dash] |- _ => destruct H as (? & ? & H & H'); injection H as <- <-; now destruct H' end.
  all: try match goal with F : flags _ ?c ?fs, F' : flags _ ?c ?fs' |- _ => rewrite (flags_same _ _ _ _ F F') end.
  all: try match goal with F : flags _ ?a _, F' : flags _ ?a' _, E : ?a' ++ _ :: _ = ?a ++ _ :: _, N : ~ _, N' : ~ _ |- _ =>
         destruct (flags_cut _ _ _ _ _ _ _ _ _ F' F E) as (? & ? & ? & ?); [assumption|assumption|subst] end.
  all: try congruence.
  all: try match goal with H : named _ _ _ _, H' : unknown _ _ |- _ => exfalso; exact (named_not_unknown _ _ _ _ H H') end.
  all: try match goal with H : named ?ds ?t ?d ?b, H' : named ?ds ?t ?d' ?b' |- _ =>
          lazymatch d with d' => fail | _ => destruct (named_same _ _ _ _ _ _ H H') as [? _]; subst end end.
  all: try match goal with H : scan _ _ _ _ _ _, IH : forall es' stop', scan _ _ _ _ _ _ -> _ |- _ => destruct (IH _ _ H) as [-> ->]; split; reflexivity end.
  all: try (split; reflexivity).
  all: exfalso.
  all: match goal with H : [dash] = _, S : short _ |- _ =>
    rewrite <- H in S; destruct S as (? & ? & S & NE); injection S as <- <-; now apply NE end.
Qed.

(** Without a token of flags only the two grammars agree. *)
Lemma scan_agree ds b b' a ts es stop : Forall (fun t => ~ flags_only ds t) ts -> scan ds b a ts es stop -> scan ds b' a ts es stop.
Proof.
  intros F S. induction S as [a|ts es s _ IH|a t ts es s UN _ IH|t d ts es s LG NM _ IH|t d x ts es s LG NM _ IH|t d LG NM|t ts LG UK|
      t fl fs ts es s SHT ET FLS _ IH|t fl c x fs d ts es s SHT ET NX FLS NM _ IH|t fl c fs d x ts es s SHT ET FLS NM _ IH|
      t fl c fs d SHT ET FLS NM|t fl c y fs ts SHT ET FLS UK]; try (inversion F as [|? ? F0 F1]; subst; clear F).
  - constructor.
  - constructor. now apply IH.
  - constructor; [exact UN|now apply IH].
  - apply scan_long_flag; auto.
  - inversion F1; subst. apply scan_long_value; auto.
  - now apply (scan_long_missing ds b' t d).
  - now apply scan_long_unknown.
  - destruct F0. split; [exact SHT|]. now exists fl, fs.
  - eapply scan_attached; eauto.
  - inversion F1; subst. eapply scan_value; eauto.
  - eapply scan_missing; eauto.
  - eapply scan_unknown; eauto.
Qed.

(** ** Reading the parsed arguments *)
Section Parsed.
  Variable tw : world N.
  Notation cs := (cstring_at tw).
  Notation ent := (ent tw).
  Lemma ent_cells e x : ent e x -> exists h s p, x = cells (dw e) h s p /\
    match e_value e with
    | None => h = 0 /\ s = WZero /\ p = WZero
    | Some t => exists q, cs q t /\ h = 1 /\ s = WNum (nlen t + 1) /\ p = WPtr q
    end.
  Proof.
    unfold ArgProofs.ent. destruct (e_value e) as [t|].
    - intros (q & C & ->). eexists _, _, _. split; [reflexivity|]. now exists q.
    - intros ->. eexists _, _, _. split; [reflexivity|]. auto.
  Qed.
  Lemma pointer_ok w v xs1 x xs2 : avrep w v (xs1 ++ x :: xs2) -> vget_pointer v (nlen xs1) w = Ok (ST_SUCCESS, elem v (nlen xs1) 0) w.
  Proof.
    intros (R & _ & _ & E & _). unfold vget_pointer. rewrite (r_size _ _ _ _ _ R). rewrite nlen_app, nlen_cons.
    destruct (N.leb_spec (nlen xs1 + (1 + nlen xs2)) (nlen xs1)); [lia|].
    rewrite (bind_ok _ _ _ _ _ (rep_assert_valid _ _ _ _ _ R)).
    pose proof (r_le _ _ _ _ _ R) as L. rewrite nlen_app, nlen_cons in L.
    rewrite (rep_offset _ _ _ _ _ _ R) by lia. rewrite E. unfold elem. rewrite nlen_nil, N.add_0_r. reflexivity.
  Qed.
  Lemma load_def_ent w v xs1 x xs2 e : avrep w v (xs1 ++ x :: xs2) -> ent e x -> load_def (elem v (nlen xs1) 0) w = Ok (e_def e) w.
  Proof.
    intros R EN. destruct (ent_cells _ _ EN) as (h & s & p & -> & _).
    rewrite (load_def_ok w v xs1 (dw e) h s p xs2 R); unfold dw; destruct (e_def e); [reflexivity|reflexivity|exact I|exact I].
  Qed.
  Lemma ashows_ok w v xs es : avrep w v xs -> Forall2 ent es xs -> vget_size v = (ST_SUCCESS, nlen es) /\
    forall i e, nnth i es = Some e ->
    exists q : view, get_arg v i w = Ok (e_def e, nonnull (e_value e), q) w /\
      match e_value e with Some x => views tw q x | None => True end /\ v_esz (s_vec q) = 0.
  Proof.
    intros R F. split.
    { unfold vget_size. now rewrite (avrep_size _ _ _ R), (f2_nlen F). }
    intros i e NI. apply nnth_some in NI as (es1 & es2 & -> & LI).
    apply Forall2_app_inv_l in F as (xs1 & xs2' & F1 & F2 & ->). inversion F2 as [|? x ? xs2 EN F3]; subst.
    pose proof (f2_nlen F1) as L1. unfold get_arg. rewrite L1.
    rewrite (bind_ok _ _ _ _ _ (pointer_ok _ _ _ _ _ R)). rewrite (bind_ok _ _ _ _ _ (load_def_ent _ _ _ _ _ _ R EN)).
    destruct (ent_cells _ _ EN) as (h & s & p & EX & VAL).
    assert (RD : forall a b c, cells (dw e) h s p = a ++ b ++ c -> forall k n, k = nlen a -> n = nlen b -> mread (elem v (nlen xs1) k) n w = Ok b w).
    { intros a b c EC k n -> ->. apply (elem_read w v xs1 a b c xs2). rewrite <- EC, <- EX. exact R. }
    assert (EQ : forall j k, padd (elem v (nlen xs1) j) k = elem v (nlen xs1) (j + k)).
    { intros j k. unfold elem. cbn [padd pb po]. now rewrite N.add_assoc. }
    set (z := AByte 0). pose (z7 := zero_cells 7). pose (z24 := zero_cells 24). pose (z8 := zero_cells 8).
    assert (H1 : load_has_value (elem v (nlen xs1) 0) w = Ok (negb (h =? 0)) w).
    { unfold load_has_value, load_byte. rewrite EQ. unfold bind.
      now rewrite (RD (enc_word (dw e)) [AByte h] (z7 ++ z24 ++ enc_word s ++ z24 ++ enc_word p) eq_refl (0 + 8) 1 (eq_sym (nlen_enc _)) eq_refl). }
    rewrite (bind_ok _ _ _ _ _ H1).
    (* the fields of the view *)
    assert (HD : forall n, nlen (enc_word (dw e) ++ [AByte h] ++ z7 ++ zero_cells n) = 16 + n).
    { intros n. unfold z7. rewrite !nlen_app, nlen_enc, !nlen_zero. change (nlen [AByte h]) with 1. lia. }
    assert (BY : forall n m, n + 1 + m = 24 -> load_byte (elem v (nlen xs1) (16 + n)) w = Ok 0 w).
    { intros n m NM. unfold load_byte, bind.
      rewrite (RD (enc_word (dw e) ++ [AByte h] ++ z7 ++ zero_cells n) [z] (zero_cells m ++ enc_word s ++ z24 ++ enc_word p)); [reflexivity| |now rewrite HD|reflexivity].
      unfold cells. rewrite <- !app_assoc. do 3 f_equal. rewrite (app_assoc [z]), (app_assoc (zero_cells n)). f_equal.
      unfold zero_cells. change (repeat (AByte 0) (N.to_nat n) ++ [z] ++ repeat (AByte 0) (N.to_nat m)) with
        (repeat (AByte 0) (N.to_nat n) ++ repeat (AByte 0) 1 ++ repeat (AByte 0) (N.to_nat m)).
      rewrite <- !repeat_app. f_equal. lia. }
    assert (WS : load_word (elem v (nlen xs1) 40) w = Ok s w).
    { unfold load_word, bind. rewrite (RD (enc_word (dw e) ++ [AByte h] ++ z7 ++ z24) (enc_word s) (z24 ++ enc_word p)).
      - now rewrite dec_enc.
      - unfold cells. now rewrite <- !app_assoc.
      - unfold z24. now rewrite HD.
      - now rewrite nlen_enc. }
    assert (WP : load_word (elem v (nlen xs1) 72) w = Ok p w).
    { unfold load_word, bind. rewrite (RD (enc_word (dw e) ++ [AByte h] ++ z7 ++ z24 ++ enc_word s ++ z24) (enc_word p) []).
      - now rewrite dec_enc.
      - unfold cells. now rewrite <- !app_assoc, app_nil_r.
      - unfold z7, z24. rewrite !nlen_app, !nlen_enc, !nlen_zero. reflexivity.
      - now rewrite nlen_enc. }
    assert (WZ : forall n m, n + 8 + m = 24 -> load_word (elem v (nlen xs1) (48 + n)) w = Ok WZero w).
    { intros n m NM. unfold load_word, bind.
      rewrite (RD (enc_word (dw e) ++ [AByte h] ++ z7 ++ z24 ++ enc_word s ++ zero_cells n) z8 (zero_cells m ++ enc_word p)); [reflexivity| | |reflexivity].
      - unfold cells. rewrite <- !app_assoc. do 5 f_equal. rewrite (app_assoc z8), (app_assoc (zero_cells n)). f_equal.
        unfold z8, zero_cells. rewrite <- !repeat_app. f_equal. lia.
      - unfold z7, z24. rewrite !nlen_app, !nlen_enc, !nlen_zero. change (nlen [AByte h]) with 1. lia. }
    unfold load_view, arg_value. rewrite !EQ. change (0 + 16) with 16. change (16 + 16) with 32. change (16 + 17) with 33. change (16 + 24) with 40.
    change (16 + 32) with 48. change (16 + 40) with 56. change (16 + 56) with 72.
    pose proof (BY 0 23 eq_refl) as B0. pose proof (BY 16 7 eq_refl) as B16. pose proof (BY 17 6 eq_refl) as B17.
    pose proof (WZ 0 16 eq_refl) as Z0. pose proof (WZ 8 8 eq_refl) as Z8.
    change (16 + 0) with 16 in B0. change (16 + 16) with 32 in B16. change (16 + 17) with 33 in B17. change (48 + 0) with 48 in Z0. change (48 + 8) with 56 in Z8.
    unfold bind. rewrite B0, B16, B17, WS. unfold num_of, ret.
    destruct (e_value e) as [t|].
    - destruct VAL as (q & C & -> & -> & ->). rewrite Z0, Z8, WP. eexists. split; [reflexivity|].
      destruct C as (_ & LT & a & c & H & P). split; [|reflexivity]. split; [reflexivity|]. split; [exact LT|]. unfold sdata. cbn [s_vec v_data].
      destruct q as [qb qo]. cbn [pb po] in *. apply (mread_mid tw qb qo _ a (t ++ [0]) c); [exact H|now symmetry|]. rewrite nlen_app. reflexivity.
    - destruct VAL as (-> & -> & ->). rewrite Z0, Z8, WP. eexists. split; [reflexivity|]. split; [exact I|reflexivity].
  Qed.
  Lemma ashows_shows w v xs es : avrep w v xs -> Forall2 ent es xs -> ashows tw w v es.
  Proof.
    intros R F. destruct (ashows_ok _ _ _ _ R F) as (S & X). split; [exact S|]. intros i e NI. destruct (X i e NI) as (q & E & V & _). now exists q.
  Qed.

  Definition has (d : N) (es : list entry) : bool :=
    existsb (fun e => match e_def e with Some k => k =? d | None => false end) es.
  Lemma has_occurs d es : has d es = true <-> occurs d es.
  Proof.
    unfold has, occurs. rewrite existsb_exists. split; intros (e & I & E); exists e; (split; [exact I|]).
    - destruct (e_def e) as [k|]; [|discriminate E]. apply N.eqb_eq in E. now subst.
    - rewrite E. apply N.eqb_refl.
  Qed.
  Lemma find_parsed_ok w v d es1 es2 xs : avrep w v xs -> Forall2 ent (es1 ++ es2) xs ->
    find_parsed v d (nlen es1) (length es2) w = Ok (ST_SUCCESS, has d es2) w.
  Proof.
    intros R. revert es1. induction es2 as [|e es2 IH]; intros es1 F; [reflexivity|].
    pose proof F as F0. apply Forall2_app_inv_l in F0 as (xs1 & xs2' & F1 & F2 & ->). inversion F2 as [|? x ? xs2 EN F3]; subst.
    cbn [length find_parsed has existsb]. rewrite (f2_nlen F1) at 1.
    rewrite (bind_ok _ _ _ _ _ (pointer_ok _ _ _ _ _ R)). okst. cbv iota. rewrite (bind_ok _ _ _ _ _ (load_def_ent _ _ _ _ _ _ R EN)).
    assert (IH' : find_parsed v d (nlen es1 + 1) (length es2) w = Ok (ST_SUCCESS, has d es2) w).
    { replace (nlen es1 + 1) with (nlen (es1 ++ [e])) by (rewrite nlen_app; reflexivity). apply IH. rewrite <- app_assoc. exact F. }
    destruct (e_def e) as [k|]; [|exact IH']. destruct (k =? d); [reflexivity|exact IH'].
  Qed.
  Lemma check_required_ok w v es xs : avrep w v xs -> Forall2 ent es xs -> forall (l : list adef) (m : list sdef), Forall2 (def_is tw) l m -> forall k,
    (check_required v l k w = Ok None w /\ forall j y, nnth j m = Some y -> sd_required y = true -> occurs (k + j) es) \/
    (exists p name, check_required v l k w = Ok (Some (AFailure ST_REQUIRED_ARG_MISSING p v)) w /\ cs p name /\
       exists j y, nnth j m = Some y /\ sd_required y = true /\ sd_name y = name /\ ~ occurs (k + j) es /\
         forall i z, i < j -> nnth i m = Some z -> sd_required z = true -> occurs (k + i) es).
  Proof.
    intros R F l m FD. induction FD as [|d x l m (DN & DB & DR) _ IH]; intros k.
    - left. split; [reflexivity|]. intros j y E. unfold nnth in E. destruct (N.to_nat j); discriminate E.
    - cbn [check_required].
      assert (SK : (sd_required x = true -> occurs k es) ->
        (check_required v l (k + 1) w = Ok None w /\ forall j y, nnth j (x :: m) = Some y -> sd_required y = true -> occurs (k + j) es) \/
        (exists p name, check_required v l (k + 1) w = Ok (Some (AFailure ST_REQUIRED_ARG_MISSING p v)) w /\ cs p name /\
         exists j y, nnth j (x :: m) = Some y /\ sd_required y = true /\ sd_name y = name /\ ~ occurs (k + j) es /\
         forall i z, i < j -> nnth i (x :: m) = Some z -> sd_required z = true -> occurs (k + i) es)).
      { intros HERE. assert (X0 : forall i z, i = 0 -> nnth i (x :: m) = Some z -> sd_required z = true -> occurs (k + i) es).
        { intros i z -> E RQ. rewrite nnth_0 in E. injection E as <-. rewrite N.add_0_r. now apply HERE. }
        destruct (IH (k + 1)) as [(E & AL)|(p & name & E & C & j & y & NJ & RQ & NA & NO & BE)].
        - left. split; [exact E|]. intros j y NJ RQ. destruct (N.eq_dec j 0) as [J0|J0]; [eapply X0; eauto|].
          rewrite nnth_S in NJ by lia. replace (k + j) with (k + 1 + (j - 1)) by lia. eapply AL; eauto.
        - right. exists p, name. split; [exact E|]. split; [exact C|]. exists (j + 1), y. rewrite nnth_S by lia. replace (j + 1 - 1) with j by lia.
          split; [exact NJ|]. split; [exact RQ|]. split; [exact NA|]. split; [replace (k + (j + 1)) with (k + 1 + j) by lia; exact NO|].
          intros i z LI NI RZ. destruct (N.eq_dec i 0) as [J0|J0]; [eapply X0; eauto|].
          rewrite nnth_S in NI by lia. replace (k + i) with (k + 1 + (i - 1)) by lia. eapply BE; [|exact NI|exact RZ]. lia. }
      rewrite DR. destruct (sd_required x) eqn:RX; cbn [negb].
      2:{ apply SK. discriminate. }
      unfold vget_size. cbn [snd]. rewrite (avrep_size _ _ _ R).
      replace (N.to_nat (nlen xs)) with (length es) by (rewrite <- (f2_nlen F); unfold nlen; lia).
      pose proof (find_parsed_ok w v k [] es xs R F) as E. change (nlen (@nil entry)) with 0 in E.
      rewrite (bind_ok _ _ _ _ _ E). okst. cbv iota. destruct (has k es) eqn:HK; cbn [negb].
      + apply SK. intros _. now apply has_occurs.
      + right. exists (ad_name d), (sd_name x). split; [reflexivity|]. split; [exact DN|]. exists 0, x. rewrite N.add_0_r.
        split; [reflexivity|]. split; [exact RX|]. split; [reflexivity|]. split; [|intros; lia].
        intros X. apply has_occurs in X. congruence.
  Qed.
End Parsed.

(** ** ZyanArgParseEx *)
Lemma destroy_tick w v r w' : v_dtor v = None -> vdestroy v w = Ok r w' -> tick w' = tick w.
Proof.
  intros D. unfold vdestroy, assert_valid, destroy_range, assert, bind, dealloc, ret. rewrite D.
  repeat match goal with
    | |- context[if ?b then _ else _] => destruct b
    | |- context[match v_data v with _ => _ end] => destruct (v_data v)
    | |- context[match heap w ?b with _ => _ end] => destruct (heap w b) end; intros E; try discriminate E; injection E as <- <-; reflexivity.
Qed.
Lemma grown_le room m n : (m <= n)%nat -> grown room m <= grown room n.
Proof. induction 1 as [|n _ IH]; [lia|]. cbn [grown]. lia. Qed.
Lemma grown_lt room m n : (m < n)%nat -> room_after room m < N.of_nat (S m) -> grown room m < grown room n.
Proof.
  intros L R. apply (grown_le room) in L. cbn [grown] in L. destruct (N.ltb_spec (room_after room m) (N.of_nat (S m))); lia.
Qed.
Lemma made_all hi es : nlen (unnamed_of es) <= hi -> entries_made hi es None = nlen es.
Proof. intros L. rewrite <- (app_nil_r es) at 1. rewrite made_app by exact L. cbn [entries_made]. lia. Qed.
(** The requests up to a state of the parser. *)
Lemma paid w w1 v1 w2 v2 xs fill n ts : orc w (tick w) = AOk fill -> tick w1 = tick w + 1 -> orc w1 = orc w -> avrep w1 v1 [] ->
  v_cap v1 = nlen ts + 1 -> agood w1 v1 w2 v2 xs -> nlen xs = n ->
  tick w2 = tick w + parser_requests ts n /\ granted w (parser_requests ts n) /\ v_cap v2 = room_after (nlen ts + 1) (N.to_nat n).
Proof.
  intros O T OR R C (R2 & F & K) L. destruct (K (nlen ts + 1) (tick w1)) as (K1 & K2 & K3).
  { unfold account. rewrite (avrep_size _ _ _ R). change (N.to_nat (nlen (@nil (list acell)))) with 0%nat. cbn [room_after grown].
    split; [exact C|]. split; [lia|]. intros; lia. }
  rewrite (avrep_size _ _ _ R2), L in *. unfold parser_requests. split; [lia|]. split; [|exact K1].
  intros i LI. destruct (N.eq_dec i 0) as [->|]; [rewrite N.add_0_r; now exists fill|]. rewrite <- OR, <- (fr_orc _ _ _ _ F). apply K3; lia.
Qed.
Lemma released w w1 w2 v1 v2 xs : wfw w -> nextb w <= blk v1 -> nextb w <= nextb w1 -> (forall b, b <> blk v1 -> heap w1 b = heap w b) ->
  agood w1 v1 w2 v2 xs ->
  nextb w <= blk v2 /\ (forall k, heap w k <> None -> heap w2 k = heap w k) /\
  exists w3, vdestroy v2 w2 = Ok (ST_SUCCESS, idle v2) w3 /\ (forall k, heap w3 k = heap w k) /\ tick w3 = tick w2.
Proof.
  intros WF NB NB1 HH ((R & A & _ & _ & DT) & FR & _).
  assert (B2 : nextb w <= blk v2).
  { destruct (N.eq_dec (blk v2) (blk v1)) as [->|NE]; [exact NB|]. destruct (fr_old _ _ _ _ FR NE) as (_ & _ & L). lia. }
  split; [exact B2|]. split.
  { intros k K. assert (k < nextb w) by (destruct (N.lt_ge_cases k (nextb w)); [assumption|]; destruct K; now apply WF).
    rewrite (fr_heap _ _ _ _ FR) by lia. apply HH. lia. }
  destruct (destroy_ok w2 v2 [] xs [] R) as (w3 & E & _ & H1 & _ & H2). exists w3. split; [exact E|]. split; [|exact (destroy_tick _ _ _ _ DT E)].
  intros k. destruct (N.eq_dec k (blk v2)) as [->|N2].
  - rewrite (H1 A). symmetry. now apply WF.
  - rewrite H2 by assumption. destruct (N.eq_dec k (blk v1)) as [->|N1].
    + destruct (fr_old _ _ _ _ FR) as (_ & -> & _); [congruence|]. symmetry. now apply WF.
    + rewrite (fr_heap _ _ _ _ FR) by assumption. now apply HH.
Qed.
Lemma demand_len ts : nlen ts + 1 <= arg_demand ts.
Proof. induction ts as [|t ts IH]; cbn [arg_demand]; rewrite ?nlen_cons; [reflexivity|lia]. Qed.

(** The views of the values have the element size 0. *)
Definition flat (es : list entry) (r : status * option avec * option (option ptr)) (w' : world acell) (o : outcome) : Prop :=
  match o with
  | Accept _ => forall v i d h (q : view) w2, snd (fst r) = Some v -> i < nlen es -> get_arg v i w' = Ok (d, h, q) w2 -> v_esz (s_vec q) = 0
  | Reject _ _ => True
  end.
Theorem argparse_any tw cfg prog ts ds w : config_is tw cfg prog ts ds -> Forall (fun x : sdef => name_ok (sd_name x)) ds ->
  ac_min cfg <= ac_max cfg -> wfw w -> arg_room ts ->
  exists es stop r w', scan ds actual true ts es stop /\ argparse_ex tw cfg true w = Ok r w' /\
    let k := parser_requests ts (entries_made (ac_max cfg) es stop) in
    ((exists o, judged ds (ac_min cfg) (ac_max cfg) es stop o /\ delivered tw w w' r o /\ flat es r w' o /\ tick w' = tick w + k /\ granted w k) \/
     out_of_memory w r w' /\ exists i st, i < k /\ granted w i /\ orc w (tick w + i) = AFail st /\ fst (fst r) = err_status st /\ tick w' = tick w + i + 1).
Proof.
  intros (FT & FD) NO MM WF RM. destruct (scan_total ds actual ts true) as (es & stop & SC).
  inversion FT as [|pp pr ps ts' CP FT' EA EB]; subst. pose proof (demand_len ts) as DL. unfold arg_room in RM.
  assert (LA : argc cfg = 1 + nlen ts) by (unfold argc; rewrite <- EA, nlen_cons, (f2_nlen FT'); reflexivity).
  unfold argparse_ex. destruct (N.ltb_spec (ac_max cfg) (ac_min cfg)); [lia|].
  rewrite (bind_ok _ _ _ _ _ (check_defs_ok tw w _ _ FD NO)). cbn [negb].
  exists es, stop. destruct (orc w (tick w)) as [st|fill] eqn:O.
  { (* Init fails *)
    eexists _, _. split; [exact SC|]. split.
    { unfold vinit_ex, VECTOR_MIN_CAPACITY. cbn [negb orb]. change (ARG_SIZE =? 0) with false. change (VECTOR_DEFAULT_GROWTH <? 1) with false. cbn [orb].
      unfold bind at 1 2. unfold alloc. cbn [v_esz v_cap]. unfold bind. change (ARG_SIZE =? 0) with false. cbn [orb].
      destruct (N.eqb_spec (N.max 1 (argc cfg)) 0); [lia|]. cbn [andb]. rewrite O. unfold ret. rewrite st_success_err. cbn [negb]. reflexivity. }
    right. split.
    { exists st, (tick w). eexists. split; [exact O|]. split; [reflexivity|]. left. split; [reflexivity|]. split; reflexivity. }
    exists 0, st. split; [unfold parser_requests; lia|]. split; [intros i L; lia|]. rewrite N.add_0_r. split; [exact O|]. split; reflexivity. }
  destruct (init_ok w ARG_SIZE (argc cfg) None VECTOR_DEFAULT_GROWTH VECTOR_DEFAULT_SHRINK fill WF O) as
    (w1 & v1 & E1 & R1 & CAP & ESZ & AL & CF & DG & OR & NB & NBN & HH).
  { unfold ARG_SIZE. lia. } { unfold ARG_SIZE. lia. } { exact I. } { unfold VECTOR_DEFAULT_GROWTH. lia. } { unfold VECTOR_DEFAULT_SHRINK. lia. }
  assert (TI : tick w1 = tick w + 1).
  { revert E1. unfold vinit_ex, bind, alloc. destruct (_ || _ || _); [discriminate|]. destruct (_ && _); [discriminate|]. rewrite O. intros E1. now injection E1 as _ <-. }
  rewrite (bind_ok _ _ _ _ _ E1). okst. cbv iota.
  assert (CPA : v_cap v1 = nlen ts + 1) by (rewrite CAP, LA; lia).
  assert (RA : avrep w1 v1 []).
  { split; [exact R1|]. unfold cfg_of in CF. injection CF as _ CF1 CF2 CF3 CF4. repeat split; assumption. }
  assert (AC : argc cfg < W64) by lia.
  destruct (main_loop_ok tw cfg ds FD AC) with (1 := SC) (ps1 := [pp]) (ps2 := ps) (v := v1) (w := w1) (un := 0) (es0 := @nil entry) (xs := @nil (list acell))
    (fuel := N.to_nat (argc cfg)) as [(st & v' & w' & X & LO)|[(H1 & p & t & v' & w' & xs' & X & NN & C & G & LX)|
      [(H1 & st & t & p & v' & w' & xs' & SS & X & C & G & LX)|(H1 & SS & v' & w' & xs' & X & G & F)]]];
    try (change (nlen [pp]) with 1 in X; rewrite (bind_ok _ _ _ _ _ X); clear X).
  - now rewrite <- EA.
  - exact FT'.
  - rewrite LA. unfold nlen. lia.
  - exact RA.
  - constructor.
  - reflexivity.
  - lia.
  - rewrite nlen_nil. lia.
  - (* the vector could not grow *)
    destruct LO as (wm & vm & ys & G & OC & OF & LY & LC). rewrite N.sub_0_r, nlen_nil, N.add_0_l in LY.
    destruct (paid _ _ _ _ _ _ _ _ ts O TI OR RA CPA G eq_refl) as (P1 & P2 & P3). pose proof OC as ((c & -> & _) & OC2 & _).
    eexists _, _. split; [exact SC|]. split; [reflexivity|]. right.
    assert (OF' : orc w (tick wm) = AFail st) by (rewrite <- OR, <- (fr_orc _ _ _ _ (proj1 (proj2 G))); exact OF).
    split.
    2:{ exists (parser_requests ts (nlen ys)), st. split; [|split; [exact P2|]].
        - unfold parser_requests. apply N.add_lt_mono_l. apply grown_lt; [lia|]. rewrite <- P3. lia.
        - rewrite <- P1. split; [exact OF'|]. split; [reflexivity|]. apply OC. }
    exists st, (tick wm), (set_cap vm c). split; [exact OF'|]. split; [reflexivity|]. right.
    destruct (released _ _ _ _ _ _ WF NB NBN HH G) as (B & HK & w3 & E3 & HR & TK). pose proof G as ((RM' & AM & _) & _).
    destruct (destroy_ok wm vm [] ys [] RM') as (w4 & E4 & _ & H1 & _ & H2). rewrite E4 in E3. injection E3 as <-.
    destruct (only_cap_destroy _ _ _ _ _ _ _ RM' AM OC) as (w5 & E5 & _ & H3 & H4).
    split; [congruence|]. split; [exists (blk vm)|].
    2:{ exists (set_data (set_cap vm c) None), w5. split; [exact E5|]. intros k. rewrite <- HR.
        destruct (N.eq_dec k (blk vm)) as [->|NE]; [rewrite H3; symmetry; now apply H1|]. now rewrite H4, H2. }
    split; [cbn [set_cap v_data]; rewrite (r_data _ _ _ _ _ RM'); reflexivity|]. split; [exact B|].
    rewrite OC2. destruct (r_heap _ _ _ _ _ RM') as (s & _ & ->). discriminate.
  - (* too many unnamed arguments *)
    destruct (released _ _ _ _ _ _ WF NB NBN HH G) as (B & HK & w3 & E3 & HR & TK).
    unfold leave_by, failure. eexists _, _. split; [exact SC|]. split; [rewrite (bind_ok _ _ _ _ _ E3); okst; reflexivity|].
    rewrite N.sub_0_r, nlen_nil, N.add_0_l in LX. destruct (paid _ _ _ _ _ _ _ _ ts O TI OR RA CPA G LX) as (P1 & P2 & P3). rewrite <- TK in P1.
    left. exists (Reject ST_TOO_MANY_ARGS (Some t)). split.
    + left. split; [lia|]. exists t. rewrite N.sub_0_r in NN. now split.
    + split; [split; [reflexivity|]; split; [|exact HR]; exists p; now split|]. split; [exact I|]. now split.
  - destruct (released _ _ _ _ _ _ WF NB NBN HH G) as (B & HK & w3 & E3 & HR & TK).
    unfold leave_by, failure. eexists _, _. split; [exact SC|]. split; [rewrite (bind_ok _ _ _ _ _ E3); okst; reflexivity|].
    rewrite N.sub_0_r, nlen_nil, N.add_0_l in LX. destruct (paid _ _ _ _ _ _ _ _ ts O TI OR RA CPA G LX) as (P1 & P2 & P3). rewrite <- TK in P1.
    left. exists (Reject st (Some t)). split.
    + right; left. split; [lia|]. now exists st, t.
    + split; [split; [reflexivity|]; split; [|exact HR]; exists p; now split|]. split; [exact I|]. now split.
  - destruct (released _ _ _ _ _ _ WF NB NBN HH G) as (B & HK & w3 & E3 & HR & TK). cbn [app] in F. rewrite N.add_0_l in *.
    assert (LX : nlen xs' = entries_made (ac_max cfg) es stop) by (rewrite SS, made_all by exact H1; symmetry; exact (f2_nlen F)).
    destruct (paid _ _ _ _ _ _ _ _ ts O TI OR RA CPA G LX) as (P1 & P2 & P3).
    destruct (N.ltb_spec (nlen (unnamed_of es)) (ac_min cfg)) as [L|L].
    + unfold failure. eexists _, _. split; [exact SC|]. split; [rewrite (bind_ok _ _ _ _ _ E3); okst; reflexivity|].
      left. exists (Reject ST_TOO_FEW_ARGS None). split.
      * right; right; left. now repeat split.
      * split; [split; [reflexivity|]; split; [reflexivity|exact HR]|]. split; [exact I|]. rewrite TK. now split.
    + destruct (check_required_ok tw w' v' es xs' (proj1 G) F _ _ FD 0) as [(E & RQ)|(p & name & E & C & MS)]; rewrite (bind_ok _ _ _ _ _ E).
      * eexists _, _. split; [exact SC|]. split; [reflexivity|]. left. exists (Accept es). split.
        -- right; right; right; right. split; [lia|]. split; [exact SS|]. split; [|reflexivity]. intros d x ND RX. exact (RQ d x ND RX).
        -- split.
           ++ split; [reflexivity|]. split; [reflexivity|]. exists v'. split; [reflexivity|].
              split; [exact (ashows_shows tw w' v' xs' es (proj1 G) F)|]. split; [exact HK|]. now exists (idle v'), w3.
           ++ split; [|now split]. intros v i d h q w2 EV LI EG. injection EV as <-. destruct (nnth_exists _ _ LI) as (e & NI).
              destruct (ashows_ok tw w' v' xs' es (proj1 G) F) as (_ & X). destruct (X i e NI) as (q' & E' & _ & Z). rewrite E' in EG. now injection EG as <- <- <- <-.
      * unfold leave_by, failure. eexists _, _. split; [exact SC|]. split; [rewrite (bind_ok _ _ _ _ _ E3); okst; reflexivity|].
        left. exists (Reject ST_REQUIRED_ARG_MISSING (Some name)). split.
        -- right; right; right; left. split; [lia|]. split; [exact SS|]. exists name. split; [|reflexivity].
           destruct MS as (j & y & NJ & RQ & NA & NOC & BE). exists j, y. now repeat split.
        -- split; [split; [reflexivity|]; split; [|exact HR]; exists p; now split|]. split; [exact I|]. rewrite TK. now split.
Qed.

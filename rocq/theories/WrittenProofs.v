(** Command lines are read back as they were written. *)
From Coq Require Import Permutation.
From Verif Require Import Base NListFacts Status Mem MemFacts VectorModel VectorDriver StringModel StringDriver ArgModel ArgSpec ArgDriver ArgFinal2 WrittenSpec.
From Coq Require Import ZifyBool ZifyNat ZifyN.
Import ListNotations.
Local Open Scope N_scope.

Lemma flags_of ds (fs : list (N * N)) : Forall (fun f => named ds [dash; fst f] (snd f) true) fs ->
  flags ds (map fst fs) (map (fun f => flag (snd f)) fs).
Proof. induction 1; cbn; constructor; auto. Qed.
Lemma scan_rest ds bf ts : scan ds bf false ts (map unnamed ts) None.
Proof. induction ts; cbn; constructor; auto. Qed.
Lemma scan_item ds bf i ts es s : item_ok ds i -> scan ds bf true ts es s ->
  scan ds bf true (item_words i ++ ts) (item_entries i ++ es) s.
Proof.
  intros K S. destruct i as [d name|d name x|fs d c x|fs d c x|t]; cbn [item_ok item_words item_entries app] in *.
  - destruct K. now apply scan_long_flag.
  - destruct K. now apply scan_long_value.
  - destruct K as (K1 & K2 & K3). rewrite <- app_assoc. eapply scan_value; eauto. now apply flags_of.
  - destruct K as (K1 & K2 & K3 & K4). rewrite <- app_assoc. eapply scan_attached; eauto. now apply flags_of.
  - apply scan_unnamed; auto.
Qed.
Lemma scan_written ds bf is rest : Forall (item_ok ds) is -> scan ds bf true (written is rest) (meant is rest) None.
Proof.
  intros F. unfold written, meant. induction F as [|i is K F IH]; cbn [map concat app].
  - destruct rest; [|constructor]. constructor. apply scan_rest.
  - rewrite <- !app_assoc. now apply scan_item.
Qed.
Lemma scan_written_flag ds bf is d c is2 rest : Forall (item_ok ds) is -> Forall (item_ok ds) is2 -> c <> dash -> named ds [dash; c] d true ->
  scan ds bf true (written is None ++ [dash; c] :: written is2 rest)
    (meant is None ++ flag d :: bf [dash; c] ++ meant is2 rest) None.
Proof.
  intros F F2 NC NM. unfold written at 1, meant at 1. rewrite !app_nil_r. induction F as [|i is K F IH]; cbn [map concat app].
  - change (flag d :: bf [dash; c] ++ meant is2 rest) with ([flag d] ++ bf [dash; c] ++ meant is2 rest).
    eapply scan_flags; [now exists c, []|reflexivity|repeat constructor; exact NM|now apply scan_written].
  - rewrite <- !app_assoc. now apply scan_item.
Qed.
(** A command line without a syntax error, whose entries obey bounds and required options, is accepted. *)
Lemma accepted tw cfg prog ts ds w es : parse_args tw cfg prog ts ds w -> scan ds actual true ts es None ->
  ac_min cfg <= nlen (unnamed_of es) <= ac_max cfg -> required_present ds es ->
  exists r w', argparse tw cfg w = Ok r w' /\ delivered tw w w' r (Accept es).
Proof.
  intros P S B RP. destruct (parse_ok _ _ _ _ _ _ P) as (es' & stop & o & r & w' & S' & J & E & D).
  destruct (grammar_function ds actual true ts) as (x & _ & U).
  assert ((es, None) = (es', stop)) as X by (rewrite <- (U (es, None) S), <- (U (es', stop) S'); reflexivity).
  injection X as <- <-. exists r, w'. split; [exact E|].
  destruct J as [(L & _)|[(_ & st & t & X & _)|[(_ & _ & L & _)|[(_ & _ & name & (d & y & X1 & X2 & X3 & X4 & X5) & _)|(_ & _ & _ & ->)]]]];
    [lia|discriminate X|lia|exfalso; apply X4; eapply RP; eauto|exact D].
Qed.
Lemma too_many tw cfg prog ts ds w es t : parse_args tw cfg prog ts ds w -> scan ds actual true ts es None ->
  nnth (ac_max cfg) (unnamed_of es) = Some t ->
  exists r w', argparse tw cfg w = Ok r w' /\ delivered tw w w' r (Reject ST_TOO_MANY_ARGS (Some t)).
Proof.
  intros P S NT. assert (ac_max cfg < nlen (unnamed_of es)) by (eapply nnth_lt; exact NT).
  destruct (parse_ok _ _ _ _ _ _ P) as (es' & stop & o & r & w' & S' & J & E & D).
  destruct (grammar_function ds actual true ts) as (x & _ & U).
  assert ((es, None) = (es', stop)) as X by (rewrite <- (U (es, None) S), <- (U (es', stop) S'); reflexivity).
  injection X as <- <-. exists r, w'. split; [exact E|].
  destruct J as [(L & t' & NT' & ->)|[(L & _)|[(L & _)|[(L & _)|(L & _)]]]]; try lia.
  rewrite NT in NT'. injection NT' as <-. exact D.
Qed.
Lemma unnamed_app a b : unnamed_of (a ++ b) = unnamed_of a ++ unnamed_of b.
Proof.
  induction a as [|x a IH]; [reflexivity|]. cbn. destruct (e_def x); [exact IH|]. destruct (e_value x); [|exact IH]. cbn. now rewrite IH.
Qed.
Lemma unnamed_perm es es' : Permutation es es' -> nlen (unnamed_of es) = nlen (unnamed_of es').
Proof.
  induction 1 as [|x a b P IH|x y a|a b c P1 IH1 P2 IH2]; [reflexivity| | |congruence].
  - change (x :: a) with ([x] ++ a). change (x :: b) with ([x] ++ b). rewrite !unnamed_app, !nlen_app, IH. reflexivity.
  - change (y :: x :: a) with ([y] ++ [x] ++ a). change (x :: y :: a) with ([x] ++ [y] ++ a). rewrite !unnamed_app, !nlen_app. lia.
Qed.
Lemma required_perm ds es es' : Permutation es es' -> required_present ds es -> required_present ds es'.
Proof. intros P R d x X Y. destruct (R d x X Y) as (e & IE & D). exists e. split; [eapply Permutation_in; eauto|exact D]. Qed.
Lemma meant_perm is is' rest : Permutation is is' -> Permutation (meant is rest) (meant is' rest).
Proof.
  intros P. unfold meant. apply Permutation_app_tail. induction P as [|x a b P IH|x y a|a b c P1 IH1 P2 IH2]; cbn.
  - constructor.
  - now apply Permutation_app_head.
  - rewrite !app_assoc. apply Permutation_app_tail, Permutation_app_comm.
  - etransitivity; eauto.
Qed.

Lemma written_back tw cfg prog is rest ds w : parse_args tw cfg prog (written is rest) ds w -> Forall (item_ok ds) is ->
  ac_min cfg <= nlen (unnamed_of (meant is rest)) <= ac_max cfg -> required_present ds (meant is rest) ->
  exists r w', argparse tw cfg w = Ok r w' /\ delivered tw w w' r (Accept (meant is rest)).
Proof. intros P F B R. eapply accepted; [exact P|now apply scan_written|exact B|exact R]. Qed.
Lemma written_any_order tw cfg prog is rest ds w tw' cfg' prog' is' w' :
  parse_args tw cfg prog (written is rest) ds w -> parse_args tw' cfg' prog' (written is' rest) ds w' ->
  ac_min cfg' = ac_min cfg -> ac_max cfg' = ac_max cfg -> Permutation is is' -> Forall (item_ok ds) is ->
  forall ov tok w1, argparse tw cfg w = Ok (ST_SUCCESS, ov, tok) w1 ->
  exists r w2, argparse tw' cfg' w' = Ok r w2 /\ delivered tw' w' w2 r (Accept (meant is' rest)) /\
    Permutation (meant is rest) (meant is' rest).
Proof.
  intros P P' E1 E2 PM F ov tok w1 E. pose proof (meant_perm _ _ rest PM) as MP.
  destruct (parse_ok _ _ _ _ _ _ P) as (es' & stop & o & r & w2 & S' & J & E' & D).
  destruct (grammar_function ds actual true (written is rest)) as (x & _ & U).
  assert ((meant is rest, None) = (es', stop)) as X by (rewrite <- (U (meant is rest, None) (scan_written ds actual is rest F)), <- (U (es', stop) S'); reflexivity).
  injection X as <- <-. change (argparse tw cfg w = Ok r w2) in E'. rewrite E in E'. injection E' as <- <-.
  destruct (judged_accepts _ _ _ _ _ _ _ _ S' J) as [(es2 & (S2 & B & R) & ->)|(st & t & -> & NS & _)]; [|destruct D as (X & _); congruence].
  assert ((meant is rest, None) = (es2, @None (status * token))) as X by (rewrite <- (U (meant is rest, None) S'), <- (U (es2, None) S2); reflexivity).
  injection X as <-.
  destruct (written_back tw' cfg' prog' is' rest ds w' P') as (r' & w2' & E3 & D3).
  - eapply Permutation_Forall; eauto.
  - rewrite E1, E2, <- (unnamed_perm _ _ MP). exact B.
  - eapply required_perm; eauto.
  - exists r', w2'. auto.
Qed.
Lemma written_flag_extra tw cfg prog is d c is2 rest ds w :
  parse_args tw cfg prog (written is None ++ [dash; c] :: written is2 rest) ds w ->
  Forall (item_ok ds) is -> Forall (item_ok ds) is2 -> c <> dash -> named ds [dash; c] d true ->
  let es := meant is None ++ flag d :: unnamed [dash; c] :: meant is2 rest in
  (ac_max cfg < nlen (unnamed_of es) -> exists t r w', argparse tw cfg w = Ok r w' /\ delivered tw w w' r (Reject ST_TOO_MANY_ARGS (Some t))) /\
  (ac_min cfg <= nlen (unnamed_of es) <= ac_max cfg -> required_present ds es ->
   exists r w', argparse tw cfg w = Ok r w' /\ delivered tw w w' r (Accept es)).
Proof.
  intros P F F2 NC NM es. pose proof (scan_written_flag ds actual is d c is2 rest F F2 NC NM) as S. split.
  - intros L. destruct (nnth_exists _ _ L) as [t NT]. exists t. eapply too_many; [exact P|exact S|exact NT].
  - intros B R. eapply accepted; [exact P|exact S|exact B|exact R].
Qed.

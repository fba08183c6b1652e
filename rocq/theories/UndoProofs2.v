(** Undoing calls on strings and bitsets. *)
From Verif Require Import Base NListFacts Status Mem MemFacts VectorModel VectorSpec VectorDriver
  VectorRep VectorProofs VectorProofs2 StringModel StringSpec StringDriver StringBytes StringProofs StringFinal
  BitsetModel BitsetSpec BitsetDriver BitsetBits BitsetProofs BitsetFinal ListSpec UndoSpec UndoProofs.
From Coq Require Import ZifyBool ZifyNat ZifyN.

Lemma app_inj_len {A} (a b c d : list A) : a ++ b = c ++ d -> length a = length c -> a = c /\ b = d.
Proof.
  revert c. induction a as [|x a IH]; intros [|y c] E L; try discriminate; [auto|]. cbn [app] in E. injection E as -> E.
  injection L as L. destruct (IH _ E L) as [-> ->]. auto.
Qed.
(** Sessions over any machine. *)
Section Sessions.
  Context {O X : Type} (undo : X -> O -> O -> X -> Prop) (step : O -> X -> status -> X -> Prop) (good : X -> Prop).
  Fixpoint steps (ops : list O) (x : X) (rs : list status) (z : X) : Prop :=
    match ops with
    | [] => rs = [] /\ z = x
    | o :: ops => exists r y rs', rs = r :: rs' /\ step o x r y /\ steps ops y rs' z
    end.
  Hypothesis forth : forall x o u y y', undo x o u y -> good x -> step o x ST_SUCCESS y' -> y' = y /\ good y.
  Hypothesis back : forall x o u y r x', undo x o u y -> good x -> step u y r x' -> r = ST_SUCCESS /\ x' = x.

  Lemma steps_app a b x rs z : steps (a ++ b) x rs z <->
    exists rs1 y rs2, rs = rs1 ++ rs2 /\ steps a x rs1 y /\ steps b y rs2 z.
  Proof.
    revert x rs. induction a as [|o a IH]; intros x rs; cbn [app steps].
    - split; [intros H; exists [], x, rs; auto|]. intros (rs1 & y & rs2 & -> & [-> ->] & H). exact H.
    - split.
      + intros (r & y & rs' & -> & S & H). apply IH in H as (rs1 & y1 & rs2 & -> & A & B).
        exists (r :: rs1), y1, rs2. split; [reflexivity|]. split; [|exact B]. exists r, y, rs1. auto.
      + intros (rs1 & y & rs2 & -> & (r & y1 & rs' & -> & S & A) & B). exists r, y1, (rs' ++ rs2).
        split; [reflexivity|]. split; [exact S|]. apply IH. exists rs', y, rs2. auto.
  Qed.
  Lemma sessions x ops us z : session undo x ops us z -> good x -> forall rs z', steps ops x rs z' ->
    Forall (eq ST_SUCCESS) rs -> z' = z /\ good z /\
    forall rs2 x', steps us z rs2 x' -> Forall (eq ST_SUCCESS) rs2 /\ x' = x.
  Proof.
    induction 1 as [x|x o u y ops us z U _ IH]; intros G rs z' S OK; cbn [steps] in S.
    - destruct S as [-> ->]. split; [reflexivity|]. split; [exact G|]. intros rs2 x' [-> ->]. split; [constructor|reflexivity].
    - destruct S as (r & y' & rs' & -> & S0 & S1). inv OK. destruct (forth _ _ _ _ _ U G S0) as [-> GY].
      destruct (IH GY _ _ S1) as (-> & GZ & B); [assumption|]. split; [reflexivity|]. split; [exact GZ|].
      intros rs2 x' S2. apply steps_app in S2 as (ra & ya & rb & -> & Sa & Sb). destruct (B _ _ Sa) as [Ba ->].
      cbn [steps] in Sb. destruct Sb as (r2 & x2 & r3 & -> & Sb & -> & ->). destruct (back _ _ _ _ _ _ U G Sb) as [-> ->].
      split; [|reflexivity]. apply Forall_app. split; [exact Ba|]. constructor; [reflexivity|constructor].
  Qed.
End Sessions.

(** ** Strings *)
Lemma sspecs_steps limit ops cs rs ds : sspecs limit ops cs rs ds -> steps (sspec limit) ops cs rs ds.
Proof. induction 1; cbn [steps]; [auto|]. eauto 10. Qed.
Lemma holds_chars_le limit n m : m <= n -> holds_chars limit n = true -> holds_chars limit m = true.
Proof. destruct limit; cbn [holds_chars]; lia. Qed.

Lemma ins_str limit a b ms r x : sspec limit (SInsert (nlen a) ms) (a ++ b) r x -> ms <> [] -> become limit (a ++ ms ++ b) (a ++ b) r x.
Proof.
  cbn [sspec]. unfold sspec_insert. intros S NE. apply nlen_pos in NE. rewrite nlen_app in S.
  replace (nlen a =? nlen a + nlen b + 1) with false in S by lia. replace (nlen a + nlen b <? nlen a) with false in S by lia.
  replace (nlen ms <? 0 + nlen ms) with false in S by lia. replace (nlen ms =? 0) with false in S by lia.
  rewrite nfirst_app_l, nskip_app_l in S by reflexivity.
  replace (nsub 0 (nlen ms) ms) with ms in S; [exact S|]. unfold nsub. now rewrite nskip_0, nfirst_all.
Qed.
Lemma del_str i n a b ms r x : sspec_delete i n (a ++ ms ++ b) r x -> i = nlen a -> n = nlen ms -> ms <> [] -> r = ST_SUCCESS /\ x = a ++ b.
Proof.
  unfold sspec_delete. intros S -> -> NE. apply nlen_pos in NE. rewrite !nlen_app in S.
  replace (nlen a + (nlen ms + nlen b) <? nlen a + nlen ms) with false in S by lia. replace (nlen ms =? 0) with false in S by lia.
  destruct S as [-> ->]. rewrite nfirst_app_l by reflexivity. now rewrite nskip_add_app.
Qed.
Lemma trunc_str limit a ms r x : sspec limit (STruncate (nlen a)) (a ++ ms) r x -> ms <> [] -> r = ST_SUCCESS /\ x = a.
Proof.
  cbn [sspec]. intros S NE. rewrite nlen_app in S. replace (nlen a + nlen ms <? nlen a) with false in S by lia.
  replace (nlen a + nlen ms - nlen a) with (nlen ms) in S by lia.
  destruct (del_str (nlen a) (nlen ms) a [] ms r x) as [-> ->]; rewrite ?app_nil_r; auto.
Qed.
Lemma set_str limit a b c d r x : sspec limit (SSetChar (nlen a) d) (a ++ [c] ++ b) r x -> r = ST_SUCCESS /\ x = a ++ [d] ++ b.
Proof.
  cbn [sspec]. intros S. rewrite !nlen_app in S. change (nlen [c]) with 1 in S.
  replace (nlen a + (1 + nlen b) <=? nlen a) with false in S by lia. rewrite nfirst_app_l in S by reflexivity.
  now rewrite nskip_add_app in S.
Qed.
Lemma sundo_forth limit cs o u ds ds' : sundo cs o u ds -> holds_chars limit (nlen cs) = true ->
  sspec limit o cs ST_SUCCESS ds' -> ds' = ds /\ holds_chars limit (nlen ds) = true.
Proof.
  intros U K S. assert (B : forall new old x, become limit new old ST_SUCCESS x -> x = new /\ holds_chars limit (nlen new) = true).
  { intros new old x. unfold become. destruct (holds_chars limit (nlen new)) eqn:E; [intros [_ ->]; auto|intros [X _]; discriminate]. }
  destruct U.
  - apply B in S. exact S.
  - apply trunc_str in S as [_ ->]; [|assumption]. split; [reflexivity|]. eapply holds_chars_le; [|exact K]. rewrite nlen_app. lia.
  - apply ins_str in S; [|assumption]. apply B in S. exact S.
  - cbn [sspec] in S. eapply del_str in S as [_ ->]; eauto. split; [reflexivity|].
    eapply holds_chars_le; [|exact K]. rewrite !nlen_app. lia.
  - apply set_str in S as [_ ->]. split; [reflexivity|]. eapply holds_chars_le; [|exact K]. rewrite !nlen_app. change (nlen [d]) with 1. change (nlen [c]) with 1. lia.
  - cbn [sspec] in S. destruct S as [_ ->]. split; [reflexivity|]. eapply holds_chars_le; [|exact K]. rewrite nlen_nil. lia.
  - cbn [sspec] in S. rewrite nlen_app in *. replace (nlen cs <=? nlen cs + nlen x) with true in S by lia.
    rewrite nfirst_app_l in S by reflexivity. destruct S as [_ ->]. split; [reflexivity|]. eapply holds_chars_le; [|exact K]. lia.
  - cbn [sspec] in S. split; [|exact K]. destruct limit; [destruct (_ <? _)|]; destruct S; auto.
Qed.
Lemma sundo_back limit cs o u ds r cs' : sundo cs o u ds -> holds_chars limit (nlen cs) = true ->
  sspec limit u ds r cs' -> r = ST_SUCCESS /\ cs' = cs.
Proof.
  intros U K S. assert (B : forall new old x, holds_chars limit (nlen new) = true -> become limit new old r x -> r = ST_SUCCESS /\ x = new).
  { intros new old x E. unfold become. now rewrite E. }
  destruct U.
  - apply trunc_str in S; assumption.
  - eapply B; [|exact S]. exact K.
  - cbn [sspec] in S. eapply del_str in S; eauto.
  - apply ins_str in S; [|assumption]. eapply B; eauto.
  - apply set_str in S. exact S.
  - cbn [sspec] in S. cbn [app] in S. eapply B; eauto.
  - cbn [sspec] in S. eapply B; eauto.
  - exact S.
Qed.
Lemma sdemands_app a b : sdemands (a ++ b) = sdemands a + sdemands b.
Proof. induction a as [|o a IH]; cbn [app sdemands]; [reflexivity|]. rewrite IH. lia. Qed.
Lemma sundo_sums cs o u ds : sundo cs o u ds -> nlen cs < W64 -> nlen ds < W64 -> sums_ok o /\ sums_ok u /\ nlen ds <= nlen cs + sdemand o.
Proof.
  intros U L M. destruct U; cbn [sums_ok sdemand] in *; rewrite ?nlen_app in *; try change (nlen [c]) with 1 in *;
    try change (nlen [d]) with 1 in *; rewrite ?nlen_nil in *; auto; repeat split; lia.
Qed.
Lemma sundo_len cs o u ds : sundo cs o u ds -> nlen ds <= nlen cs + sdemand o.
Proof.
  intros U. destruct U; cbn [sdemand] in *; rewrite ?nlen_app in *; try change (nlen [c]) with 1 in *;
    try change (nlen [d]) with 1 in *; rewrite ?nlen_nil in *; auto; lia.
Qed.
Lemma session_sums cs ops us ds : session sundo cs ops us ds -> nlen cs + sdemands ops < W64 -> Forall sums_ok ops /\ Forall sums_ok us.
Proof.
  induction 1 as [x|x o u y ops us z U _ IH]; intros L; [now split|]. cbn [sdemands] in L. pose proof (sundo_len _ _ _ _ U).
  destruct (sundo_sums _ _ _ _ U) as (A & B & _); try lia. destruct IH as [A1 B1]; [lia|].
  split; [now constructor|]. apply Forall_app. auto.
Qed.
Lemma run_sops_app a b s rs s1 (w w1 : Mem.world N) : run_sops s a w = Ok (rs, s1) w1 ->
  run_sops s (a ++ b) w = match run_sops s1 b w1 with Ok (rs2, s2) w2 => Ok (rs ++ rs2, s2) w2 | Fault f => Fault f end.
Proof.
  revert s rs w. induction a as [|o a IH]; intros s rs w E; cbn [app run_sops] in *.
  - unfold ret in E. injection E as <- <- <-. now destruct (run_sops s b w) as [[? ?]|].
  - unfold bind in *. destruct (run_sop s o w) as [[r sm] wm|]; [|discriminate].
    destruct (run_sops sm a wm) as [[r2 sn] wn|] eqn:E2; [|discriminate]. unfold ret in *. injection E as <- <- <-.
    rewrite (IH _ _ _ E2). destruct (run_sops sn b wn) as [[? ?]|]; reflexivity.
Qed.
Lemma undo_string (w : Mem.world N) s cs ops us ds rs s1 w1 :
  sreached w s cs -> session sundo cs ops us ds -> sroom (nlen cs + sdemands (ops ++ us)) ->
  run_sops s ops w = Ok (rs, s1) w1 -> Forall (eq ST_SUCCESS) rs ->
  sshows w1 s1 ds /\
  exists rs2 s2 w2, run_sops s1 us w1 = Ok (rs2, s2) w2 /\ Forall (eq ST_SUCCESS) rs2 /\ sshows w2 s2 cs.
Proof.
  intros H X RM ER OK. apply sreached_rep in H as (pre & post & R & NF). pose proof (srep_behaves _ _ _ _ _ R NF) as BH.
  assert (K : holds_chars (limit_of s) (nlen cs) = true).
  { destruct R as [R _]. apply brep_le in R. rewrite nlen_app in R. change (nlen [0]) with 1 in R. unfold limit_of.
    destruct (v_alloc (s_vec s)); cbn [holds_chars]; lia. }
  rewrite sdemands_app in RM. unfold sroom in RM.
  destruct (session_sums _ _ _ _ X) as [A1 A2]; [lia|].
  destruct (BH ops A1) as (rs' & w' & s' & cs' & E & S & SH). { unfold sroom. lia. }
  rewrite ER in E. injection E as <- <- <-.
  destruct (sessions sundo (sspec (limit_of s)) (fun x => holds_chars (limit_of s) (nlen x) = true)
    (sundo_forth _) (sundo_back _) _ _ _ _ X K _ _ (sspecs_steps _ _ _ _ _ S) OK) as (-> & KD & B).
  split; [exact SH|].
  destruct (BH (ops ++ us)) as (rs2 & w2 & s2 & cs2 & E2 & S2 & SH2).
  { apply Forall_app. auto. } { rewrite sdemands_app. unfold sroom. lia. }
  rewrite (run_sops_app _ _ _ _ _ _ _ ER) in E2.
  apply sspecs_steps, steps_app in S2 as (ra & y & rb & -> & Sa & Sb).
  destruct (run_sops s1 us w1) as [[r3 s3] w3|]; [|discriminate]. injection E2 as E2 -> ->.
  assert (LA : length ra = length ops /\ length rs = length ops).
  { split; [clear -Sa|clear -S; apply sspecs_steps in S as Sa; clear S].
    - revert cs ra Sa. induction ops as [|o ops IH]; intros cs ra; cbn [steps]; [now intros [-> _]|].
      intros (r & ? & rs' & -> & _ & Q). cbn [length]. now rewrite (IH _ _ Q).
    - revert cs rs Sa. induction ops as [|o ops IH]; intros cs rs; cbn [steps]; [now intros [-> _]|].
      intros (r & ? & rs' & -> & _ & Q). cbn [length]. now rewrite (IH _ _ Q). }
  assert (ra = rs /\ rb = r3) as [-> ->].
  { destruct (app_inj_len _ _ _ _ E2) as [<- <-]; [lia|auto]. }
  destruct (sessions sundo (sspec (limit_of s)) (fun x => holds_chars (limit_of s) (nlen x) = true)
    (sundo_forth _) (sundo_back _) _ _ _ _ X K _ _ Sa OK) as (-> & _ & _).
  destruct (B _ _ Sb) as [B1 ->]. exists r3, s2, w2. auto.
Qed.
Lemma sundo_granted cs o u ds r ds' : sundo cs o u ds -> sspec None o cs r ds' -> r = ST_SUCCESS.
Proof.
  intros U S.
  destruct U.
  - now destruct S.
  - now apply trunc_str in S as [-> _].
  - apply ins_str in S; [|assumption]. now destruct S.
  - cbn [sspec] in S. now apply (del_str _ _ cs ds x) in S as [-> _].
  - now apply set_str in S as [-> _].
  - now destruct S.
  - cbn [sspec] in S. rewrite nlen_app in S. replace (nlen cs <=? nlen cs + nlen x) with true in S by lia. now destruct S.
  - now destruct S.
Qed.
Lemma session_granted cs ops us ds : session sundo cs ops us ds -> forall rs ds', steps (sspec None) ops cs rs ds' -> Forall (eq ST_SUCCESS) rs.
Proof.
  induction 1 as [x|x o u y ops us z U _ IH]; intros rs ds' S; cbn [steps] in S; [destruct S as [-> _]; constructor|].
  destruct S as (r & y' & rs' & -> & S0 & S1). pose proof (sundo_granted _ _ _ _ _ _ U S0) as ->.
  destruct (sundo_forth None _ _ _ _ _ U eq_refl S0) as [-> _]. constructor; [reflexivity|]. eapply IH, S1.
Qed.
Lemma undo_string_growable (w : Mem.world N) s cs ops us ds :
  sreached_own w s cs -> session sundo cs ops us ds -> sroom (nlen cs + sdemands (ops ++ us)) ->
  exists rs s1 w1, run_sops s ops w = Ok (rs, s1) w1 /\ Forall (eq ST_SUCCESS) rs.
Proof.
  intros H X RM. apply sreached_own_rep in H as (R & NF & AL). rewrite sdemands_app in RM. unfold sroom in RM.
  destruct (session_sums _ _ _ _ X) as [A1 A2]; [lia|].
  destruct (srep_behaves _ _ _ _ _ R NF ops A1) as (rs & w' & s' & cs' & E & S & _). { unfold sroom. lia. }
  rewrite (limit_own _ AL) in S. exists rs, s', w'. split; [exact E|]. eapply session_granted; [exact X|]. apply sspecs_steps, S.
Qed.
(** Cutting a string at its own size is refused: appending nothing cannot be taken back by Truncate. *)
Lemma truncate_same (w : Mem.world N) s cs : sreached w s cs -> sroom (nlen cs) ->
  exists s' w', run_sops s [SAppend []; STruncate (nlen cs)] w = Ok ([ST_SUCCESS; ST_INVALID_ARGUMENT], s') w' /\ sshows w' s' cs.
Proof.
  intros H RM. apply sreached_rep in H as (pre & post & R & NF).
  assert (K : holds_chars (limit_of s) (nlen cs) = true).
  { destruct R as [R _]. apply brep_le in R. rewrite nlen_app in R. change (nlen [0]) with 1 in R. unfold limit_of.
    destruct (v_alloc (s_vec s)); cbn [holds_chars]; lia. }
  destruct (srep_behaves _ _ _ _ _ R NF [SAppend []; STruncate (nlen cs)]) as (rs & w' & s' & cs' & E & S & SH).
  { repeat constructor. } { cbn [sdemands sdemand]. change (nlen (@nil N)) with 0. now rewrite !N.add_0_r. }
  apply sspecs_steps in S. cbn [steps] in S. destruct S as (r1 & y1 & rs1 & -> & S1 & r2 & y2 & rs2 & -> & S2 & -> & ->).
  cbn [sspec] in S1. rewrite app_nil_r in S1. unfold become in S1. rewrite K in S1. destruct S1 as [-> ->].
  cbn [sspec] in S2. replace (nlen cs <? nlen cs) with false in S2 by lia. unfold sspec_delete in S2.
  replace (nlen cs - nlen cs) with 0 in S2 by lia. replace (nlen cs <? nlen cs + 0) with false in S2 by lia.
  cbn [N.eqb] in S2. destruct S2 as [-> ->]. exists s', w'. auto.
Qed.

(** Undoing calls on bitsets and lists. *)
From Verif Require Import Base NListFacts Status Mem MemFacts VectorModel VectorSpec VectorDriver
  VectorRep VectorProofs VectorProofs2 StringModel StringSpec StringDriver StringBytes StringProofs StringFinal
  BitsetModel BitsetSpec BitsetDriver BitsetBits BitsetProofs BitsetFinal ListSpec UndoSpec UndoProofs UndoProofs2.
From Coq Require Import ZifyBool ZifyNat ZifyN.

Definition bstep limit (o : bitop) (bs : list bool) (r : status) (cs : list bool) : Prop := bitstep limit o bs = (r, cs).
Lemma bitsteps_steps limit ops bs : steps (bstep limit) ops bs (fst (bitsteps limit ops bs)) (snd (bitsteps limit ops bs)).
Proof.
  revert bs. induction ops as [|o ops IH]; intros bs; cbn [steps bitsteps]; [now split|].
  destruct (bitstep limit o bs) as [r cs] eqn:E. specialize (IH cs). destruct (bitsteps limit ops cs) as [rs ds]. cbn [fst snd] in *.
  exists r, cs, rs. auto.
Qed.
Lemma change_mid f a x b : change_bit f (nlen a) (a ++ [x] ++ b) = (ST_SUCCESS, a ++ [f x] ++ b).
Proof.
  unfold change_bit, put_bit. rewrite !nlen_app. change (nlen [x]) with 1. replace (nlen a + (1 + nlen b) <=? nlen a) with false by lia.
  rewrite nfirst_app_l by reflexivity. rewrite nsub_mid by reflexivity. rewrite nskip_add_app by reflexivity. reflexivity.
Qed.
Lemma pop_last limit a x : bitstep limit BPop (a ++ [x]) = (ST_SUCCESS, a).
Proof.
  cbn [bitstep]. rewrite nlen_app. change (nlen [x]) with 1. replace (nlen a + 1 =? 0) with false by lia.
  replace (nlen a + 1 - 1) with (nlen a) by lia. now rewrite nfirst_app_l.
Qed.
Lemma holds_bits_le limit n m : m <= n -> holds_bits limit n = true -> holds_bits limit m = true.
Proof. destruct limit; cbn [holds_bits]; lia. Qed.
Lemma bundo_forth limit bs o u cs cs' : bundo bs o u cs -> holds_bits limit (nlen bs) = true ->
  bstep limit o bs ST_SUCCESS cs' -> cs' = cs /\ holds_bits limit (nlen cs) = true.
Proof.
  intros U K. unfold bstep. assert (ONE : forall x : bool, nlen [x] = 1) by reflexivity. destruct U; rewrite ?nlen_app, ?ONE in *.
  - cbn [bitstep]. destruct (holds_bits limit (nlen bs + 1)) eqn:E; intros H; [|discriminate]. now injection H as <-.
  - rewrite pop_last. intros H. injection H as <-. split; [reflexivity|]. eapply holds_bits_le; [|exact K]. lia.
  - cbn [bitstep]. rewrite change_mid. intros H. injection H as <-. auto.
  - cbn [bitstep]. rewrite change_mid. intros H. injection H as <-. auto.
  - cbn [bitstep]. rewrite change_mid. intros H. injection H as <-. auto.
  - cbn [bitstep]. rewrite change_mid. intros H. injection H as <-. auto.
  - cbn [bitstep]. intros H. injection H as <-. split; [reflexivity|]. unfold nlen. rewrite map_length. exact K.
  - cbn [bitstep]. intros H. injection H as _ <-. auto.
Qed.
Lemma bundo_back limit bs o u cs r bs' : bundo bs o u cs -> holds_bits limit (nlen bs) = true ->
  bstep limit u cs r bs' -> r = ST_SUCCESS /\ bs' = bs.
Proof.
  intros U K. unfold bstep. assert (ONE : forall x : bool, nlen [x] = 1) by reflexivity. destruct U; rewrite ?nlen_app, ?ONE in *.
  - rewrite pop_last. intros H. now injection H as <- <-.
  - cbn [bitstep]. rewrite K. intros H. now injection H as <- <-.
  - cbn [bitstep]. rewrite change_mid, negb_involutive. intros H. now injection H as <- <-.
  - cbn [bitstep]. rewrite change_mid. intros H. now injection H as <- <-.
  - cbn [bitstep]. rewrite change_mid. intros H. now injection H as <- <-.
  - cbn [bitstep]. rewrite change_mid. intros H. now injection H as <- <-.
  - cbn [bitstep]. intros H. injection H as <- <-. split; [reflexivity|]. rewrite map_map. rewrite <- (map_id bs) at 2.
    apply map_ext. intros b. apply negb_involutive.
  - cbn [bitstep]. intros H. now injection H as <- <-.
Qed.
Lemma legal_app limit a b bs : legal limit (a ++ b) bs <-> legal limit a bs /\ legal limit b (snd (bitsteps limit a bs)).
Proof.
  revert bs. induction a as [|o a IH]; intros bs; cbn [app legal bitsteps]; [tauto|].
  destruct (bitstep limit o bs) as [r cs]. cbn [snd]. rewrite IH. destruct (bitsteps limit a cs). cbn [snd]. tauto.
Qed.
Lemma bundo_legal limit bs o u cs : bundo bs o u cs -> holds_bits limit (nlen bs) = true -> legal_op limit u cs.
Proof.
  intros U K. destruct U; cbn [legal_op]; auto.
  - rewrite nlen_app. change (nlen [b]) with 1. lia.
  - rewrite nlen_app in K. exact K.
Qed.
Lemma session_legal limit bs ops us cs : session bundo bs ops us cs -> holds_bits limit (nlen bs) = true ->
  Forall (eq ST_SUCCESS) (fst (bitsteps limit ops bs)) -> legal limit us cs.
Proof.
  induction 1 as [x|x o u y ops us z U X IH]; intros K OK; [exact Logic.I|]. cbn [bitsteps] in OK.
  destruct (bitstep limit o x) as [r y'] eqn:E. pose proof (bitsteps_steps limit ops y') as ST.
  destruct (bitsteps limit ops y') as [rs z'] eqn:E2. cbn [fst snd] in *. inv OK. destruct (bundo_forth _ _ _ _ _ _ U K E) as [-> KY].
  rewrite E2 in IH. apply legal_app. split; [apply IH; assumption|]. cbn [legal]. split; [|exact Logic.I].
  destruct (sessions bundo (bstep limit) (fun x => holds_bits limit (nlen x) = true) (bundo_forth _) (bundo_back _) _ _ _ _ X KY _ _ ST) as (_ & _ & B); [assumption|].
  destruct (B _ _ (bitsteps_steps limit us z)) as [_ ->]. eapply bundo_legal; eauto.
Qed.
Lemma pushes_app a b : pushes (a ++ b) = pushes a + pushes b.
Proof. induction a as [|o a IH]; [reflexivity|]. destruct o; cbn [app pushes]; rewrite IH; lia. Qed.
Lemma run_bitops_app a b s rs s1 (w w1 : Mem.world N) : run_bitops s a w = Ok (rs, s1) w1 ->
  run_bitops s (a ++ b) w = match run_bitops s1 b w1 with Ok (rs2, s2) w2 => Ok (rs ++ rs2, s2) w2 | Fault f => Fault f end.
Proof.
  revert s rs w. induction a as [|o a IH]; intros s rs w E; cbn [app run_bitops] in *.
  - unfold ret in E. injection E as <- <- <-. now destruct (run_bitops s b w) as [[? ?]|].
  - unfold bind in *. destruct (run_bitop s o w) as [[r sm] wm|]; [|discriminate].
    destruct (run_bitops sm a wm) as [[r2 sn] wn|] eqn:E2; [|discriminate]. unfold ret in *. injection E as <- <- <-.
    rewrite (IH _ _ _ E2). destruct (run_bitops sn b wn) as [[? ?]|]; reflexivity.
Qed.
Lemma bitsteps_app limit a b bs : bitsteps limit (a ++ b) bs =
  (fst (bitsteps limit a bs) ++ fst (bitsteps limit b (snd (bitsteps limit a bs))), snd (bitsteps limit b (snd (bitsteps limit a bs)))).
Proof.
  revert bs. induction a as [|o a IH]; intros bs; cbn [app bitsteps].
  - cbn [fst snd app]. now destruct (bitsteps limit b bs).
  - destruct (bitstep limit o bs) as [r cs]. rewrite IH. now destruct (bitsteps limit a cs).
Qed.
Lemma bitroom_le n m : m <= n -> bitroom n -> bitroom m.
Proof. unfold bitroom. intros L H. pose proof (N.div_le_mono m n 8 ltac:(discriminate) L). nia. Qed.
Lemma undo_bitset limit (w : Mem.world N) b bs ops us cs rs b1 w1 :
  bitreached limit w b bs -> session bundo bs ops us cs -> legal limit ops bs -> bitroom (nlen bs + pushes (ops ++ us)) ->
  run_bitops b ops w = Ok (rs, b1) w1 -> Forall (eq ST_SUCCESS) rs ->
  bitshows w1 b1 cs /\
  exists rs2 b2 w2, run_bitops b1 us w1 = Ok (rs2, b2) w2 /\ Forall (eq ST_SUCCESS) rs2 /\ bitshows w2 b2 bs.
Proof.
  intros H X LG RM ER OK. apply bitreached_rep in H as (pre & l & post & R & NF & <- & _).
  pose proof (xrep_behaves _ _ _ _ _ _ R NF) as BH.
  assert (K : holds_bits (bitlimit b) (nlen bs) = true).
  { destruct R as [RB _ _ RL _]. apply brep_le in RB. unfold bitlimit. destruct (v_alloc (bs_bits b)); cbn [holds_bits]; [reflexivity|].
    rewrite RL in RB. lia. }
  rewrite pushes_app in RM.
  destruct (BH ops LG) as (b' & w' & E & SH). { eapply bitroom_le; [|exact RM]. lia. }
  rewrite ER in E. injection E as -> <- <-.
  destruct (sessions bundo (bstep (bitlimit b)) (fun x => holds_bits (bitlimit b) (nlen x) = true)
    (bundo_forth _) (bundo_back _) _ _ _ _ X K _ _ (bitsteps_steps _ _ _) OK) as (EZ & KD & B).
  rewrite EZ in SH. split; [exact SH|].
  destruct (BH (ops ++ us)) as (b2 & w2 & E2 & SH2).
  { apply legal_app. split; [exact LG|]. rewrite EZ. eapply session_legal; eauto. } { rewrite pushes_app. exact RM. }
  rewrite (run_bitops_app _ _ _ _ _ _ _ ER) in E2. rewrite bitsteps_app in E2, SH2. cbn [fst snd] in *. rewrite EZ in *.
  destruct (B _ _ (bitsteps_steps _ _ _)) as [B1 B2]. rewrite B2 in SH2.
  destruct (run_bitops b1 us w1) as [[r3 s3] w3|]; [|discriminate]. injection E2 as E2 -> ->. apply app_inv_head in E2. subst r3.
  eauto 10.
Qed.
Lemma undo_bitset_runs limit (w : Mem.world N) b bs ops : bitreached limit w b bs -> legal limit ops bs -> bitroom (nlen bs + pushes ops) ->
  exists b1 w1, run_bitops b ops w = Ok (fst (bitsteps limit ops bs), b1) w1.
Proof.
  intros H LG RM. apply bitreached_rep in H as (pre & l & post & R & NF & <- & _).
  destruct (xrep_behaves _ _ _ _ _ _ R NF ops LG RM) as (b' & w' & E & _). eauto.
Qed.

(** What the interleaving theorem says about calls, about readers, and about whole programs. *)
From Coq Require Import ZifyBool ZifyNat ZifyN.
From Verif Require Import Base Status VectorModel VectorDriver StringModel StringSpec StringDriver BitsetModel BitsetSpec
  BitsetDriver ProgSpec ProgProofs ThreadSpec ThreadProofs ThreadCode Mem.

Section Calls.
  Context {C : Type}.
  Notation code := (code C).
  Implicit Types (w : world C) (O : N -> Prop).

  Lemma reads_keep {A} (c : code A) w a w' : reads_only c -> run c w = Ok a w' -> w' = w.
  Proof.
    revert w. induction c as [a0|f|p n j IH|p f j IH|j IH|p x j IH|e n j IH|p e n j IH|p e n j IH|x j IH|x j IH|d j IH];
      intros w H R; cbn in H; try contradiction; cbn [run] in R; unfold bind, ret, fail in R; try congruence.
    - destruct (mread p n w) as [x w1|] eqn:E; [|discriminate]. unfold mread in E. destruct p as [p|]; [|discriminate].
      destruct (heap w (pb p)); [|discriminate]. destruct (_ <=? _); [|discriminate]. injection E as <- <-. exact (IH _ _ (H _) R).
    - destruct (mtail p f w) as [x w1|] eqn:E; [|discriminate]. unfold mtail in E. destruct p as [p|]; [|discriminate].
      destruct (heap w (pb p)); [|discriminate]. destruct (f _); [|discriminate]. injection E as <- <-. exact (IH _ _ (H _) R).
    - exact (IH _ _ (H _) R).
  Qed.
  (** Reads give the same results in every larger memory. *)
  Lemma run_there {A} (c : code A) w a w' w1 O : agree O w w1 -> (forall b, heap w b <> None -> O b) ->
    reads_only c -> run c w = Ok a w' -> run c w1 = Ok a w1.
  Proof.
    intros HA HL. revert w'. induction c as [a0|f|p n j IH|p f j IH|j IH|p x j IH|e n j IH|p e n j IH|p e n j IH|x j IH|x j IH|d j IH];
      intros w' H R; cbn in H; try contradiction; cbn [run] in *; unfold bind, ret, fail in *; try congruence; pose proof HA as (_ & _ & _ & _ & EC & EH).
    - destruct (mread p n w) as [x w2|] eqn:E; [|discriminate]. unfold mread in *. destruct p as [p|]; [|discriminate].
      destruct (heap w (pb p)) eqn:EB; [|discriminate]. rewrite <- EH by (apply HL; congruence). rewrite EB.
      destruct (_ <=? _); [|discriminate]. injection E as <- <-. exact (IH _ _ (H _) R).
    - destruct (mtail p f w) as [x w2|] eqn:E; [|discriminate]. unfold mtail in *. destruct p as [p|]; [|discriminate].
      destruct (heap w (pb p)) eqn:EB; [|discriminate]. rewrite <- EH by (apply HL; congruence). rewrite EB.
      destruct (f _); [|discriminate]. injection E as <- <-. exact (IH _ _ (H _) R).
    - cbn in *. rewrite <- EC. exact (IH _ _ (H _) R).
  Qed.
  Lemma ro_there {A} (m : M C A) w a w' w1 O : ro m -> agree O w w1 -> (forall b, heap w b <> None -> O b) ->
    m w = Ok a w' -> m w1 = Ok a w1.
  Proof. intros [c HC HR] HA HL H. rewrite <- HC in *. exact (run_there _ _ _ _ _ _ HA HL HR H). Qed.

  Lemma live_after {A} (c : code A) w a w' : run c w = Ok a w' -> forall b, heap w' b <> None -> heap w b <> None \/ nextb w <= b < nextb w'.
  Proof. intros R b H. exact (live_back _ _ _ _ _ R H). Qed.

  (** ** Calls *)
  Theorem calls_interleaved {A} memory0 (ms : N -> M C A) (cs : N -> code A) (ws : N -> world C) (last : N -> N)
      (rs : N -> A) (ends : N -> world C) :
    (forall t, amounts_to (cs t) (ms t)) ->
    (forall t, ms t (ws t) = Ok (rs t) (ends t)) ->
    (forall t, nextb (ends t) <= last t) ->
    apart cs ws last -> holds_all memory0 ws last ->
    forall schedule, exists m,
      play schedule (start memory0 cs ws) = Some m /\
      (forall t, steps (cs t) (ws t) <= turns t schedule ->
         exists w, finished m t (rs t) w /\ same_view ws last t w (ends t)) /\
      (forall b, (forall t, ~ In b (changes (cs t) (ws t))) -> memory m b = memory0 b).
  Proof.
    intros HC HM HN HA HH schedule.
    set (e := fun t => match run (cs t) (ws t) with Ok _ w => w | Fault _ => ws t end).
    assert (HE : forall t, run (cs t) (ws t) = Ok (rs t) (e t) /\ same_world (e t) (ends t)).
    { intros t. unfold e. specialize (HC t (ws t)). rewrite HM in HC. destruct (run (cs t) (ws t)); cbn in HC; [|contradiction].
      destruct HC as (-> & S). auto. }
    destruct (interleaved memory0 cs ws last rs e (fun t => proj1 (HE t))) with (schedule := schedule) as (m & P & F & Q).
    - intros t. destruct (HE t) as (_ & (_ & EN & _)). rewrite EN. apply HN.
    - exact HA.
    - exact HH.
    - exists m. split; [exact P|]. split; [|exact Q]. intros t HT. destruct (F t HT) as (w & FN & SV). exists w. split; [exact FN|].
      destruct (HE t) as (_ & (EH & ? & ? & ? & ? & ?)). destruct SV as (? & ? & ? & ? & ? & SH). unfold same_view.
      repeat (split; [congruence|]). intros b HB. rewrite SH by exact HB. apply EH.
  Qed.
  (** Readers can share everything. *)
  Theorem readers_interleaved {A} (ms : N -> M C A) (cs : N -> code A) (w : world C) (rs : N -> A) (ends : N -> world C) :
    (forall t, amounts_to (cs t) (ms t)) -> (forall t, reads_only (cs t)) ->
    (forall t, ms t w = Ok (rs t) (ends t)) ->
    forall schedule, exists m,
      play schedule (start (heap w) cs (fun _ => w)) = Some m /\
      (forall t, steps (cs t) w <= turns t schedule -> exists w', finished m t (rs t) w' /\ same_world w' w) /\
      (forall b, memory m b = heap w b).
  Proof.
    intros HC HR HM schedule.
    assert (HE : forall t, same_world (ends t) w).
    { intros t. pose proof (HC t w) as H. rewrite HM in H. destruct (run (cs t) w) eqn:E; cbn in H; [|contradiction].
      destruct H as (_ & S). apply (reads_keep _ _ _ _ (HR t)) in E. subst. apply same_sym, S. }
    destruct (calls_interleaved (heap w) ms cs (fun _ => w) (fun _ => nextb w) rs ends HC HM) with (schedule := schedule) as (m & P & F & Q).
    - intros t. destruct (HE t) as (_ & EN & _). lia.
    - intros t u b _ H. rewrite reads_changes in H by apply HR. destruct H.
    - intros t b _. reflexivity.
    - assert (MM : forall b, memory m b = heap w b).
      { intros b. apply Q. intros t. rewrite reads_changes by apply HR. exact (fun x => x). }
      exists m. split; [exact P|]. split; [|exact MM].
      intros t HT. destruct (F t HT) as (w' & FN & SV). exists w'. split; [exact FN|].
      destruct (HE t) as (EH & ? & ? & ? & ? & ?). destruct SV as (? & ? & ? & ? & ? & SH). destruct FN as (_ & FW). cbn in *.
      split; [intros b; rewrite FW; cbn; apply MM|]. repeat split; congruence.
  Qed.
End Calls.

(** ** Programs *)
Lemma obj_there w w1 O x k : agree O w w1 -> (forall b, heap w b <> None -> O b) -> obj_shows w x k -> obj_shows w1 x k.
Proof.
  intros HA HL. destruct x as [[v|s|b]|], k as [[c xs cap|cs|bs]|]; cbn; auto.
  - intros ((H1 & H2) & H3). split; [|exact H3]. split; [exact H1|]. intros i. eapply (ro_there _ w _ w w1 O); eauto using ro_read_elem.
  - intros (H1 & H2 & H3). split; [|split].
    + eapply (ro_there _ w _ w w1 O); eauto using ro_sget_size.
    + intros i HI. eapply (ro_there _ w _ w w1 O); eauto using ro_sget_char.
    + eapply (ro_there _ w _ w w1 O); eauto using ro_read.
  - intros (H1 & H2 & H3 & H4 & H5). split; [exact H1|]. split; [|split; [|split; [|exact H5]]].
    + intros i HI. eapply (ro_there _ w _ w w1 O); eauto using ro_bs_test.
    + eapply (ro_there _ w _ w w1 O); eauto using ro_bs_test_msb.
    + eapply (ro_there _ w _ w w1 O); eauto using ro_bs_test_lsb.
Qed.

Theorem programs_interleaved memory0 (ps : N -> list pstep) (cs : N -> code N (list status * objs)) (ws : N -> world N) (last : N -> N) :
  (forall t, amounts_to (cs t) (run_prog [] (ps t)) /\ tidy (cs t)) ->
  (forall t b, heap (ws t) b = None) -> (forall t, allocator_ok (ws t)) -> (forall t, plegals (ps t) [] (dlog (ws t))) ->
  (forall t r w, run_prog [] (ps t) (ws t) = Ok r w -> nextb w <= last t) ->
  (forall t u b, t <> u -> nextb (ws t) <= b < last t -> ~ (nextb (ws u) <= b < last u)) ->
  (forall t b, nextb (ws t) <= b < last t -> memory0 b = None) ->
  exists needed : N -> N, forall schedule, exists m,
    play schedule (start memory0 cs ws) = Some m /\
    (forall t, needed t <= turns t schedule -> exists rs os w K,
       finished m t (rs, os) w /\ pspecs (ps t) [] (dlog (ws t)) rs K (dlog w) /\ Forall2 (obj_shows w) os K /\
       (Forall (fun k => k = None) K -> forall b, nextb (ws t) <= b < last t -> memory m b = None)) /\
    (forall b, (forall t, ~ (nextb (ws t) <= b < last t)) -> memory m b = memory0 b).
Proof.
  intros HC HE HO HP HL HD HM. exists (fun t => steps (cs t) (ws t)). intros schedule.
  assert (WO : forall t, world_ok (ws t)) by (intros t b _; apply HE).
  pose proof (fun t => program_ok (ws t) (ps t) (WO t) (HO t) (HP t)) as PO.
  set (r := fun t => match run_prog [] (ps t) (ws t) with Ok a _ => a | Fault _ => ([], []) end).
  set (e := fun t => match run_prog [] (ps t) (ws t) with Ok _ w => w | Fault _ => ws t end).
  assert (RE : forall t, run_prog [] (ps t) (ws t) = Ok (r t) (e t)).
  { intros t. unfold r, e. destruct (PO t) as (rs & os & w & K & E & _). rewrite E. reflexivity. }
  assert (OWN : forall t b, owns ws last t b <-> nextb (ws t) <= b < last t).
  { intros t b. unfold owns. rewrite HE. intuition congruence. }
  assert (RUN : forall t, exists w, run (cs t) (ws t) = Ok (r t) w /\ same_world w (e t)).
  { intros t. pose proof (proj1 (HC t) (ws t)) as S. rewrite RE in S. destruct (run (cs t) (ws t)); cbn in S; [|contradiction].
    destruct S as (-> & S). eauto. }
  assert (CH : forall t b, In b (changes (cs t) (ws t)) -> nextb (ws t) <= b < last t).
  { intros t b H. destruct (RUN t) as (w & R & (_ & EN & _)). destruct (proj2 (HC t) _ _ _ R b H) as [L|L]; [rewrite HE in L; congruence|].
    specialize (HL t _ _ (RE t)). lia. }
  destruct (calls_interleaved memory0 (fun t => run_prog [] (ps t)) cs ws last r e) with (schedule := schedule) as (m & P & F & Q).
  - intros t. apply HC.
  - exact RE.
  - intros t. exact (HL t _ _ (RE t)).
  - intros t u b NE H. rewrite OWN. apply (HD t u b NE), (CH t b H).
  - intros t b H. rewrite HE. apply (HM t). apply OWN, H.
  - exists m. split; [exact P|]. split.
    + intros t HT. destruct (F t HT) as (w & FN & (? & ? & ? & ED & ? & SH)). destruct (PO t) as (rs & os & w' & K & E & SP & SO & _ & FREE).
      assert (HR : r t = (rs, os)) by (unfold r; rewrite E; reflexivity).
      assert (HW : e t = w') by (unfold e; rewrite E; reflexivity).
      exists rs, os, w, K. rewrite HR in FN. split; [exact FN|]. rewrite ED, HW. split; [exact SP|]. split.
      * assert (AG : agree (owns ws last t) w' w).
        { rewrite <- HW. unfold agree. repeat (split; [congruence|]). intros b HB. symmetry. apply SH, HB. }
        assert (LV : forall b, heap w' b <> None -> owns ws last t b).
        { intros b HB. destruct (RUN t) as (w2 & R & (EH & EN & _)). rewrite <- HW, <- EH in HB.
          destruct (live_after _ _ _ _ R b HB) as [L|L]; [left; exact L|]. right. specialize (HL t _ _ (RE t)). lia. }
        clear - SO AG LV. induction SO as [|x k xs ks H _ IH]; constructor; [exact (obj_there w' w _ x k AG LV H)|exact IH].
      * intros HK b HB. destruct FN as (_ & FW). change (memory m b) with (heap (set_heap (sees (threads m t)) (memory m)) b).
        rewrite <- FW, SH by (apply OWN, HB). rewrite HW, (FREE HK). apply HE.
    + intros b HB. apply Q. intros t HI. exact (HB t (CH t b HI)).
Qed.

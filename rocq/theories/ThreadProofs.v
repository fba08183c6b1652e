(** Threads whose calls touch different memory do not disturb one another. *)
From Coq Require Import ZifyBool ZifyNat ZifyN.
From Verif Require Import Base Status Mem ThreadSpec.

Section Proofs.
  Context {C : Type}.
  Notation code := (code C).
  Implicit Types (w : world C) (O : N -> Prop).

  Definition agree O w w' : Prop :=
    nextb w = nextb w' /\ orc w = orc w' /\ tick w = tick w' /\ dlog w = dlog w' /\ checked w = checked w' /\
    forall b, O b -> heap w b = heap w' b.

  (** The blocks that the next step changes. *)
  Definition now {A} (c : code A) w : list N :=
    match c with
    | Write p _ _ => block_of p
    | Alloc e n _ => match alloc e n w with Ok r _ => block_of (snd r) | _ => [] end
    | Realloc p e n _ => match realloc p e n w with Ok r _ => block_of p ++ block_of (snd r) | _ => [] end
    | Dealloc p _ _ _ => block_of p
    | Place _ _ => [nextb w]
    | Drop b _ => [b]
    | _ => []
    end.
  Definition is_done {A} (c : code A) : bool := match c with Done _ => true | _ => false end.

  Ltac inv H := inversion H; subst; clear H.

  Lemma step_run {A} (c : code A) w c' w' : step c w = Ok c' w' ->
    run c w = run c' w' /\ changes c w = now c w ++ changes c' w' /\
    steps c w = (if is_done c then 0 else 1) + steps c' w'.
  Proof.
    destruct c; cbn [step run changes steps now is_done]; unfold bind, ret, fail; intros H;
      try (inv H; repeat split; reflexivity);
      match type of H with context [match ?m with _ => _ end] => destruct m; [|discriminate] end; inv H;
      rewrite <- ?app_assoc; repeat split; reflexivity.
  Qed.
  Lemma step_safe {A} (c : code A) w a w' : run c w = Ok a w' -> exists c' w1, step c w = Ok c' w1.
  Proof.
    destruct c; cbn [step run]; unfold bind, ret, fail; intros H; try discriminate; eauto;
      match type of H with context [match ?m with _ => _ end] => destruct m; [|discriminate] end; eauto.
  Qed.

  Record local_step {A} (c : code A) w c' w' w1 O : Prop := mklocal {
    ls_next : nextb w <= nextb w';
    ls_live : forall b, heap w' b <> None -> heap w b <> None \/ nextb w <= b < nextb w';
    ls_there : exists w1', step c w1 = Ok c' w1' /\ agree O w' w1' /\ (forall b, ~ In b (now c w) -> heap w1' b = heap w1 b) }.

  Ltac live := let b := fresh "b" in let H := fresh "H" in intros b H; cbn in *; unfold hset in *;
    repeat match type of H with context [?x =? ?y] => destruct (x =? y) eqn:? end;
    try (right; lia); try (left; congruence); try congruence; auto.
  Ltac agrees HA := unfold agree; cbn; repeat (split; [congruence|]);
    let b := fresh "b" in let H := fresh "H" in intros b H; unfold hset;
    repeat match goal with |- context [b =? ?y] => destruct (b =? y) eqn:? end; auto.
  Ltac others := let b := fresh "b" in let H := fresh "H" in intros b H; cbn [now] in H;
    repeat match goal with E0 : alloc _ _ _ = _ |- _ => rewrite E0 in H; clear E0 | E0 : realloc _ _ _ _ = _ |- _ => rewrite E0 in H; clear E0 end;
    cbn in *; unfold hset;
    repeat match goal with |- context [b =? ?y] => destruct (b =? y) eqn:? end; try reflexivity;
    exfalso; apply H; cbn; rewrite ?in_app_iff; cbn; lia.

  Lemma is_local {A} (c : code A) w c' w' w1 O :
    agree O w w1 -> (forall b, heap w b <> None -> O b) -> step c w = Ok c' w' -> local_step c w c' w' w1 O.
  Proof.
    intros HA HL. pose proof HA as (EN & EO & ET & ED & EC & EH).
    assert (EL : forall b x, heap w b = Some x -> heap w1 b = Some x).
    { intros b x E. rewrite <- EH; [exact E|]. apply HL. congruence. }
    destruct c; cbn [step]; unfold bind, ret, fail; intros H; try discriminate.
    - inv H. split; [lia|live|]. cbn. eauto 6.
    - (* Read *) destruct (mread p n w) as [x w2|] eqn:E; [|discriminate]. inv H. unfold mread in E.
      destruct p as [p|]; [|discriminate]. destruct (heap w (pb p)) eqn:EB; [|discriminate].
      destruct (_ <=? _) eqn:ER; [|discriminate]. inv E. split; [lia|live|].
      exists w1. cbn. unfold bind, mread. rewrite (EL _ _ EB), ER. repeat split; auto; apply HA.
    - (* Tail *) destruct (mtail p f w) as [x w2|] eqn:E; [|discriminate]. inv H. unfold mtail in E.
      destruct p as [p|]; [|discriminate]. destruct (heap w (pb p)) eqn:EB; [|discriminate].
      destruct (f _) eqn:ER; [|discriminate]. inv E. split; [lia|live|].
      exists w1. cbn. unfold bind, mtail. rewrite (EL _ _ EB), ER. repeat split; auto; apply HA.
    - (* Build *) inv H. split; [lia|live|]. exists w1. cbn. unfold bind, mbuild. rewrite EC. repeat split; auto; apply HA.
    - (* Write *) destruct (mwrite p x w) as [u w2|] eqn:E; [|discriminate]. inv H. unfold mwrite in E.
      destruct p as [p|]; [|discriminate]. destruct (heap w (pb p)) eqn:EB; [|discriminate].
      destruct (_ <=? _) eqn:ER; [|discriminate]. inv E. split; [cbn; lia|live|].
      { left. replace b with (pb p) by lia. congruence. }
      eexists. cbn [step]. unfold bind, mwrite. rewrite (EL _ _ EB), ER. split; [reflexivity|].
      split; [agrees HA|others].
    - (* Alloc *) destruct (alloc e n w) as [r w2|] eqn:E; [|discriminate]. inv H. pose proof E as E0. unfold alloc in E.
      destruct (_ && _) eqn:EA; [discriminate|]. destruct (orc w (tick w)) eqn:ER; inv E.
      + split; [cbn; lia|live|]. eexists. cbn [step]. unfold bind, alloc. rewrite <- EC, EA, <- EO, <- ET, ER.
        split; [reflexivity|]. split; [agrees HA|others].
      + split; [cbn; lia|live|]. eexists. cbn [step]. unfold bind, alloc. rewrite <- EC, EA, <- EO, <- ET, ER, <- EN.
        split; [reflexivity|]. split; [agrees HA|others].
    - (* Realloc *) destruct (realloc p e n w) as [r w2|] eqn:E; [|discriminate]. inv H. pose proof E as E0. unfold realloc in E.
      destruct (_ && _) eqn:EA; [discriminate|]. destruct p as [p|]; [|discriminate].
      destruct (heap w (pb p)) eqn:EB; [|discriminate]. destruct (negb _) eqn:EZ; [discriminate|].
      destruct (orc w (tick w)) eqn:ER; inv E.
      + split; [cbn; lia|live|]. eexists. cbn [step]. unfold bind, realloc.
        rewrite <- EC, EA, (EL _ _ EB), EZ, <- EO, <- ET, ER. split; [reflexivity|]. split; [agrees HA|others].
      + split; [cbn; lia|live|]. eexists. cbn [step]. unfold bind, realloc.
        rewrite <- EC, EA, (EL _ _ EB), EZ, <- EO, <- ET, ER, <- EN. split; [reflexivity|]. split; [agrees HA|others].
    - (* Dealloc *) destruct (dealloc p e n w) as [r w2|] eqn:E; [|discriminate]. inv H. unfold dealloc in E.
      destruct (_ && _) eqn:EA; [discriminate|]. destruct p as [p|].
      + destruct (heap w (pb p)) eqn:EB; [|discriminate]. destruct (negb _) eqn:EZ; [discriminate|]. inv E.
        split; [cbn; lia|live|]. eexists. cbn [step]. unfold bind, dealloc.
        rewrite <- EC, EA, (EL _ _ EB), EZ. split; [reflexivity|]. split; [agrees HA|others].
      + idtac. destruct (checked w) eqn:EZ; [discriminate|]. inv E. split; [lia|live|]. exists w1. cbn [step]. unfold bind, dealloc.
        rewrite <- EC. rewrite Bool.andb_false_r. repeat split; auto; congruence.
    - (* Log *) inv H. split; [cbn; lia|live|]. eexists. cbn [step]. unfold bind, mlog. split; [reflexivity|].
      split; [agrees HA|others].
    - (* Place *) inv H. split; [cbn; lia|live|]. eexists. cbn [step]. unfold bind, mplace. rewrite <- EN. split; [reflexivity|].
      split; [agrees HA|others].
    - (* Drop *) cbn in H. inv H. split.
      + destruct (heap w b); cbn; lia.
      + destruct (heap w b) eqn:EB; live.
      + eexists. cbn [step]. unfold bind, mdrop. split; [reflexivity|]. split.
        * destruct (heap w b) as [x|] eqn:EB; [rewrite (EL _ _ EB); agrees HA|]. destruct (heap w1 b) eqn:EB1; [|exact HA].
          agrees HA. replace b0 with b in * by lia. rewrite EH in EB by assumption. congruence.
        * destruct (heap w1 b); [others|auto].
  Qed.
  (** Names only grow. *)
  Lemma run_next {A} (c : code A) w a w' : run c w = Ok a w' -> nextb w <= nextb w'.
  Proof.
    revert w. induction c as [a0|f|p n k IH|p f k IH|k IH|p x k IH|e n k IH|p e n k IH|p e n k IH|x k IH|x k IH|b k IH];
      intros w H; [inv H; lia|discriminate|..];
      destruct (step_safe _ _ _ _ H) as (c' & w1 & E);
      pose proof (is_local _ _ _ _ w (fun _ => True) (conj eq_refl (conj eq_refl (conj eq_refl (conj eq_refl (conj eq_refl (fun b _ => eq_refl)))))) (fun _ _ => I) E) as [L _ _];
      destruct (step_run _ _ _ _ E) as (R & _); rewrite R in H;
      cbn [step] in E; unfold bind, ret in E;
      match type of E with match ?m with _ => _ end = _ => destruct m; [|discriminate] end; inv E;
      etransitivity; eauto.
  Qed.

  (** ** The invariant *)
  Section Machine.
    Context {A : Type} (memory0 : N -> option (list C)) (cs : N -> code A) (ws : N -> world C) (last : N -> N).
    Context (rs : N -> A) (ends : N -> world C).
    Hypothesis solo : forall t, run (cs t) (ws t) = Ok (rs t) (ends t).
    Hypothesis room : forall t, nextb (ends t) <= last t.
    Hypothesis split : apart cs ws last.
    Hypothesis held : holds_all memory0 ws last.

    Notation own := (owns ws last).
    (** Thread [t] is as it would be alone, in the world [w]; [n] is the number of its turns. *)
    Record on_course (mem : N -> option (list C)) (th : thread C A) (t n : N) w : Prop := mkcourse {
      oc_run : run (todo th) w = Ok (rs t) (ends t);
      oc_next : nextb (ws t) <= nextb w;
      oc_live : forall b, heap w b <> None -> own t b;
      oc_changes : incl (changes (todo th) w) (changes (cs t) (ws t));
      oc_steps : steps (todo th) w = steps (cs t) (ws t) - n;
      oc_agree : agree (own t) w (set_heap (sees th) mem) }.
    Definition fine (m : machine C A) (n : N -> N) : Prop :=
      (forall t, exists w, on_course (memory m) (threads m t) t (n t) w) /\
      (forall b, (forall t, ~ In b (changes (cs t) (ws t))) -> memory m b = memory0 b).

    Lemma fine_start : fine (start memory0 cs ws) (fun _ => 0).
    Proof.
      split; [|intros; reflexivity]. intros t. exists (ws t). cbn. constructor; cbn.
      - apply solo.
      - lia.
      - intros b H. left. exact H.
      - intros b H. exact H.
      - lia.
      - unfold agree. cbn. repeat (split; [reflexivity|]). intros b H. symmetry. apply held, H.
    Qed.

    Lemma is_done_steps (c : code A) w : steps c w = 0 -> forall a w', run c w = Ok a w' -> is_done c = true.
    Proof.
      intros H a w' R. destruct (step_safe _ _ _ _ R) as (c' & w1 & E). destruct (step_run _ _ _ _ E) as (_ & _ & ES).
      destruct (is_done c); [reflexivity|lia].
    Qed.

    Lemma fine_turn m n t : fine m n ->
      exists m', turn t m = Some m' /\ fine m' (fun u => if u =? t then 1 + n u else n u).
    Proof.
      intros (HT & HM). destruct (HT t) as (w & [R NX LV CH ST AG]).
      destruct (step_safe _ _ _ _ R) as (c' & w' & E).
      destruct (is_local _ _ _ _ _ _ AG LV E) as [NX' LV' (w1' & E1 & AG' & OT)].
      destruct (step_run _ _ _ _ E) as (RR & RC & RS).
      unfold turn. rewrite E1. eexists. split; [reflexivity|]. split.
      - intros u. cbn. destruct (N.eqb_spec u t) as [->|NE].
        + exists w'. rewrite RR in R. constructor; cbn.
          * exact R.
          * lia.
          * intros b H. destruct (LV' b H) as [L|L]; [apply LV, L|]. right.
            pose proof (run_next _ _ _ _ R). pose proof (room t). lia.
          * intros b H. apply CH. rewrite RC. apply in_or_app. right. exact H.
          * destruct (is_done (todo (threads m t))) eqn:EDN; [|lia].
            destruct (todo (threads m t)); try discriminate. cbn in *. inv E. cbn in *. lia.
          * destruct AG' as (? & ? & ? & ? & ? & ?). unfold agree. cbn. auto 10.
        + destruct (HT u) as (v & [R2 NX2 LV2 CH2 ST2 AG2]). exists v. constructor; auto.
          destruct AG2 as (? & ? & ? & ? & ? & AH). unfold agree. cbn in *. repeat (split; [assumption|]).
          intros b HB. rewrite AH by exact HB. rewrite OT; [reflexivity|]. intros HI.
          apply (split t u b); [congruence| |exact HB]. apply CH. rewrite RC. apply in_or_app. left. exact HI.
      - intros b H. cbn. rewrite OT; [apply HM, H|]. intros HI. apply (H t). apply CH. rewrite RC. apply in_or_app. left. exact HI.
    Qed.
    Lemma fine_play schedule m n : fine m n ->
      exists m', play schedule m = Some m' /\ fine m' (fun u => n u + turns u schedule).
    Proof.
      revert m n. induction schedule as [|t sch IH]; intros m n H.
      - exists m. split; [reflexivity|]. destruct H as (HT & HM). split; [|exact HM]. intros t. destruct (HT t) as (w & OC).
        exists w. cbn. replace (n t + 0) with (n t) by lia. exact OC.
      - cbn. destruct (fine_turn m n t H) as (m1 & E & F). rewrite E. destruct (IH _ _ F) as (m' & E' & (HT & HM)). exists m'.
        split; [exact E'|]. split; [|exact HM]. intros u. destruct (HT u) as (w & OC). exists w. cbn in OC.
        replace (n u + ((if t =? u then 1 else 0) + turns u sch)) with ((if u =? t then 1 + n u else n u) + turns u sch); [exact OC|].
        rewrite (N.eqb_sym t u). destruct (u =? t); lia.
    Qed.

    Theorem interleaved schedule : exists m,
      play schedule (start memory0 cs ws) = Some m /\
      (forall t, steps (cs t) (ws t) <= turns t schedule ->
         exists w, finished m t (rs t) w /\ same_view ws last t w (ends t)) /\
      (forall b, (forall t, ~ In b (changes (cs t) (ws t))) -> memory m b = memory0 b).
    Proof.
      destruct (fine_play schedule _ _ fine_start) as (m & E & (HT & HM)). exists m. split; [exact E|]. split; [|exact HM].
      intros t HS. destruct (HT t) as (w & [R NX LV CH ST AG]). cbn in ST.
      assert (Z : steps (todo (threads m t)) w = 0) by lia.
      pose proof (is_done_steps _ _ Z _ _ R) as D. unfold finished. destruct (todo (threads m t)) eqn:ET; try discriminate.
      cbn in R. inv R. eexists. split; [split; reflexivity|]. destruct AG as (? & ? & ? & ? & ? & AH).
      unfold same_view. repeat (split; [symmetry; assumption|]). intros b H'. symmetry. apply AH, H'.
    Qed.
  End Machine.
End Proofs.

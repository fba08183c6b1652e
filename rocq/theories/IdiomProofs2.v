(** A spin lock made of atomic calls. *)
From Coq Require Import ZifyBool ZifyNat ZifyN.
From Verif Require Import Base NListFacts BitFacts AtomicModel SyncModel IdiomSpec.
From Verif Require Import GuardSpec GuardProofs.

Lemma call_cas w o v x : atomic_call w (CompareExchange o v) x = (if x =? o then v else x, x).
Proof. reflexivity. Qed.
(** The lock with its owner. *)
Definition owned_section : section (option N) :=
  mksection (fun how t _ m => match m with None => Some (true, Some t) | Some _ => match how with Enter => None | _ => Some (false, m) end end)
            (fun _ _ _ => Some None).
Definition word (m : option N) : N := match m with None => 0 | Some _ => 1 end.
Section S.
  Context {S R A : Type} (w : N) (release : acall) (RL : releases release) (spec : A -> S -> R -> S -> Prop) (progs : N -> list (job S R A)).
  Hypothesis (PR : forall t j, In j (progs t) -> how j <> Leave /\ meets spec j).
  Definition like (y : system S R A N) (z : system S R A (option N)) : Prop :=
    lock y = word (lock z) /\ shared y = shared z /\ threads y = threads z /\ log y = log z.
  Lemma owned_enter h t i m m' : h <> Leave -> enter owned_section h t i m = Some (true, m') -> (m = None \/ m = Some t) /\ m' = Some t.
  Proof. intros _. cbn. destruct m; [destruct h; discriminate|]. now intros [= <-]; auto. Qed.
  Lemma owned_stay h t i m m' : h <> Leave -> enter owned_section h t i m = Some (false, m') -> m' = m.
  Proof. intros _. cbn. destruct m; [destruct h; try discriminate; now intros [= <-]|discriminate]. Qed.
  Lemma owned_leave t i m m' : leave owned_section t i m = Some m' -> m = Some t -> m' = None \/ m' = Some t.
  Proof. cbn. intros [= <-]. auto. Qed.
  Lemma release_one : fst (atomic_call w release 1) = 0.
  Proof.
    destruct RL as [->| ->]; [reflexivity|]. unfold atomic_call. cbn [builtin fst]. pose proof (pow2_pos w).
    replace (1 + (2 ^ w - 1)) with (1 * 2 ^ w) by lia. apply N.mod_mul. lia.
  Qed.
  Notation I s0 z := (inv (fun m : option N => m) spec progs s0 z).
  Lemma like_step s0 y z t i : like y z -> I s0 z -> like (sys_step (spin_section w release) t i y) (sys_step owned_section t i z).
  Proof.
    intros (EL & ES & ET & EG) IV. unfold sys_step. rewrite ET. destruct (spot (threads z t)) as [|j [r|f k]] eqn:SP.
    - destruct (todo (threads z t)) as [|j rest] eqn:TD; [now repeat split|]. cbn [spin_section owned_section enter]. rewrite call_cas, EL.
      destruct (lock z) as [u|] eqn:LZ; cbn [word]; [change (1 =? 0) with false|change (0 =? 0) with true]; cbv iota.
      + destruct (how j); repeat split; cbn [lock shared threads log]; rewrite ?LZ; auto; congruence.
      + repeat split; cbn [lock shared threads log]; congruence.
    - cbn [spin_section owned_section leave]. pose proof (i_held _ _ _ _ _ IV _ _ _ SP) as H. rewrite EL, H. cbn [word]. rewrite release_one.
      repeat split; cbn [lock shared threads log]; congruence.
    - repeat split; cbn [lock shared threads log]; congruence.
  Qed.
  Lemma like_run s0 : forall sched y z, like y z -> I s0 z -> like (sys_run (spin_section w release) sched y) (sys_run owned_section sched z).
  Proof.
    induction sched as [|[t i] sched IH]; intros y z L IV; [exact L|]. cbn [sys_run]. apply IH; [now apply (like_step s0)|].
    apply (step_inv _ _ owned_enter owned_stay owned_leave _ _ PR). exact IV.
  Qed.
  Lemma like_start s0 : like (sys_start 0 s0 progs) (sys_start None s0 progs).
  Proof. now repeat split. Qed.
  Theorem spin_atomic s0 sched : let y := sys_run (spin_section w release) sched (sys_start 0 s0 progs) in
    exists s1, serially spec (log y) s0 s1 /\ (nobody_inside y -> shared y = s1) /\
      (forall t u j c j' c', spot (threads y t) = Inside j c -> spot (threads y u) = Inside j' c' -> t = u) /\
      forall t, made (seen (threads y t)) = of_thread t (log y) /\ map fst (seen (threads y t)) ++ pending (threads y t) = map name (progs t).
  Proof.
    intros y. pose proof (start_inv (fun m : option N => m) spec progs None s0) as IV.
    pose proof (like_run s0 sched _ _ (like_start s0) IV) as (EL & ES & ET & EG).
    pose proof (run_inv _ _ owned_enter owned_stay owned_leave _ _ PR s0 sched _ IV) as IZ.
    destruct (guarded_atomic _ _ owned_enter owned_stay owned_leave _ _ PR None s0 sched) as (s1 & SR & NB & TH).
    fold y in EL, ES, ET, EG. exists s1. rewrite EG, ES, ET. split; [exact SR|]. split.
    { intros H. apply NB. intros t. specialize (H t). now rewrite ET in H. }
    split; [|exact TH]. intros t u j c j' c'. eapply inside_one. exact IZ.
  Qed.
  Theorem spin_completes s0 sched n : (forall t, n <= t -> progs t = []) -> Forall (fun x => snd x = 0) sched ->
    exists rest, Forall (fun x => snd x = 0) rest /\ finished (sys_run (spin_section w release) (sched ++ rest) (sys_start 0 s0 progs)).
  Proof.
    intros PN F.
    destruct (guarded_completes owned_section (fun m => m) owned_enter owned_stay owned_leave spec progs PR (fun t m => m = Some t) (fun m => m = None)
      ltac:(intros h t m _ ->; cbn; eauto) ltac:(intros t m ->; cbn; eauto) ltac:(intros h t u m _ -> _; cbn; destruct h; auto) None s0 sched n eq_refl F PN) as (rest & FR & FN).
    exists rest. split; [exact FR|]. pose proof (start_inv (fun m : option N => m) spec progs None s0) as IV.
    pose proof (like_run s0 (sched ++ rest) _ _ (like_start s0) IV) as (EL & ES & ET & EG). intros t. rewrite ET. apply FN.
  Qed.
End S.
Lemma spin_free w release {S R A} (progs : N -> list (job S R A)) s0 sched n : releases release ->
  (forall t j, In j (progs t) -> how j <> Leave) -> (forall t, n <= t -> progs t = []) -> Forall (fun x => snd x = 0) sched ->
  exists rest, Forall (fun x => snd x = 0) rest /\ finished (sys_run (spin_section w release) (sched ++ rest) (sys_start 0 s0 progs)).
Proof.
  intros RL PL PN F. apply (spin_completes w release RL (fun _ _ _ _ => True) progs) with (n := n); auto.
  intros t j H. split; [eapply PL; eauto|intros s; exact Logic.I].
Qed.

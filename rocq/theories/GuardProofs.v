(** Calls behind a critical section are atomic, and can always be completed. *)
From Coq Require Import ZifyBool ZifyNat ZifyN.
From Verif Require Import Base NListFacts Status SyncModel SyncProofs WinModel Mem VectorModel VectorSpec VectorDriver VectorFinal GuardSpec.

Section Generic.
  Context {S R A L : Type} (cs : section L) (held : L -> option N).
  Hypothesis (Henter : forall h t i m m', h <> Leave -> enter cs h t i m = Some (true, m') -> (held m = None \/ held m = Some t) /\ held m' = Some t).
  Hypothesis (Hstay : forall h t i m m', h <> Leave -> enter cs h t i m = Some (false, m') -> held m' = held m).
  Hypothesis (Hleave : forall t i m m', leave cs t i m = Some m' -> held m = Some t -> held m' = None \/ held m' = Some t).
  Notation job := (job S R A). Notation system := (system S R A L).
  Context (spec : A -> S -> R -> S -> Prop) (progs : N -> list job).
  Hypothesis (PR : forall t j, In j (progs t) -> how j <> Leave /\ meets spec j).

  Lemma serially_snoc l s s1 t a r s2 : serially spec l s s1 -> spec a s1 r s2 -> serially spec (l ++ [(t, a, r)]) s s2.
  Proof. induction 1; intros H'; cbn; econstructor; eauto. constructor. Qed.
  Lemma upd_same f t (x : @thread S R A) : upd f t x t = x.
  Proof. unfold upd. now rewrite N.eqb_refl. Qed.
  Lemma upd_other f t (x : @thread S R A) u : u <> t -> upd f t x u = f u.
  Proof. unfold upd. now destruct (N.eqb_spec u t). Qed.
  Lemma made_snoc l (a : A) (r : option R) : made (l ++ [(a, r)]) = made l ++ match r with Some r => [(a, r)] | None => [] end.
  Proof. unfold made. rewrite flat_map_app. cbn. destruct r; now rewrite ?app_nil_r. Qed.
  Lemma of_thread_snoc t l u (a : A) (r : R) : of_thread t (l ++ [(u, a, r)]) = of_thread t l ++ (if u =? t then [(a, r)] else []).
  Proof. unfold of_thread. rewrite flat_map_app. cbn. destruct (_ =? _); now rewrite ?app_nil_r. Qed.

  (** The invariant: the state is that of the finished calls, one after the other, and the beginning of the one inside. *)
  Record inv s0 (y : system) : Prop := mkinv {
    i_held : forall t j c, spot (threads y t) = Inside j c -> held (lock y) = Some t;
    i_data : exists s1, serially spec (log y) s0 s1 /\
      ((nobody_inside y /\ shared y = s1) \/
       exists t j c, spot (threads y t) = Inside j c /\ meets spec j /\ finish c (shared y) = finish (body j) s1);
    i_seen : forall t, made (seen (threads y t)) = of_thread t (log y);
    i_todo : forall t, map fst (seen (threads y t)) ++ pending (threads y t) = map name (progs t);
    i_jobs : forall t j, In j (todo (threads y t)) -> In j (progs t) }.

  Lemma inside_one s0 y t u j c j' c' : inv s0 y -> spot (threads y t) = Inside j c -> spot (threads y u) = Inside j' c' -> t = u.
  Proof. intros I H1 H2. apply (i_held _ _ I) in H1. apply (i_held _ _ I) in H2. congruence. Qed.

  Lemma step_inv s0 y t i : inv s0 y -> inv s0 (sys_step cs t i y).
  Proof.
    intros I. pose proof I as [IH (s1 & IS & ID) IE IT IJ]. unfold sys_step.
    destruct (spot (threads y t)) as [|j [r|f k]] eqn:SP.
    - destruct (todo (threads y t)) as [|j rest] eqn:TD; [exact I|].
      assert (JP : In j (progs t)) by (apply IJ; rewrite TD; now left). destruct (PR _ _ JP) as [JL JM].
      destruct (enter cs (how j) t i (lock y)) as [[[|] m]|] eqn:E; [| |exact I].
      + destruct (Henter _ _ _ _ _ JL E) as [HF HT].
        assert (NB : nobody_inside y).
        { intros u. destruct (spot (threads y u)) as [|j' c'] eqn:SU; [reflexivity|]. pose proof (IH _ _ _ SU). assert (u = t) by (destruct HF; congruence). subst u. congruence. }
        destruct ID as [[_ ID]|(u & j' & c' & SU & _)]; [|rewrite NB in SU; discriminate SU].
        split; cbn [lock shared threads log].
        * intros u j' c' H. destruct (N.eq_dec u t) as [->|NE]; [exact HT|]. rewrite upd_other in H by exact NE. rewrite NB in H. discriminate H.
        * exists s1. split; [exact IS|]. right. exists t, j, (body j). rewrite upd_same. cbn [spot]. split; [reflexivity|]. split; [exact JM|now rewrite ID].
        * intros u. destruct (N.eq_dec u t) as [->|NE]; [rewrite upd_same; apply IE|rewrite upd_other by exact NE; apply IE].
        * intros u. destruct (N.eq_dec u t) as [->|NE]; [|rewrite upd_other by exact NE; apply IT]. rewrite upd_same. rewrite <- (IT t).
          unfold pending. cbn [seen spot todo]. now rewrite SP, TD.
        * intros u j'. destruct (N.eq_dec u t) as [->|NE]; [|rewrite upd_other by exact NE; apply IJ]. rewrite upd_same. cbn [todo].
          intros H. apply IJ. rewrite TD. now right.
      + pose proof (Hstay _ _ _ _ _ JL E) as HT. split; cbn [lock shared threads log].
        * intros u j' c' H. destruct (N.eq_dec u t) as [->|NE]; [rewrite upd_same in H; discriminate H|]. rewrite upd_other in H by exact NE. rewrite HT. eapply IH; eauto.
        * exists s1. split; [exact IS|]. destruct ID as [[NB ID]|(u & j' & c' & SU & MT & ID)].
          -- left. split; [|exact ID]. intros u. cbn [threads]. destruct (N.eq_dec u t) as [->|NE]; [now rewrite upd_same|]. rewrite upd_other by exact NE. apply NB.
          -- right. exists u, j', c'. rewrite upd_other; [auto|]. intros ->. congruence.
        * intros u. destruct (N.eq_dec u t) as [->|NE]; [|rewrite upd_other by exact NE; apply IE]. rewrite upd_same. cbn [seen]. rewrite made_snoc, app_nil_r. apply IE.
        * intros u. destruct (N.eq_dec u t) as [->|NE]; [|rewrite upd_other by exact NE; apply IT]. rewrite upd_same. rewrite <- (IT t).
          unfold pending. cbn [seen spot todo]. rewrite SP, TD, map_app, <- app_assoc. reflexivity.
        * intros u j'. destruct (N.eq_dec u t) as [->|NE]; [|rewrite upd_other by exact NE; apply IJ]. rewrite upd_same. cbn [todo].
          intros H. apply IJ. rewrite TD. now right.
    - destruct (leave cs t i (lock y)) as [m|] eqn:E; [|exact I].
      pose proof (IH _ _ _ SP) as HT. destruct (Hleave _ _ _ _ E HT) as [HF|HF]; clear HF;
      (assert (OT : forall u, u <> t -> spot (threads y u) = Outside);
       [intros u NE; destruct (spot (threads y u)) as [|j' c'] eqn:SU; [reflexivity|]; pose proof (IH _ _ _ SU); congruence|]);
      (destruct ID as [[NB _]|(u & j' & c' & SU & MT & ID)]; [rewrite NB in SP; discriminate SP|]);
      assert (u = t) by (eapply inside_one; eauto); subst u; rewrite SP in SU; injection SU as <- <-; cbn [finish] in ID;
      (split; cbn [lock shared threads log];
       [intros u j' c' H; destruct (N.eq_dec u t) as [->|NE]; [rewrite upd_same in H; discriminate H|]; rewrite upd_other, OT in H by exact NE; discriminate H
       |exists (shared y); split; [eapply serially_snoc; [exact IS|]; specialize (MT s1); rewrite <- ID in MT; exact MT|];
        left; split; [|reflexivity]; intros u; cbn [threads]; destruct (N.eq_dec u t) as [->|NE]; [now rewrite upd_same|]; rewrite upd_other by exact NE; now apply OT
       |intros u; rewrite of_thread_snoc; destruct (N.eqb_spec t u) as [->|NE]; [rewrite upd_same; cbn [seen]; rewrite made_snoc, IE; reflexivity|rewrite upd_other, app_nil_r by congruence; apply IE]
       |intros u; destruct (N.eq_dec u t) as [->|NE]; [|rewrite upd_other by exact NE; apply IT]; rewrite upd_same, <- (IT t); unfold pending; cbn [seen spot todo]; rewrite SP, map_app, <- app_assoc; reflexivity
       |intros u j'; destruct (N.eq_dec u t) as [->|NE]; [rewrite upd_same; cbn [todo]; apply IJ|rewrite upd_other by exact NE; apply IJ]]).
    - assert (HT := IH _ _ _ SP). destruct ID as [[NB _]|(u & j' & c' & SU & MT & ID)]; [rewrite NB in SP; discriminate SP|].
      assert (u = t) by (eapply inside_one; eauto). subst u. rewrite SP in SU. injection SU as <- <-. cbn [finish] in ID.
      split; cbn [lock shared threads log].
      + intros u j' c' H. destruct (N.eq_dec u t) as [->|NE]; [exact HT|]. rewrite upd_other in H by exact NE. eapply IH; eauto.
      + exists s1. split; [exact IS|]. right. exists t, j, (k (shared y)). rewrite upd_same. cbn [spot]. auto.
      + intros u. destruct (N.eq_dec u t) as [->|NE]; [rewrite upd_same; apply IE|rewrite upd_other by exact NE; apply IE].
      + intros u. destruct (N.eq_dec u t) as [->|NE]; [|rewrite upd_other by exact NE; apply IT]. rewrite upd_same. rewrite <- (IT t).
        unfold pending. cbn [seen spot todo]. now rewrite SP.
      + intros u j'. destruct (N.eq_dec u t) as [->|NE]; [rewrite upd_same; apply IJ|rewrite upd_other by exact NE; apply IJ].
  Qed.
  Lemma run_inv s0 : forall sched y, inv s0 y -> inv s0 (sys_run cs sched y).
  Proof. induction sched as [|[t i] sched IH]; intros y I; [exact I|]. cbn [sys_run]. apply IH. now apply step_inv. Qed.
  Lemma start_inv m s0 : inv s0 (sys_start m s0 progs).
  Proof.
    split; cbn [sys_start lock shared threads log spot seen todo].
    - discriminate.
    - exists s0. split; [constructor|]. left. now split.
    - reflexivity.
    - intros t. reflexivity.
    - auto.
  Qed.

  (** Whatever the schedule, the threads see the results of making the calls one after the other, in the order of [log]. *)
  Theorem guarded_atomic m s0 sched : let y := sys_run cs sched (sys_start m s0 progs) in
    exists s1, serially spec (log y) s0 s1 /\ (nobody_inside y -> shared y = s1) /\
      forall t, made (seen (threads y t)) = of_thread t (log y) /\ map fst (seen (threads y t)) ++ pending (threads y t) = map name (progs t).
  Proof.
    intros y. destruct (run_inv s0 sched _ (start_inv m s0)) as [_ (s1 & IS & ID) IE IT _]. fold y in IS, ID, IE, IT.
    exists s1. split; [exact IS|]. split; [|auto]. intros NB. destruct ID as [[_ ID]|(t & j & c & SP & _)]; [exact ID|]. rewrite NB in SP. discriminate SP.
  Qed.

  Lemma run_app : forall s1 s2 (y : system), sys_run cs (s1 ++ s2) y = sys_run cs s2 (sys_run cs s1 y).
  Proof. induction s1 as [|[t i] s1 IH]; intros s2 y; [reflexivity|]. cbn [sys_run app]. apply IH. Qed.
  (** A call that has ended is before all calls that end later. *)
  Theorem log_grows : forall s2 (y : system), exists l, log (sys_run cs s2 y) = log y ++ l.
  Proof.
    induction s2 as [|[t i] s2 IH]; intros y; [exists []; now rewrite app_nil_r|]. cbn [sys_run]. destruct (IH (sys_step cs t i y)) as [l ->].
    assert (exists l1, log (sys_step cs t i y) = log y ++ l1) as [l1 ->].
    { unfold sys_step. destruct (spot _) as [|j [r|f k]].
      - destruct (todo _); [exists []; now rewrite app_nil_r|]. destruct (enter _ _ _ _ _) as [[[|] ?]|]; exists []; now rewrite app_nil_r.
      - destruct (leave _ _ _ _); [eexists; reflexivity|exists []; now rewrite app_nil_r].
      - exists []. now rewrite app_nil_r. }
    exists (l1 ++ l). now rewrite app_assoc.
  Qed.

  (** ** Completion *)
  Context (once : N -> L -> Prop) (free : L -> Prop).
  Hypothesis (Ffree : forall h t m, h <> Leave -> free m -> exists m', enter cs h t 0 m = Some (true, m') /\ once t m').
  Hypothesis (Fonce : forall t m, once t m -> exists m', leave cs t 0 m = Some m' /\ free m').
  Hypothesis (Fbusy : forall h t u m, h <> Leave -> once t m -> u <> t -> enter cs h u 0 m = None \/ enter cs h u 0 m = Some (false, m)).

  Record calm (y : system) : Prop := mkcalm {
    c_jobs : forall t j, In j (todo (threads y t)) -> how j <> Leave;
    c_lock : (free (lock y) /\ nobody_inside y) \/
      exists t, once t (lock y) /\ (exists j c, spot (threads y t) = Inside j c) /\ forall u, u <> t -> spot (threads y u) = Outside }.
  Lemma calm_step y t : calm y -> calm (sys_step cs t 0 y).
  Proof.
    intros I. pose proof I as [CJ CL]. unfold sys_step. destruct (spot (threads y t)) as [|j [r|f k]] eqn:SP.
    - destruct (todo (threads y t)) as [|j rest] eqn:TD; [exact I|].
      assert (JL : how j <> Leave) by (apply (CJ t); rewrite TD; now left).
      assert (JR : forall t0 sp se u j', In j' (todo (upd (threads y) t (mkthread rest sp se) u)) -> t0 = t -> how j' <> Leave).
      { intros t0 sp se u j' H _. destruct (N.eq_dec u t) as [->|NE]; [rewrite upd_same in H; cbn [todo] in H; apply (CJ t); rewrite TD; now right|rewrite upd_other in H by exact NE; eapply CJ; eauto]. }
      destruct CL as [[FR NB]|(h & ON & (j' & c' & SU) & OT)].
      + destruct (Ffree (how j) t _ JL FR) as (m' & -> & ON). split; cbn [threads lock].
        * intros. eapply JR; eauto.
        * right. exists t. split; [exact ON|]. split; [exists j, (body j); now rewrite upd_same|]. intros u NE. rewrite upd_other by exact NE. apply NB.
      + assert (NE : t <> h) by (intros ->; congruence).
        destruct (Fbusy (how j) h t _ JL ON NE) as [->| ->]; [exact I|]. split; cbn [threads lock].
        * intros. eapply JR; eauto.
        * right. exists h. split; [exact ON|]. split; [exists j', c'; rewrite upd_other by congruence; exact SU|].
          intros u NU. destruct (N.eq_dec u t) as [->|N2]; [now rewrite upd_same|]. rewrite upd_other by exact N2. now apply OT.
    - assert (T : forall h, (forall u, u <> h -> spot (threads y u) = Outside) -> h = t).
      { intros h OT. destruct (N.eq_dec t h) as [|NE]; [congruence|]. rewrite OT in SP by exact NE. discriminate SP. }
      destruct CL as [[FR NB]|(h & ON & _ & OT)]; [rewrite NB in SP; discriminate SP|]. pose proof (T _ OT). subst h.
      destruct (Fonce _ _ ON) as (m' & -> & FR). split; cbn [threads lock].
      + intros u j' H. destruct (N.eq_dec u t) as [->|NE]; [rewrite upd_same in H|rewrite upd_other in H by exact NE]; eapply CJ; eauto.
      + left. split; [exact FR|]. intros u. cbn [threads]. destruct (N.eq_dec u t) as [->|NE]; [now rewrite upd_same|]. rewrite upd_other by exact NE. now apply OT.
    - split; cbn [threads lock].
      + intros u j' H. destruct (N.eq_dec u t) as [->|NE]; [rewrite upd_same in H|rewrite upd_other in H by exact NE]; eapply CJ; eauto.
      + destruct CL as [[FR NB]|(h & ON & (j' & c' & SU) & OT)]; [rewrite NB in SP; discriminate SP|]. right. exists h.
        assert (h = t) as -> by (destruct (N.eq_dec t h) as [|NE]; [congruence|]; rewrite OT in SP by exact NE; discriminate SP).
        split; [exact ON|]. split; [exists j, (k (shared y)); now rewrite upd_same|]. intros u NE. rewrite upd_other by exact NE. now apply OT.
  Qed.
  Lemma calm_run : forall sched y, Forall (fun x => snd x = 0) sched -> calm y -> calm (sys_run cs sched y).
  Proof.
    induction sched as [|[t i] sched IH]; intros y F I; [exact I|]. inversion_clear F as [|? ? F1 F2]. cbn in F1. subst i. cbn [sys_run]. apply IH; [exact F2|]. now apply calm_step.
  Qed.

  Definition turn t (n : nat) : list (N * N) := repeat (t, 0) n.
  Lemma turn_ok t n : Forall (fun x => snd x = 0) (turn t n).
  Proof. induction n; constructor; auto. Qed.
  Lemma turn_app t n m : turn t (n + m) = turn t n ++ turn t m.
  Proof. apply repeat_app. Qed.

  Lemma finish_call t j c : forall y : system, spot (threads y t) = Inside j c -> once t (lock y) ->
    exists n, let y' : system := sys_run cs (turn t n) y in free (lock y') /\ spot (threads y' t) = Outside /\ todo (threads y' t) = todo (threads y t) /\
      forall u, u <> t -> threads y' u = threads y u.
  Proof.
    induction c as [r|f k IH]; intros y SP ON.
    - exists 1%nat. cbn [turn repeat sys_run]. unfold sys_step. rewrite SP. destruct (Fonce _ _ ON) as (m' & -> & FR). cbn [lock threads]. rewrite upd_same.
      split; [exact FR|]. split; [reflexivity|]. split; [reflexivity|]. intros u NE. now apply upd_other.
    - destruct (IH (shared y) (sys_step cs t 0 y)) as (n & FR & SP' & TD & OT).
      { unfold sys_step. rewrite SP. cbn [threads]. now rewrite upd_same. } { unfold sys_step. now rewrite SP. }
      exists (Datatypes.S n). cbn [turn repeat sys_run]. fold (turn t n). split; [exact FR|]. split; [exact SP'|]. split.
      + rewrite TD. unfold sys_step. rewrite SP. cbn [threads]. now rewrite upd_same.
      + intros u NE. rewrite OT by exact NE. unfold sys_step. rewrite SP. cbn [threads]. now rewrite upd_other.
  Qed.
  Lemma finish_thread t : forall js (y : system), todo (threads y t) = js -> Forall (fun j => how j <> Leave) js -> spot (threads y t) = Outside -> free (lock y) ->
    exists n, let y' : system := sys_run cs (turn t n) y in free (lock y') /\ spot (threads y' t) = Outside /\ todo (threads y' t) = [] /\
      forall u, u <> t -> threads y' u = threads y u.
  Proof.
    induction js as [|j js IH]; intros y TD JL SP FR; [exists O; cbn; auto|]. inversion_clear JL as [|? ? J1 J2].
    destruct (Ffree (how j) t _ J1 FR) as (m & E & ON).
    set (y1 := sys_step cs t 0 y). assert (E1 : y1 = mksys m (shared y) (upd (threads y) t (mkthread js (Inside j (body j)) (seen (threads y t)))) (log y)).
    { unfold y1, sys_step. now rewrite SP, TD, E. }
    destruct (finish_call t j (body j) y1) as (n1 & FR1 & SP1 & TD1 & OT1).
    { rewrite E1. cbn [threads]. now rewrite upd_same. } { now rewrite E1. }
    destruct (IH (sys_run cs (turn t n1) y1)) as (n2 & FR2 & SP2 & TD2 & OT2); auto.
    { rewrite TD1, E1. cbn [threads]. now rewrite upd_same. }
    exists (Datatypes.S (n1 + n2)). cbn [turn repeat sys_run]. fold (turn t (n1 + n2)) y1. rewrite turn_app, run_app.
    split; [exact FR2|]. split; [exact SP2|]. split; [exact TD2|]. intros u NE. rewrite OT2, OT1, E1 by exact NE. cbn [threads]. now apply upd_other.
  Qed.
  Lemma finish_all n : forall y : system, free (lock y) -> nobody_inside y -> (forall t j, In j (todo (threads y t)) -> how j <> Leave) ->
    (forall t, N.of_nat n <= t -> todo (threads y t) = []) ->
    exists sched, Forall (fun x => snd x = 0) sched /\ finished (sys_run cs sched y).
  Proof.
    induction n as [|n IH]; intros y FR NB JL TD.
    - exists []. split; [constructor|]. intros t. split; [apply NB|]. apply TD. lia.
    - destruct (finish_thread (N.of_nat n) _ y eq_refl) as (k & FR1 & SP1 & TD1 & OT1); auto.
      { rewrite Forall_forall. intros. eapply JL; eauto. }
      destruct (IH (sys_run cs (turn (N.of_nat n) k) y)) as (sched & F & FN); auto.
      + intros u. destruct (N.eq_dec u (N.of_nat n)) as [->|NE]; [exact SP1|]. rewrite OT1 by exact NE. apply NB.
      + intros u j. destruct (N.eq_dec u (N.of_nat n)) as [->|NE]; [now rewrite TD1|]. rewrite OT1 by exact NE. apply JL.
      + intros u LU. destruct (N.eq_dec u (N.of_nat n)) as [->|NE]; [exact TD1|]. rewrite OT1 by exact NE. apply TD. lia.
      + exists (turn (N.of_nat n) k ++ sched). split; [apply Forall_app; split; [apply turn_ok|exact F]|]. now rewrite run_app.
  Qed.

  Theorem guarded_completes m s0 sched n : free m -> Forall (fun x => snd x = 0) sched -> (forall t, n <= t -> progs t = []) ->
    exists rest, Forall (fun x => snd x = 0) rest /\ finished (sys_run cs (sched ++ rest) (sys_start m s0 progs)).
  Proof.
    intros FM F PN. assert (C0 : calm (sys_start m s0 progs)).
    { split; [intros t j H; apply (PR t j H)|]. left. split; [exact FM|]. intros t. reflexivity. }
    pose proof (calm_run sched _ F C0) as C1. set (y := sys_run cs sched (sys_start m s0 progs)) in *.
    assert (TN : forall t, n <= t -> todo (threads y t) = [] ).
    { assert (K : forall s (z : system), (forall t, n <= t -> todo (threads z t) = []) -> forall t, n <= t -> todo (threads (sys_run cs s z) t) = []).
      { induction s as [|[t i] s IH]; intros z H u LU; [now apply H|]. cbn [sys_run]. apply IH; [|exact LU]. clear -H. intros u LU. pose proof (H u LU) as HU.
        unfold sys_step. destruct (spot (threads z t)) as [|j [r|f k]].
        - destruct (todo (threads z t)) as [|j rest] eqn:TD; [exact HU|]. assert (u <> t) by congruence.
          destruct (enter _ _ _ _ _) as [[[|] ?]|]; cbn [threads]; rewrite ?upd_other by assumption; exact HU.
        - destruct (leave _ _ _ _); [|exact HU]. cbn [threads]. destruct (N.eq_dec u t) as [->|NE]; [now rewrite upd_same|now rewrite upd_other by exact NE].
        - cbn [threads]. destruct (N.eq_dec u t) as [->|NE]; [now rewrite upd_same|now rewrite upd_other by exact NE]. }
      apply K. exact PN. }
    assert (exists s1, Forall (fun x => snd x = 0) s1 /\ let z := sys_run cs s1 y in free (lock z) /\ nobody_inside z /\
      (forall t j, In j (todo (threads z t)) -> how j <> Leave) /\ forall t, n <= t -> todo (threads z t) = []) as (s1 & F1 & FR & NB & JL & TD).
    { destruct C1 as [CJ [[FR NB]|(t & ON & (j & c & SP) & OT)]]; [exists []; cbn; auto|].
      destruct (finish_call t j c y SP ON) as (k & FR & SP' & TD & OT'). exists (turn t k). split; [apply turn_ok|]. split; [exact FR|]. split; [|split].
      - intros u. destruct (N.eq_dec u t) as [->|NE]; [exact SP'|]. rewrite OT' by exact NE. now apply OT.
      - intros u j'. destruct (N.eq_dec u t) as [->|NE]; [rewrite TD|rewrite OT' by exact NE]; apply CJ.
      - intros u. destruct (N.eq_dec u t) as [->|NE]; [rewrite TD|rewrite OT' by exact NE]; apply TN. }
    destruct (finish_all (N.to_nat n) _ FR NB JL) as (s2 & F2 & FN).
    { intros t LT. apply TD. lia. }
    exists (s1 ++ s2). split; [now apply Forall_app|]. rewrite !run_app. exact FN.
  Qed.
End Generic.

(** ** The two sections *)
Section Posix.
  Context (max_depth : N).
  Lemma posix_enter h t i m m' : h <> Leave -> enter (posix_section max_depth) h t i m = Some (true, m') -> (owner m = None \/ owner m = Some t) /\ owner m' = Some t.
  Proof.
    intros HL. cbn [posix_section enter]. unfold cs_step. destruct (N.eqb_spec i 0) as [->|NI]; cbn [negb].
    - destruct h; [| |congruence].
      + unfold mutex_lock. destruct (owner m) as [o|] eqn:OW; [|cbn; intros [= <-]; cbn; auto].
        destruct (N.eqb_spec o t) as [->|]; cbn [negb]; [|discriminate]. destruct (negb (recursive m)); [discriminate|].
        destruct (_ <? _); cbn; [cbn; intros [= <-]; cbn; auto|discriminate].
      + unfold mutex_trylock. destruct (owner m) as [o|] eqn:OW; [|cbn; intros [= <-]; cbn; auto].
        destruct (N.eqb_spec o t) as [->|]; cbn [negb]; [|discriminate]. destruct (negb (recursive m)); [discriminate|].
        destruct (_ <? _); cbn; [cbn; intros [= <-]; cbn; auto|discriminate].
    - apply N.eqb_neq in NI. destruct h; [| |congruence]; cbn [option_map entered_by]; unfold cs_enter, cs_try_enter; rewrite NI; cbn [negb]; [|discriminate].
      destruct (i =? EINVAL), (i =? EAGAIN); intros H; vm_compute in H; discriminate H.
  Qed.
  Lemma posix_stay h t i m m' : h <> Leave -> enter (posix_section max_depth) h t i m = Some (false, m') -> owner m' = owner m.
  Proof.
    intros HL. cbn [posix_section enter]. unfold cs_step. destruct (N.eqb_spec i 0) as [->|NI]; cbn [negb].
    - destruct h; [| |congruence].
      + unfold mutex_lock. destruct (owner m) as [o|] eqn:OW; [|discriminate].
        destruct (negb (o =? t)); [discriminate|]. destruct (negb (recursive m)); [discriminate|]. destruct (_ <? _); cbn; [discriminate|]. intros [= <-]. exact OW.
      + unfold mutex_trylock. destruct (owner m) as [o|] eqn:OW; [|discriminate].
        destruct (negb (o =? t)); [cbn; intros [= <-]; exact OW|]. destruct (negb (recursive m)); [cbn; intros [= <-]; exact OW|].
        destruct (_ <? _); cbn; [discriminate|]. intros [= <-]. exact OW.
    - destruct h; [| |congruence]; cbn; intros [= _ <-]; reflexivity.
  Qed.
  Lemma posix_leave t i m m' : leave (posix_section max_depth) t i m = Some m' -> owner m = Some t -> owner m' = None \/ owner m' = Some t.
  Proof.
    cbn [posix_section leave]. unfold cs_step. destruct (negb (i =? 0)); cbn [option_map snd]; [intros [= <-]; auto|].
    intros H OW. unfold mutex_unlock in H. rewrite OW, N.eqb_refl in H. cbn [negb] in H. destruct (_ =? 1); injection H as <-; cbn; auto.
  Qed.
  Definition free (m : mutex) := owner m = None.
  Definition once (t : N) (m : mutex) := owner m = Some t /\ depth m = 1.
  Lemma posix_free h t m : h <> Leave -> free m -> exists m', enter (posix_section max_depth) h t 0 m = Some (true, m') /\ once t m'.
  Proof.
    intros HL FR. cbn [posix_section enter]. unfold cs_step. cbn [N.eqb negb]. destruct h; [| |congruence]; unfold mutex_lock, mutex_trylock; rewrite FR; cbn; eexists; split; try reflexivity; split; reflexivity.
  Qed.
  Lemma posix_once t m : once t m -> exists m', leave (posix_section max_depth) t 0 m = Some m' /\ free m'.
  Proof. intros [OW D]. cbn [posix_section leave]. unfold cs_step. cbn [N.eqb negb]. unfold mutex_unlock. rewrite OW, D, !N.eqb_refl. cbn. eexists. split; reflexivity. Qed.
  Lemma posix_busy h t u m : h <> Leave -> once t m -> u <> t -> enter (posix_section max_depth) h u 0 m = None \/ enter (posix_section max_depth) h u 0 m = Some (false, m).
  Proof.
    intros HL [OW _] NE. cbn [posix_section enter]. unfold cs_step. cbn [N.eqb negb]. apply N.eqb_neq in NE. rewrite N.eqb_sym in NE.
    destruct h; [| |congruence]; unfold mutex_lock, mutex_trylock; rewrite OW, NE; cbn; auto.
  Qed.
End Posix.
Section Windows.
  Lemma windows_enter h t i m m' : h <> Leave -> enter windows_section h t i m = Some (true, m') -> (owner m = None \/ owner m = Some t) /\ owner m' = Some t.
  Proof.
    intros HL. cbn [windows_section enter]. unfold win_cs_step, win_cs_enter, win_cs_try_enter, section_enter, section_try_enter.
    destruct h; [| |congruence]; (destruct (owner m) as [o|] eqn:OW; [|cbn; intros [= <-]; cbn; auto]); (destruct (N.eqb_spec o t) as [->|]; [cbn; intros [= <-]; cbn; auto|discriminate]).
  Qed.
  Lemma windows_stay h t i m m' : h <> Leave -> enter windows_section h t i m = Some (false, m') -> owner m' = owner m.
  Proof.
    intros HL. cbn [windows_section enter]. unfold win_cs_step, win_cs_enter, win_cs_try_enter, section_enter, section_try_enter.
    destruct h; [| |congruence]; (destruct (owner m) as [o|] eqn:OW; [|discriminate]); (destruct (o =? t); [discriminate|]); [discriminate|]. intros [= <-]. exact OW.
  Qed.
  Lemma windows_leave t i m m' : leave windows_section t i m = Some m' -> owner m = Some t -> owner m' = None \/ owner m' = Some t.
  Proof.
    cbn [windows_section leave]. unfold win_cs_step, win_cs_leave, section_leave. intros H OW. rewrite OW, N.eqb_refl in H. cbn [negb] in H.
    destruct (_ =? 1); injection H as <-; cbn; auto.
  Qed.
  Lemma windows_free h t m : h <> Leave -> free m -> exists m', enter windows_section h t 0 m = Some (true, m') /\ once t m'.
  Proof.
    intros HL FR. cbn [windows_section enter]. unfold win_cs_step, win_cs_enter, win_cs_try_enter, section_enter, section_try_enter. rewrite FR.
    destruct h; [| |congruence]; cbn; eexists; split; try reflexivity; split; reflexivity.
  Qed.
  Lemma windows_once t m : once t m -> exists m', leave windows_section t 0 m = Some m' /\ free m'.
  Proof. intros [OW D]. cbn [windows_section leave]. unfold win_cs_step, win_cs_leave, section_leave. rewrite OW, N.eqb_refl, D. cbn. eexists. split; reflexivity. Qed.
  Lemma windows_busy h t u m : h <> Leave -> once t m -> u <> t -> enter windows_section h u 0 m = None \/ enter windows_section h u 0 m = Some (false, m).
  Proof.
    intros HL [OW _] NE. cbn [windows_section enter]. unfold win_cs_step, win_cs_enter, win_cs_try_enter, section_enter, section_try_enter. apply N.eqb_neq in NE. rewrite N.eqb_sym in NE.
    rewrite OW, NE. destruct h; [| |congruence]; auto.
  Qed.
End Windows.

(** A section of the library, just initialised. *)
Lemma library_atomic cs m {S R A} (spec : A -> S -> R -> S -> Prop) progs s0 sched : library_section cs m ->
  (forall t j, In j (progs t) -> how j <> Leave /\ meets spec j) ->
  let y := sys_run cs sched (sys_start m s0 progs) in
    exists s1, serially spec (log y) s0 s1 /\ (nobody_inside y -> shared y = s1) /\
      forall t, made (seen (threads y t)) = of_thread t (log y) /\ map fst (seen (threads y t)) ++ pending (threads y t) = map name (progs t).
Proof.
  intros [(md & e1 & e2 & e3 & -> & _)|(-> & _)] PR.
  - exact (guarded_atomic _ owner (posix_enter md) (posix_stay md) (posix_leave md) _ _ PR _ _ _).
  - exact (guarded_atomic _ owner windows_enter windows_stay windows_leave _ _ PR _ _ _).
Qed.
Lemma library_completes cs m {S R A} (progs : N -> list (job S R A)) s0 sched n : library_section cs m ->
  (forall t j, In j (progs t) -> how j <> Leave) -> (forall t, n <= t -> progs t = []) -> Forall (fun x => snd x = 0) sched ->
  exists rest, Forall (fun x => snd x = 0) rest /\ finished (sys_run cs (sched ++ rest) (sys_start m s0 progs)).
Proof.
  intros LS PL PN F.
  assert (PR : forall t j, In j (progs t) -> how j <> Leave /\ meets (fun _ _ _ _ => True) j) by (intros t j H; split; [eapply PL; eauto|intros s; exact Logic.I]).
  destruct LS as [(md & e1 & e2 & e3 & -> & E)|(-> & E)].
  - apply (guarded_completes _ owner (posix_enter md) (posix_stay md) (posix_leave md) _ _ PR once free (posix_free md) (posix_once md) (posix_busy md) m s0 sched n); auto.
    unfold cs_init in E. repeat match type of E with (if ?b then _ else _) = _ => destruct b; try discriminate E | (match ?b with true => _ | false => _ end, _) = _ => destruct b; try discriminate E end.
    injection E as <-. reflexivity.
  - apply (guarded_completes _ owner windows_enter windows_stay windows_leave _ _ PR once free windows_free windows_once windows_busy m s0 sched n); auto. injection E as <-. reflexivity.
Qed.

(** ** The shared vector *)
Section Vec.
  Context {C : Type}.
  Definition vspec_call (o : vop C) (s : vshared C) (r : status) (s' : vshared C) : Prop :=
    match s with
    | Some (v, w) => match run_op v o w with Ok (r1, v1) w1 => r = r1 /\ s' = Some (v1, w1) | Fault _ => s' = None end
    | None => True
    end.
  Lemma vjob_meets e (j : job (vshared C) status (vop C)) : vjob_ok e j -> meets vspec_call j.
  Proof.
    intros (_ & _ & IM) [[v w]|]; [|exact Logic.I]. unfold vspec_call. specialize (IM v w). destruct (run_op v (name j) w) as [[r v'] w'|e']; [rewrite IM; now split|exact IM].
  Qed.
  Lemma serially_runs : forall (l : list (N * vop C * status)) v w rs v' w' s1,
    run_ops v (map (fun x => snd (fst x)) l) w = Ok (rs, v') w' -> serially vspec_call l (Some (v, w)) s1 -> s1 = Some (v', w') /\ map snd l = rs.
  Proof.
    induction l as [|[[t o] r] l IH]; intros v w rs v' w' s1 H HS; inversion HS as [|? ? ? ? ? s2 ? H1 H2]; subst.
    - cbn in H. injection H as <- <- <-. auto.
    - cbn [map fst snd run_ops] in H. unfold bind in H. unfold vspec_call in H1. destruct (run_op v o w) as [[r1 v1] w1|]; [|discriminate H].
      destruct H1 as [-> ->]. destruct (run_ops v1 _ w1) as [[rs2 v2] w2|] eqn:E; [|discriminate H]. cbn in H. injection H as <- <- <-.
      destruct (IH _ _ _ _ _ _ E H2) as [-> <-]. auto.
  Qed.
  Lemma made_demands : forall l : list (vop C * option status), demands (map fst (made l)) <= demands (map fst l).
  Proof. induction l as [|[o [r|]] l IH]; [reflexivity| |]; [change (demand o + demands (map fst (made l)) <= demand o + demands (map fst l))|change (demands (map fst (made l)) <= demand o + demands (map fst l))]; lia. Qed.
  Lemma demands_app : forall a b : list (vop C), demands (a ++ b) = demands a + demands b.
  Proof. induction a as [|o a IH]; intros b; cbn [app demands]; [reflexivity|]. rewrite IH. lia. Qed.
  Fixpoint total (n : nat) (f : N -> N) : N := match n with O => 0 | S n => f (N.of_nat n) + total n f end.
  Lemma total_le f g : forall n, (forall t, t < N.of_nat n -> f t <= g t) -> total n f <= total n g.
  Proof. induction n as [|n IH]; intros H; cbn [total]; [lia|]. pose proof (H (N.of_nat n)). assert (total n f <= total n g) by (apply IH; intros; apply H; lia). lia. Qed.
  Lemma total_add f g : forall n, total n (fun t => f t + g t) = total n f + total n g.
  Proof. induction n as [|n IH]; cbn [total]; [reflexivity|]. rewrite IH. lia. Qed.
  Lemma total_one u x : forall n, u < N.of_nat n -> total n (fun t => if u =? t then x else 0) = x.
  Proof.
    induction n as [|n IH]; intros H; [lia|]. cbn [total]. destruct (N.eqb_spec u (N.of_nat n)) as [->|NE].
    - enough (forall k, (k <= n)%nat -> total k (fun t => if N.of_nat n =? t then x else 0) = 0) as -> by lia.
      induction k as [|k IK]; intros LK; [reflexivity|]. cbn [total]. rewrite IK by lia. destruct (N.eqb_spec (N.of_nat n) (N.of_nat k)); lia.
    - rewrite IH by lia. lia.
  Qed.
  Lemma total_ext f g : forall n, (forall t, f t = g t) -> total n f = total n g.
  Proof. induction n as [|n IH]; intros H; cbn [total]; [reflexivity|]. rewrite H, IH; auto. Qed.
  Lemma log_demands n : forall l : list (N * vop C * status), Forall (fun x => fst (fst x) < N.of_nat n) l ->
    demands (map (fun x => snd (fst x)) l) = total n (fun t => demands (map fst (of_thread t l))).
  Proof.
    induction l as [|[[u o] r] l IH]; intros F; [cbn; induction n; cbn [total]; auto|]. inversion_clear F as [|? ? F1 F2]. cbn [fst] in F1.
    cbn [map fst snd demands]. rewrite IH by exact F2. rewrite <- (total_one u (demand o) n F1), <- total_add. apply total_ext. intros t. cbn [of_thread flat_map].
    destruct (u =? t); cbn [app map fst demands]; reflexivity.
  Qed.
  Lemma demands_of_total (progs : N -> list (job (vshared C) status (vop C))) : forall n, demands_of n progs = total n (fun t => demands (map name (progs t))).
  Proof. induction n as [|n IH]; cbn [demands_of total]; congruence. Qed.
  Lemma in_of_thread : forall (l : list (N * vop C * status)) t o r, In (t, o, r) l -> In (o, r) (of_thread t l).
  Proof. intros l t o r H. unfold of_thread. apply in_flat_map. exists (t, o, r). split; [exact H|]. rewrite N.eqb_refl. now left. Qed.
  Lemma in_made (l : list (vop C * option status)) o r : In (o, r) (made l) -> In o (map fst l).
  Proof.
    unfold made. rewrite in_flat_map. intros ([a x] & H1 & H2). destruct x as [x|]; [|contradiction]. destruct H2 as [H2|[]]. injection H2 as <- <-.
    apply in_map_iff. exists (a, Some x). auto.
  Qed.

  Theorem shared_vector cs m (w0 : world C) e cap d g s v0 w1 progs n sched :
    library_section cs m -> init_args_ok w0 e cap d g s -> vinit_ex e cap d true g s w0 = Ok (ST_SUCCESS, Some v0) w1 ->
    (forall t j, In j (progs t) -> vjob_ok e j) -> (forall t, N.of_nat n <= t -> progs t = []) -> room (demands_of n progs) e ->
    let y := guarded_vector cs m v0 w1 progs sched in
    nobody_inside y ->
    exists v w xs, shared y = Some (v, w) /\ shows w v xs /\
      vspecs (mkcfg false g s e d) (map (fun x => snd (fst x)) (log y)) (mkst [] (N.max 1 cap) (dlog w0)) (map snd (log y)) (mkst xs (snd (vget_capacity v)) (dlog w)) /\
      forall t, made (seen (threads y t)) = of_thread t (log y) /\ map fst (seen (threads y t)) ++ pending (threads y t) = map name (progs t).
  Proof.
    intros LS IA IV JO PN RM y NB.
    assert (PR : forall t j, In j (progs t) -> how j <> Leave /\ meets vspec_call j).
    { intros t j H. pose proof (JO _ _ H) as J. split; [apply J|eapply vjob_meets; eauto]. }
    pose proof (library_atomic cs m vspec_call progs (Some (v0, w1)) sched LS PR) as K. cbv zeta in K. change (sys_run cs sched (sys_start m _ progs)) with y in K. destruct K as (s1 & SR & SH & TH).
    specialize (SH NB).
    assert (NM : forall t o r, In (t, o, r) (log y) -> In o (map name (progs t))).
    { intros t o r H. destruct (TH t) as [T1 T2]. apply in_of_thread in H. rewrite <- T1 in H. apply in_made in H. rewrite <- T2. apply in_or_app. now left. }
    destruct (growable_vector_refines w0 e cap d g s (map (fun x => snd (fst x)) (log y)) IA) as (v0' & w1' & rs & v & w & xs & E1 & E2 & E3 & E4).
    - rewrite Forall_forall. intros o H. apply in_map_iff in H as ([[t o'] r] & E & H). cbn in E. subst o'. apply NM in H. apply in_map_iff in H as (j & <- & H).
      apply (JO _ _ H).
    - assert (LE : demands (map (fun x => snd (fst x)) (log y)) <= demands_of n progs); [|unfold room in *; nia].
      rewrite (log_demands n), demands_of_total.
      + apply total_le. intros t _. destruct (TH t) as [T1 T2]. rewrite <- T1, <- T2, demands_app. pose proof (made_demands (seen (threads y t))). lia.
      + rewrite Forall_forall. intros [[t o] r] H. cbn [fst]. apply NM in H. destruct (N.lt_ge_cases t (N.of_nat n)) as [|GE]; [assumption|]. rewrite PN in H by exact GE. contradiction.
    - rewrite IV in E1. injection E1 as <- <-. destruct (serially_runs _ _ _ _ _ _ _ E2 SR) as [-> <-].
      exists v, w, xs. auto.
  Qed.
End Vec.

Lemma read_write_implements {C} (o : vop C) : implements (read_write o) o.
Proof. intros v w. unfold read_write. cbn [finish]. destruct (run_op v o w) as [[r v'] w'|]; reflexivity. Qed.
Lemma read_write_job_ok {C} e h (o : vop C) : h <> Leave -> arg_ok e o -> vjob_ok e (mkjob h o (read_write o)).
Proof. intros HL A. split; [exact HL|]. split; [exact A|]. apply read_write_implements. Qed.
Lemma order_kept {S R A L} (cs : section L) s1 s2 (y : system S R A L) :
  exists l, log (sys_run cs (s1 ++ s2) y) = log (sys_run cs s1 y) ++ l.
Proof. rewrite run_app. apply log_grows. Qed.

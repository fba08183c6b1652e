(** Mutual exclusion. *)
From Verif Require Import Base NListFacts Status SyncModel SyncSpec.
From Coq Require Import ZifyBool ZifyNat ZifyN.

Lemma holds_snoc t tr e : holds t (tr ++ [e]) = (holds t tr + holds t [e])%Z.
Proof.
  induction tr as [|x tr IH]; [reflexivity|]. cbn [app]. unfold holds in *. cbn [fold_right] in *. rewrite IH.
  destruct (fst (fst x) =? t), (entered x), (left x); lia.
Qed.

Lemma enter_errors e : e <> 0 -> st_success (cs_enter e) = false.
Proof.
  intros H. unfold cs_enter. apply N.eqb_neq in H. rewrite H. cbn [negb].
  destruct (e =? EINVAL); [reflexivity|]. destruct (e =? EAGAIN); reflexivity.
Qed.
Lemma leave_errors e : e <> 0 -> st_success (cs_leave e) = false.
Proof.
  intros H. unfold cs_leave. apply N.eqb_neq in H. rewrite H. cbn [negb].
  destruct (e =? EINVAL); [reflexivity|]. destruct (e =? EPERM); reflexivity.
Qed.
Lemma try_errors e : e <> 0 -> cs_try_enter e = false.
Proof. intros H. unfold cs_try_enter. apply N.eqb_neq in H. now rewrite H. Qed.
Lemma delete_errors e : e <> 0 -> st_success (cs_delete e) = false.
Proof.
  intros H. unfold cs_delete. apply N.eqb_neq in H. rewrite H. cbn [negb].
  destruct ((e =? EBUSY) || (e =? EINVAL)); reflexivity.
Qed.
Lemma init_errors a t i : (a <> 0 \/ i <> 0) -> st_success (fst (cs_init a t i)) = false /\ snd (cs_init a t i) = None.
Proof.
  intros H. unfold cs_init. destruct (N.eqb_spec a 0) as [->|NA]; cbn [negb].
  - destruct (N.eqb_spec i 0) as [->|NI]; cbn [negb]; [lia|]. cbn [fst snd]. split; [|reflexivity].
    destruct (i =? EAGAIN); [reflexivity|]. destruct (i =? ENOMEM); [reflexivity|].
    destruct (i =? EPERM); [reflexivity|]. destruct ((i =? EBUSY) || (i =? EINVAL)); reflexivity.
  - cbn [fst snd]. split; [|reflexivity]. destruct (a =? ENOMEM); reflexivity.
Qed.
Lemma init_success : cs_init 0 0 0 = (ST_SUCCESS, Some (mkmutex true None 0)).
Proof. reflexivity. Qed.

Definition sync_inv (m : mutex) (tr : list event) : Prop :=
  recursive m = true /\
  match owner m with
  | None => depth m = 0 /\ forall t, holds t tr = 0%Z
  | Some o => 1 <= depth m /\ holds o tr = Z.of_N (depth m) /\ forall t, t <> o -> holds t tr = 0%Z
  end.
(** What one call does to the bookkeeping. *)
Lemma holds_one t u c r : holds t [(u, c, r)] =
  if u =? t then (if entered (u, c, r) then 1 else if left (u, c, r) then -1 else 0)%Z else 0%Z.
Proof.
  unfold holds. cbn [fold_right fst]. destruct (u =? t); [|reflexivity].
  destruct (entered (u, c, r)); [lia|]. destruct (left (u, c, r)); lia.
Qed.
Lemma sync_quiet m tr u c r : sync_inv m tr -> entered (u, c, r) = false -> left (u, c, r) = false ->
  sync_inv m (tr ++ [(u, c, r)]).
Proof.
  intros [R I] E L. split; [exact R|].
  assert (H : forall t, holds t (tr ++ [(u, c, r)]) = holds t tr).
  { intros t. rewrite holds_snoc, holds_one, E, L. destruct (u =? t); lia. }
  destruct (owner m) as [o|].
  - destruct I as (A & B & D). split; [exact A|]. split; [now rewrite H|]. intros t T. rewrite H. now apply D.
  - destruct I as [A B]. split; [exact A|]. intros t. rewrite H. apply B.
Qed.
Lemma sync_take d m tr u c r : sync_inv m tr -> entered (u, c, r) = true -> left (u, c, r) = false ->
  (owner m = None \/ owner m = Some u) -> d = depth m + 1 ->
  sync_inv (mkmutex true (Some u) d) (tr ++ [(u, c, r)]).
Proof.
  intros [R I] E L O ->. split; [reflexivity|]. cbn [owner depth].
  assert (H : forall t, holds t (tr ++ [(u, c, r)]) = (holds t tr + if (u =? t)%N then 1 else 0)%Z).
  { intros t. rewrite holds_snoc, holds_one, E. destruct (u =? t); lia. }
  split; [lia|]. destruct (owner m) as [o|].
  - destruct O as [O|O]; [discriminate|]. injection O as ->. destruct I as (A & B & D).
    split; [rewrite H, N.eqb_refl; lia|]. intros t T. rewrite H, D by exact T.
    destruct (N.eqb_spec u t); [congruence|lia].
  - destruct I as [A B]. split; [rewrite H, N.eqb_refl, B; lia|]. intros t T. rewrite H, B.
    destruct (N.eqb_spec u t); [congruence|lia].
Qed.
Lemma cs_step_inv mx t c inj m r m' tr : sync_inv m tr ->
  cs_step mx t c inj m = Some (r, m') ->
  sync_inv m' (tr ++ [(t, c, r)]) /\
  (entered (t, c, r) = true -> forall u, u <> t -> holds u tr = 0%Z) /\
  (left (t, c, r) = true -> (0 < holds t tr)%Z).
Proof.
  intros I S. unfold cs_step in S. destruct (N.eqb_spec inj 0) as [->|NI]; cbn [negb] in S.
  - destruct c.
    + (* Enter *)
      unfold mutex_lock in S. destruct (owner m) as [o|] eqn:O.
      * destruct (N.eqb_spec o t) as [->|NE]; cbn [negb] in S; [|discriminate].
        rewrite (proj1 I) in S. cbn [negb] in S. destruct (depth m <? mx).
        -- injection S as <- <-. split; [|split].
           ++ apply (sync_take _ m); auto.
           ++ intros _ u U. destruct I as [_ I]. rewrite O in I. apply I, U.
           ++ discriminate.
        -- injection S as <- <-. split; [|split; discriminate]. apply sync_quiet; [exact I|reflexivity|reflexivity].
      * injection S as <- <-. rewrite (proj1 I). split; [|split].
        -- apply (sync_take _ m); auto. destruct I as [_ I]. rewrite O in I. lia.
        -- intros _ u U. destruct I as [_ I]. rewrite O in I. apply I.
        -- discriminate.
    + (* TryEnter *)
      unfold mutex_trylock in S. destruct (owner m) as [o|] eqn:O.
      * destruct (N.eqb_spec o t) as [->|NE]; cbn [negb] in S.
        -- rewrite (proj1 I) in S. cbn [negb] in S. destruct (depth m <? mx).
           ++ injection S as <- <-. split; [|split].
              ** apply (sync_take _ m); auto.
              ** intros _ u U. destruct I as [_ I]. rewrite O in I. apply I, U.
              ** discriminate.
           ++ injection S as <- <-. split; [|split; discriminate]. apply sync_quiet; [exact I|reflexivity|reflexivity].
        -- injection S as <- <-. split; [|split; discriminate]. apply sync_quiet; [exact I|reflexivity|reflexivity].
      * injection S as <- <-. rewrite (proj1 I). split; [|split].
        -- apply (sync_take _ m); auto. destruct I as [_ I]. rewrite O in I. lia.
        -- intros _ u U. destruct I as [_ I]. rewrite O in I. apply I.
        -- discriminate.
    + (* Leave *)
      unfold mutex_unlock in S. destruct (owner m) as [o|] eqn:O.
      * destruct (N.eqb_spec o t) as [->|NE]; cbn [negb] in S.
        -- pose proof I as [R I']. rewrite O in I'. destruct I' as (A & B & D).
           assert (H : forall st u, st_success st = true ->
             holds u (tr ++ [(t, Leave, RStatus st)]) = (holds u tr - if (t =? u)%N then 1 else 0)%Z).
           { intros st u E. rewrite holds_snoc, holds_one. cbn [entered left]. rewrite E. destruct (t =? u); lia. }
           destruct (N.eqb_spec (depth m) 1) as [E1|E1]; injection S as <- <-.
           ++ split; [|split; [discriminate|lia]]. split; [exact R|]. cbn [owner depth]. split; [reflexivity|].
              intros u. rewrite H by reflexivity. destruct (N.eqb_spec t u) as [<-|NE]; [lia|].
              rewrite D by auto. lia.
           ++ split; [|split; [discriminate|lia]]. split; [exact R|]. cbn [owner depth]. split; [lia|].
              split; [rewrite H, N.eqb_refl by reflexivity; lia|].
              intros u U. rewrite H by reflexivity. destruct (N.eqb_spec t u) as [<-|NE]; [congruence|].
              rewrite D by auto. lia.
        -- injection S as <- <-. split; [|split; discriminate]. apply sync_quiet; [exact I|reflexivity|reflexivity].
      * injection S as <- <-. split; [|split; discriminate]. apply sync_quiet; [exact I|reflexivity|reflexivity].
  - injection S as <- <-. destruct c.
    + assert (E : st_success (cs_enter inj) = false) by now apply enter_errors.
      split; [|split; cbn [entered left]; congruence]. apply sync_quiet; [exact I|exact E|reflexivity].
    + assert (E : cs_try_enter inj = false) by now apply try_errors.
      split; [|split; cbn [entered left]; congruence]. apply sync_quiet; [exact I|exact E|reflexivity].
    + assert (E : st_success (cs_leave inj) = false) by now apply leave_errors.
      split; [|split; cbn [entered left]; congruence]. apply sync_quiet; [exact I|reflexivity|exact E].
Qed.
Lemma cs_run_inv mx : forall s m tr m' tr', sync_inv m tr -> trace_ok tr ->
  cs_run mx s m tr = (m', tr') -> sync_inv m' tr' /\ trace_ok tr'.
Proof.
  induction s as [|[[t c] inj] s IH]; intros m tr m' tr' I T E; cbn [cs_run] in E.
  - injection E as <- <-. auto.
  - destruct (cs_step mx t c inj m) as [[r m1]|] eqn:S.
    + destruct (cs_step_inv mx t c inj m r m1 tr I S) as (I1 & A & B).
      apply (IH _ _ _ _ I1) in E; [exact E|].
      intros a t' c' r' b EQ. destruct b as [|e b] using rev_ind.
      * apply app_inj_tail in EQ as [-> EQ]. injection EQ as -> -> ->. auto.
      * clear IHb. rewrite app_comm_cons, app_assoc in EQ. apply app_inj_tail in EQ as [EQ _]. now apply (T a t' c' r' b).
    + now apply (IH _ _ _ _ I T) in E.
Qed.
Lemma sync_inv_fresh : sync_inv fresh_section [].
Proof. repeat split. Qed.
Lemma trace_ok_nil : trace_ok [].
Proof. intros a t c r b E. destruct a; discriminate. Qed.
Lemma mutual_exclusion mx s m tr : cs_run mx s fresh_section [] = (m, tr) -> trace_ok tr.
Proof. intros E. exact (proj2 (cs_run_inv mx s _ _ _ _ sync_inv_fresh trace_ok_nil E)). Qed.
Lemma one_holder mx s m tr : cs_run mx s fresh_section [] = (m, tr) ->
  forall t u, (0 < holds t tr)%Z -> u <> t -> holds u tr = 0%Z.
Proof.
  intros E t u H NE. destruct (cs_run_inv mx s _ _ _ _ sync_inv_fresh trace_ok_nil E) as [[_ I] _].
  destruct (owner m) as [o|].
  - destruct I as (_ & _ & D). destruct (N.eq_dec t o) as [->|N]; [now apply D|]. rewrite (D t N) in H. lia.
  - destruct I as [_ B]. apply B.
Qed.
(** Whoever holds the section, or anybody if nobody does, gets in (again). *)
Lemma enters_again mx s m tr t : cs_run mx s fresh_section [] = (m, tr) -> 1 <= mx ->
  (forall u, u <> t -> holds u tr = 0%Z) -> (holds t tr < Z.of_N mx)%Z ->
  (exists m', cs_step mx t Enter 0 m = Some (RStatus ST_SUCCESS, m')) /\
  (exists m', cs_step mx t TryEnter 0 m = Some (RBool true, m')).
Proof.
  intros E MX H L. destruct (cs_run_inv mx s _ _ _ _ sync_inv_fresh trace_ok_nil E) as [[R I] _].
  unfold cs_step. change (negb (0 =? 0)) with false. cbv iota. unfold mutex_lock, mutex_trylock. destruct (owner m) as [o|].
  - destruct I as (A & B & D). assert (EO : o = t).
    { destruct (N.eq_dec o t) as [|N]; [assumption|]. rewrite H in B by exact N. lia. }
    subst o. rewrite N.eqb_refl, R. cbn [negb]. replace (depth m <? mx) with true by lia. split; eexists; reflexivity.
  - split; eexists; reflexivity.
Qed.
(** While another thread holds it, nobody gets in; the owner can leave. *)
Lemma others_wait mx s m tr t u : cs_run mx s fresh_section [] = (m, tr) -> (0 < holds t tr)%Z -> u <> t ->
  cs_step mx u Enter 0 m = None /\ cs_step mx u TryEnter 0 m = Some (RBool false, m) /\
  cs_step mx u Leave 0 m = Some (RStatus ST_INVALID_OPERATION, m) /\
  exists m', cs_step mx t Leave 0 m = Some (RStatus ST_SUCCESS, m').
Proof.
  intros E H NE. destruct (cs_run_inv mx s _ _ _ _ sync_inv_fresh trace_ok_nil E) as [[R I] _].
  unfold cs_step. change (negb (0 =? 0)) with false. cbv iota. unfold mutex_lock, mutex_trylock, mutex_unlock. destruct (owner m) as [o|].
  - destruct I as (A & B & D). assert (EO : o = t).
    { destruct (N.eq_dec o t) as [|N]; [assumption|]. rewrite (D t) in H by auto. lia. }
    subst o. replace (t =? u) with false by (symmetry; apply N.eqb_neq; auto). rewrite N.eqb_refl. cbn [negb].
    split; [reflexivity|]. split; [reflexivity|]. split; [reflexivity|].
    destruct (depth m =? 1); eexists; reflexivity.
  - rewrite (proj2 I) in H. lia.
Qed.
(** At the system's limit on recursion the owner is refused. *)
Lemma too_deep mx s m tr t : cs_run mx s fresh_section [] = (m, tr) -> 1 <= mx -> holds t tr = Z.of_N mx ->
  cs_step mx t Enter 0 m = Some (RStatus ST_INVALID_OPERATION, m) /\ cs_step mx t TryEnter 0 m = Some (RBool false, m).
Proof.
  intros E MX H. destruct (cs_run_inv mx s _ _ _ _ sync_inv_fresh trace_ok_nil E) as [[R I] _].
  unfold cs_step. change (negb (0 =? 0)) with false. cbv iota. unfold mutex_lock, mutex_trylock. destruct (owner m) as [o|].
  - destruct I as (A & B & D). assert (EO : o = t).
    { destruct (N.eq_dec o t) as [|N]; [assumption|]. rewrite (D t) in H by auto. lia. }
    subst o. rewrite N.eqb_refl, R. cbn [negb]. replace (depth m <? mx) with false by lia. split; reflexivity.
  - rewrite (proj2 I) in H. lia.
Qed.
(** Delete looks whether somebody is inside. *)
Lemma delete_section mx s m tr : cs_run mx s fresh_section [] = (m, tr) ->
  ((forall t, holds t tr = 0%Z) -> cs_delete (mutex_destroy m) = ST_SUCCESS) /\
  (forall t, (0 < holds t tr)%Z -> cs_delete (mutex_destroy m) = ST_INVALID_ARGUMENT).
Proof.
  intros E. destruct (cs_run_inv mx s _ _ _ _ sync_inv_fresh trace_ok_nil E) as [[R I] _].
  unfold mutex_destroy. destruct (owner m) as [o|].
  - destruct I as (A & B & D). split; [intros H; rewrite H in B; lia|reflexivity].
  - split; [reflexivity|]. intros t H. rewrite (proj2 I) in H. lia.
Qed.
Lemma not_recursive e mx t : e <> 0 ->
  exists m m1, cs_init 0 e 0 = (ST_SUCCESS, Some m) /\ cs_step mx t Enter 0 m = Some (RStatus ST_SUCCESS, m1) /\
    cs_step mx t Enter 0 m1 = None /\ cs_step mx t TryEnter 0 m1 = Some (RBool false, m1).
Proof.
  intros E. exists (mkmutex false None 0), (mkmutex false (Some t) 1). unfold cs_init.
  apply N.eqb_neq in E. rewrite E. split; [reflexivity|]. split; [reflexivity|].
  unfold cs_step, mutex_lock, mutex_trylock. change (negb (0 =? 0)) with false. cbn [owner recursive negb]. rewrite (N.eqb_refl t). split; reflexivity.
Qed.

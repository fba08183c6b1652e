(** Proofs about the destructors of thread-local storage. *)
From Verif Require Import Base Status SyncModel ApiModel ApiProofs WinModel WinProofs TlsDtorModel TlsDtorSpec.
From Coq Require Import ZifyBool ZifyNat ZifyN Permutation.
Local Open Scope N_scope.

(** ** Slots *)
Definition view (m : slots) (k t : N) : option (N * N) :=
  match slot m k with Some d => Some (d, vals m k t) | None => None end.
Lemma slot_new m k d k' : slot (new_slot m k d) k' = if k' =? k then Some d else slot m k'.
Proof. unfold slot, new_slot. cbn [live find fst]. rewrite (N.eqb_sym k k'). destruct (k' =? k); reflexivity. Qed.
Lemma slot_drop m k k' : slot (drop_slot m k) k' = if k' =? k then None else slot m k'.
Proof.
  unfold slot, drop_slot. cbn [live]. induction (live m) as [|[a b] l IH]; cbn [filter find fst].
  - now destruct (k' =? k).
  - destruct (N.eqb_spec a k) as [->|NE]; cbn [negb find fst].
    + rewrite IH. rewrite (N.eqb_sym k k'). destruct (k' =? k) eqn:E; reflexivity.
    + destruct (N.eqb_spec a k') as [->|NE2].
      * now replace (k' =? k) with false by lia.
      * exact IH.
Qed.
Lemma slot_set m k t x k' : slot (set_val m k t x) k' = slot m k'.
Proof. reflexivity. Qed.
Lemma slot_in m k d : slot m k = Some d -> In k (map fst (live m)).
Proof.
  unfold slot. destruct (find _ _) as [[a b]|] eqn:E; [|discriminate]. intros _. apply find_some in E as [I E].
  cbn [fst] in E. apply N.eqb_eq in E. subst. now apply (in_map fst) in I.
Qed.

(** The trace tells the contents of the slots. *)
Record agrees (m : slots) (tr : list tentry) : Prop := {
  ag_live : NoDup (map fst (live m));
  ag_users : NoDup (users m);
  ag_known : forall k t, vals m k t <> 0 -> In t (users m);
  ag_view : forall k t, stored k t tr = view m k t
}.
Lemma agrees_nil : agrees no_slots [].
Proof. split; try constructor; intros; try reflexivity. now cbn in H. Qed.
Lemma stored_snoc k t tr e : stored k t (tr ++ [e]) = stored_step k t (stored k t tr) e.
Proof. unfold stored. rewrite fold_left_app. reflexivity. Qed.

Lemma nodup_filter {A} (f : A -> bool) l : NoDup l -> NoDup (filter f l).
Proof. apply NoDup_filter. Qed.
Lemma nodup_drop (l : list (N * N)) k : NoDup (map fst l) -> NoDup (map fst (filter (fun x => negb (fst x =? k)) l)).
Proof.
  induction l as [|[a b] l IH]; cbn [map filter fst]; intros H; [constructor|]. inversion H as [|x y NI ND]; subst.
  destruct (a =? k); cbn [negb map fst]; [auto|]. constructor; [|auto]. intros I. apply NI.
  apply in_map_iff in I as ([c d] & E & I). apply filter_In in I as [I _]. cbn [fst] in E. subst. now apply (in_map fst) in I.
Qed.

(** The effects of the calls. *)
Inductive effect : slots -> N -> tcall -> status -> option N -> slots -> Prop :=
| ef_alloc m t d k e st : st_success st = true -> in_use m k = false -> effect m t (DAlloc d k e) st (Some k) (new_slot m k d)
| ef_free m t k st : st_success st = true -> in_use m k = true -> effect m t (DFree k) st None (drop_slot m k)
| ef_set m t k x e st : st_success st = true -> in_use m k = true -> effect m t (DSet k x e) st None (set_val m k t x)
| ef_get m t k x : effect m t (DGet k) ST_SUCCESS (Some x) m
| ef_fail m t c st r : st_success st = false -> effect m t c st r m.

Lemma agrees_effect m tr t c st r m' log : agrees m tr -> effect m t c st r m' ->
  agrees m' (tr ++ [(Call t c, st, r, log)]).
Proof.
  intros [AL AU AK AV] E. destruct E as [m t d k e st SS U|m t k st SS U|m t k x e st SS U|m t k x|m t c st r F].
  - split.
    + cbn [new_slot live map fst]. constructor; [|exact AL]. intros I. unfold in_use, slot in U.
      destruct (find (fun x => fst x =? k) (live m)) eqn:Q; [discriminate|].
      apply in_map_iff in I as (x & <- & I). apply (find_none _ _ Q) in I. lia.
    + exact AU.
    + intros k' u. cbn [new_slot vals users]. destruct (k' =? k); [congruence|]. apply AK.
    + intros k' u. rewrite stored_snoc. unfold stored_step. rewrite SS, AV. unfold view. rewrite slot_new. cbn [new_slot vals]. destruct (k' =? k); reflexivity.
  - split.
    + now apply nodup_drop.
    + exact AU.
    + exact AK.
    + intros k' u. rewrite stored_snoc. unfold stored_step. rewrite SS, AV. unfold view. rewrite slot_drop. cbn [drop_slot vals]. destruct (k' =? k); reflexivity.
  - split.
    + exact AL.
    + cbn [set_val users]. destruct (existsb (N.eqb t) (users m)) eqn:Q; [exact AU|]. constructor; [|exact AU].
      intros I. enough (existsb (N.eqb t) (users m) = true) by congruence. apply existsb_exists. exists t. split; [exact I|lia].
    + intros k' u. cbn [set_val vals users]. destruct (existsb (N.eqb t) (users m)) eqn:Q.
      * apply existsb_exists in Q as (y & I & Y). destruct ((k' =? k) && (u =? t)) eqn:B; [|apply AK].
        intros _. replace u with y by lia. exact I.
      * destruct ((k' =? k) && (u =? t)) eqn:B; [|right; eapply AK; eassumption]. intros _. left. lia.
    + intros k' u. rewrite stored_snoc. unfold stored_step. rewrite SS, AV. unfold view. rewrite slot_set. cbn [set_val vals].
      destruct ((k' =? k) && (u =? t)) eqn:B; [|reflexivity]. destruct (slot m k'); reflexivity.
  - split; auto. intros k' u. rewrite stored_snoc, AV. reflexivity.
  - split; auto. intros k' u. rewrite stored_snoc, AV. unfold stored_step. rewrite F. reflexivity.
Qed.
Lemma agrees_exit m m1 tr t r log : agrees m tr ->
  live m1 = live m -> NoDup (users m1) -> (forall k u, u <> t -> vals m1 k u = vals m k u) ->
  (forall u, In u (users m) -> u <> t -> In u (users m1)) ->
  agrees (forget m1 t) (tr ++ [(ThreadExit t, ST_SUCCESS, r, log)]).
Proof.
  intros [AL AU AK AV] EL NU EV EU.
  split.
  - cbn [forget live]. now rewrite EL.
  - cbn [forget users]. now apply nodup_filter.
  - intros k u. cbn [forget vals users]. destruct (N.eqb_spec u t) as [->|NE]; [congruence|]. intros H. apply filter_In.
    rewrite EV in H by exact NE. split; [|lia]. apply EU; [|exact NE]. eapply AK, H.
  - intros k u. rewrite stored_snoc. unfold stored_step. rewrite AV. unfold view, slot. cbn [forget live vals]. rewrite EL.
    destruct (N.eqb_spec u t) as [->|NE].
    + destruct (find _ _); reflexivity.
    + rewrite EV by exact NE. reflexivity.
Qed.

(** ** POSIX calls *)
Lemma posix_call_effect m t c st r m' : posix_call m t c = (st, r, m') -> effect m t c st r m'.
Proof.
  destruct c as [d k e|k|k x e|k]; cbn [posix_call]; intros E.
  - destruct (tls_alloc_ok 0 d (posix_system m t k e)) as [S F].
    destruct (Z.eq_dec (answer (posix_system m t k e) (Key_create d)) 0) as [Z0|Z0].
    + rewrite (S Z0) in E. injection E as <- <- <-. cbn [fold_left]. unfold posix_effect. rewrite Z0. cbn [negb Z.eqb].
      cbn [posix_system new_key]. apply ef_alloc; [reflexivity|]. cbn [posix_system answer] in Z0.
      destruct (e =? 0) eqn:E0; cbn [negb] in Z0; [|lia]. destruct (in_use m k); [discriminate|reflexivity].
    + destruct (F Z0) as (st' & X & ST & _). rewrite X, ST in E. injection E as <- <- <-. cbn [fold_left]. unfold posix_effect.
      replace (answer _ _ =? 0)%Z with false by lia. cbn [negb]. now apply ef_fail.
  - destruct (tls_free_ok k (posix_system m t 0 0)) as [C S]. destruct (tls_free k _) as [st' cs]. cbn [fst snd] in C, S. subst cs.
    injection E as <- <- <-. cbn [fold_left]. unfold posix_effect.
    destruct (Z.eqb_spec (answer (posix_system m t 0 0) (Key_delete k)) 0) as [Z0|Z0]; cbn [negb].
    + apply ef_free; [now apply S|]. cbn [posix_system answer] in Z0. destruct (in_use m k); [reflexivity|discriminate].
    + apply ef_fail. destruct (st_success st'); [|reflexivity]. exfalso. apply Z0. now apply S.
  - destruct (tls_set_ok k x (posix_system m t 0 e)) as (C & S & _). destruct (tls_set_value k x _) as [st' cs]. cbn [fst snd] in C, S. subst cs.
    injection E as <- <- <-. cbn [fold_left]. unfold posix_effect.
    destruct (Z.eqb_spec (answer (posix_system m t 0 e) (Setspecific k x)) 0) as [Z0|Z0]; cbn [negb].
    + apply ef_set; [now apply S|]. cbn [posix_system answer] in Z0. destruct (e =? 0) eqn:E0; cbn [negb] in Z0; [|lia].
      destruct (in_use m k); [reflexivity|discriminate].
    + apply ef_fail. destruct (st_success st'); [|reflexivity]. exfalso. apply Z0. now apply S.
  - unfold tls_get_value in E. injection E as <- <- <-. cbn [fold_left]. unfold posix_effect.
    destruct (negb _); apply ef_get.
Qed.

Lemma iter_S {A} n (f : A -> A) x : Nat.iter (S n) f x = f (Nat.iter n f x).
Proof. reflexivity. Qed.
Lemma iter_swap {A} n (f : A -> A) x : Nat.iter n f (f x) = f (Nat.iter n f x).
Proof. induction n as [|n IH]; [reflexivity|]. rewrite !iter_S. now rewrite IH. Qed.

(** ** The end of a thread on POSIX, with destructors that leave the storage alone *)
Section Exit.
  Variable act : N -> N -> list tcall.
  Variable order : list N -> list N.
  Hypothesis QUIET : forall d x, act d x = [].
  Hypothesis ORD : any_order order.
  Variable t : N.

  Definition same_but (m m' : slots) : Prop :=
    live m' = live m /\ (NoDup (users m) -> NoDup (users m')) /\ (forall k u, u <> t -> vals m' k u = vals m k u) /\
    (forall u, In u (users m) -> In u (users m')).
  Lemma same_but_refl m : same_but m m.
  Proof. repeat split; auto. Qed.
  Lemma same_but_trans m m1 m2 : same_but m m1 -> same_but m1 m2 -> same_but m m2.
  Proof.
    intros (A & B & C & D) (A' & B' & C' & D'). split; [congruence|]. split; [auto|]. split; [|auto].
    intros k u U. rewrite C', C; auto.
  Qed.
  Lemma same_but_set m k x : same_but m (set_val m k t x).
  Proof.
    split; [reflexivity|]. split; [|split].
    - cbn [set_val users]. destruct (existsb (N.eqb t) (users m)) eqn:Q; [auto|]. intros AU. constructor; [|exact AU].
      intros I. enough (existsb (N.eqb t) (users m) = true) by congruence. apply existsb_exists. exists t. split; [exact I|lia].
    - intros k' u U. cbn [set_val vals]. now replace ((k' =? k) && (u =? t)) with false by lia.
    - intros u U. cbn [set_val users]. destruct (existsb _ _); [exact U|now right].
  Qed.

  Lemma visits ks : forall m log, NoDup ks ->
    let '(m', log') := fold_left (visit act t) ks (m, log) in
    same_but m m' /\ log' = log ++ flat_map (fun k => due k t (view m k t)) ks /\
    (forall k, In k ks -> due k t (view m' k t) = []) /\ (forall k, ~ In k ks -> vals m' k t = vals m k t).
  Proof.
    induction ks as [|k ks IH]; intros m log ND; cbn [fold_left flat_map].
    - split; [apply same_but_refl|]. split; [now rewrite app_nil_r|]. split; [intros k []|reflexivity].
    - inversion ND as [|a b NI ND']; subst.
      assert (V : exists m1, visit act t (m, log) k = (m1, log ++ due k t (view m k t)) /\ same_but m m1 /\
                    due k t (view m1 k t) = [] /\ (forall j, j <> k -> vals m1 j t = vals m j t)).
      { unfold visit. unfold view. destruct (slot m k) as [d|] eqn:SL; cbn [due].
        - destruct ((d =? 0) || (vals m k t =? 0)) eqn:B.
          + exists m. rewrite app_nil_r. split; [reflexivity|]. split; [apply same_but_refl|]. split; [|reflexivity].
            rewrite SL. cbn [due]. now rewrite B.
          + rewrite QUIET. cbn [calls_of fold_left]. unfold calls_of. cbn [fold_left]. exists (set_val m k t 0). split; [reflexivity|].
            split; [apply same_but_set|]. split.
            * rewrite slot_set, SL. cbn [due set_val vals]. rewrite !N.eqb_refl. cbn [andb]. rewrite ?N.eqb_refl, orb_true_r. reflexivity.
            * intros j NE. cbn [set_val vals]. now replace ((j =? k) && (t =? t)) with false by lia.
        - exists m. rewrite app_nil_r. split; [reflexivity|]. split; [apply same_but_refl|]. split; [|reflexivity].
          now rewrite SL. }
      destruct V as (m1 & -> & SB & D1 & O1). specialize (IH m1 (log ++ due k t (view m k t)) ND').
      destruct (fold_left _ ks _) as [m' log']. destruct IH as (SB' & -> & DN & ON).
      split; [eapply same_but_trans; eassumption|]. split; [|split].
      + rewrite <- app_assoc. f_equal. f_equal. clear -NI O1 SB. destruct SB as (L & _).
        induction ks as [|j ks IH]; [reflexivity|]. cbn [flat_map]. rewrite IH by (intros X; apply NI; now right). f_equal. f_equal.
        unfold view, slot. rewrite L. destruct (find _ _); [|reflexivity]. f_equal. f_equal. apply O1. intros ->. apply NI. now left.
      + intros j [<-|I]; [|auto]. destruct SB' as (L & _). unfold view, slot in *. rewrite L. rewrite ON by exact NI. exact D1.
      + intros j NJ. rewrite ON by (intros X; apply NJ; now right). apply O1. intros ->. apply NJ. now left.
  Qed.

  Lemma visit_done m log k : due k t (view m k t) = [] -> visit act t (m, log) k = (m, log).
  Proof.
    unfold visit, view. destruct (slot m k) as [d|]; [|reflexivity]. cbn [due]. destruct ((d =? 0) || (vals m k t =? 0)); [reflexivity|discriminate].
  Qed.
  Lemma round_done m log : (forall k, due k t (view m k t) = []) -> round act order t (m, log) = (m, log).
  Proof.
    intros D. unfold round. cbn [fst]. induction (order _) as [|k ks IH]; [reflexivity|]. cbn [fold_left]. rewrite visit_done by apply D. exact IH.
  Qed.
  Lemma rounds_ok n m : NoDup (map fst (live m)) ->
    let '(m', log) := Nat.iter (S n) (round act order t) (m, []) in
    same_but m m' /\ log = flat_map (fun k => due k t (view m k t)) (order (map fst (live m))).
  Proof.
    intros ND. rewrite iter_S.
    rewrite <- iter_swap.
    assert (P := ORD (map fst (live m))). assert (ND' : NoDup (order (map fst (live m)))) by (eapply Permutation_NoDup; eassumption).
    unfold round at 2. cbn [fst]. pose proof (visits (order (map fst (live m))) m [] ND') as V.
    destruct (fold_left _ _ _) as [m' log']. destruct V as (SB & -> & DN & ON). cbn [app].
    set (log := flat_map _ _).
    assert (R : round act order t (m', log) = (m', log)).
    { apply round_done. intros k. destruct (view m' k t) as [[d x]|] eqn:E; [|reflexivity]. rewrite <- E. apply DN.
      eapply Permutation_in; [exact P|]. destruct SB as (<- & _). unfold view in E. destruct (slot m' k) eqn:SL; [|discriminate].
      eapply slot_in, SL. }
    assert (I : Nat.iter n (round act order t) (m', log) = (m', log)).
    { clear -R. induction n as [|n IH]; [reflexivity|]. rewrite iter_S. now rewrite IH. }
    rewrite I. split; [exact SB|reflexivity].
  Qed.
End Exit.

Lemma filter_due_same k t s : filter (of_slot k) (due k t s) = due k t s.
Proof.
  unfold due. destruct s as [[d x]|]; [|reflexivity]. destruct ((d =? 0) || (x =? 0)); [reflexivity|].
  cbn [filter]. unfold of_slot. cbn [fst]. now rewrite N.eqb_refl.
Qed.
Lemma filter_due_other k j t s : j <> k -> filter (of_slot k) (due j t s) = [].
Proof.
  intros NE. unfold due. destruct s as [[d x]|]; [|reflexivity]. destruct ((d =? 0) || (x =? 0)); [reflexivity|].
  cbn [filter]. unfold of_slot. cbn [fst]. now replace (j =? k) with false by lia.
Qed.
(** Exactly one of the parts of a list without repetition belongs to a given key. *)
Lemma filter_flat {B} (p : B -> bool) (f : N -> list B) k ks : NoDup ks ->
  (forall j, j <> k -> filter p (f j) = []) -> (~ In k ks -> filter p (f k) = []) -> filter p (flat_map f ks) = filter p (f k).
Proof.
  intros ND O. induction ks as [|j ks IH]; intros NI; cbn [flat_map]; [now rewrite NI by (intros [])|].
  rewrite filter_app. inversion ND as [|a b NJ ND']; subst. destruct (N.eq_dec j k) as [->|NE].
  - replace (filter p (flat_map f ks)) with (@nil B); [apply app_nil_r|]. symmetry. clear -NJ O.
    induction ks as [|j ks IH]; [reflexivity|]. cbn [flat_map]. rewrite filter_app, IH by (intros X; apply NJ; now right).
    rewrite O; [reflexivity|]. intros ->. apply NJ. now left.
  - rewrite O by exact NE. cbn [app]. apply IH; [exact ND'|]. intros X. apply NI. intros [Y|Y]; [now apply NE|contradiction].
Qed.

(** ** POSIX histories *)
Section PosixHistory.
  Variable act : N -> N -> list tcall.
  Variable order : list N -> list N.
  Variable rounds : nat.
  Hypothesis QUIET : forall d x, act d x = [].
  Hypothesis ORD : any_order order.
  Hypothesis ONCE : (1 <= rounds)%nat.

  Lemma posix_step_ok m tr ev st r m' log : agrees m tr -> posix_step act order rounds m ev = (st, r, m', log) ->
    agrees m' (tr ++ [(ev, st, r, log)]) /\ posix_rule tr ev log.
  Proof.
    intros A E. destruct ev as [t c|t|]; cbn [posix_step] in E.
    - destruct (posix_call m t c) as [[st' r'] m1] eqn:C. injection E as <- <- <- <-. split; [|reflexivity].
      eapply agrees_effect; [exact A|]. now apply posix_call_effect.
    - destruct rounds as [|n]; [lia|]. pose proof (rounds_ok act order QUIET ORD t n m (ag_live _ _ A)) as R.
      destruct (Nat.iter _ _ _) as [m1 log1]. destruct R as ((L & NU & EV & EU) & ->). injection E as <- <- <- <-. split.
      + eapply agrees_exit; eauto. apply NU, (ag_users _ _ A).
      + cbn [posix_rule]. intros k. rewrite (ag_view _ _ A).
        rewrite (filter_flat _ _ k); [apply filter_due_same| | |].
        * eapply Permutation_NoDup; [apply ORD|apply (ag_live _ _ A)].
        * intros j NE. now apply filter_due_other.
        * intros NI. unfold view. destruct (slot m k) eqn:SL; [|reflexivity]. exfalso. apply NI. eapply Permutation_in; [apply ORD|].
          eapply slot_in, SL.
    - injection E as <- <- <- <-. split; [|reflexivity]. destruct A as [AL AU AK AV]. split; auto.
      intros k t. rewrite stored_snoc, AV. reflexivity.
  Qed.
  Lemma posix_history es : forall m0 tr0 m tr, agrees m0 tr0 -> history (posix_step act order rounds) m0 es = (m, tr) ->
    agrees m (tr0 ++ tr).
  Proof.
    induction es as [|ev es IH]; intros m0 tr0 m tr A E; cbn [history] in E.
    - injection E as <- <-. now rewrite app_nil_r.
    - destruct (posix_step _ _ _ m0 ev) as [[[st r] m1] log] eqn:S. destruct (history _ m1 es) as [m2 tr2] eqn:H.
      injection E as <- <-. change ((ev, st, r, log) :: tr2) with ([(ev, st, r, log)] ++ tr2). rewrite app_assoc.
      eapply IH; [|exact H]. eapply posix_step_ok; eassumption.
  Qed.
  Lemma posix_ok es m tr ev st r m' log :
    history (posix_step act order rounds) no_slots es = (m, tr) -> posix_step act order rounds m ev = (st, r, m', log) ->
    posix_rule tr ev log.
  Proof. intros H S. eapply posix_step_ok; [|exact S]. exact (posix_history es no_slots [] m tr agrees_nil H). Qed.
End PosixHistory.

(** ** Destructors that use the storage *)
Section Any.
  Variable act : N -> N -> list tcall.
  Variable order : list N -> list N.
  Variable rounds : nat.
  Definition proper (c : callback) : Prop := let '(_, _, d, x) := c in d <> 0 /\ x <> 0.
  Lemma visit_proper t s k : Forall proper (snd s) -> Forall proper (snd (visit act t s k)).
  Proof.
    destruct s as [m log]. cbn [snd visit]. intros P. unfold visit. destruct (slot m k) as [d|]; [|exact P].
    destruct ((d =? 0) || (vals m k t =? 0)) eqn:B; [exact P|]. cbn [snd]. apply Forall_app. split; [exact P|]. constructor; [|constructor].
    cbn [proper]. lia.
  Qed.
  Lemma round_proper t s : Forall proper (snd s) -> Forall proper (snd (round act order t s)).
  Proof.
    unfold round. generalize (order (map fst (live (fst s)))). intros ks. revert s.
    induction ks as [|k ks IH]; intros s P; [exact P|]. cbn [fold_left]. apply IH. now apply visit_proper.
  Qed.
  Lemma step_proper m ev st r m' log : posix_step act order rounds m ev = (st, r, m', log) -> Forall proper log.
  Proof.
    destruct ev as [t c|t|]; cbn [posix_step]; intros E.
    - destruct (posix_call m t c) as [[st' r'] m1]. injection E as <- <- <- <-. constructor.
    - assert (P : forall n, Forall proper (snd (Nat.iter n (round act order t) (m, [])))).
      { induction n as [|n IH]; [constructor|]. rewrite iter_S. now apply round_proper. }
      specialize (P rounds). destruct (Nat.iter rounds _ _) as [m1 log1]. injection E as <- <- <- <-. exact P.
    - injection E as <- <- <- <-. constructor.
  Qed.
End Any.
(** A destructor that stores its value again is run [rounds] times, and the value it stored last is forgotten. *)
Lemma perm_one (order : list N -> list N) k : any_order order -> order [k] = [k].
Proof. intros O. apply Permutation_length_1_inv. apply O. Qed.
Lemma restoring (order : list N -> list N) rounds t k d x : any_order order -> d <> 0 -> x <> 0 ->
  snd (history (posix_step (fun _ y => [DSet k y 0]) order rounds) no_slots
         [Call t (DAlloc d k 0); Call t (DSet k x 0); ThreadExit t]) =
  [(Call t (DAlloc d k 0), ST_SUCCESS, Some k, []); (Call t (DSet k x 0), ST_SUCCESS, None, []);
   (ThreadExit t, ST_SUCCESS, None, repeat (k, t, d, x) rounds)].
Proof.
  intros O D X. cbn [history posix_step].
  assert (E1 : posix_call no_slots t (DAlloc d k 0) = (ST_SUCCESS, Some k, new_slot no_slots k d)) by reflexivity.
  rewrite E1. clear E1. set (m1 := new_slot no_slots k d).
  assert (US : forall m, slot m k = Some d -> forall y, posix_call m t (DSet k y 0) = (ST_SUCCESS, None, set_val m k t y)).
  { intros m SL y. cbn [posix_call]. unfold tls_set_value. cbn [posix_system answer].
    assert (U : in_use m k = true) by (unfold in_use; now rewrite SL). rewrite U. cbn [negb N.eqb Z.eqb fold_left].
    unfold posix_effect. cbn [posix_system answer]. rewrite U. reflexivity. }
  assert (S1 : slot m1 k = Some d) by (unfold m1; rewrite slot_new; now rewrite N.eqb_refl).
  rewrite (US m1 S1 x). set (m2 := set_val m1 k t x).
  assert (I : forall n, exists m, Nat.iter n (round (fun _ y => [DSet k y 0]) order t) (m2, []) = (m, repeat (k, t, d, x) n) /\
    live m = [(k, d)] /\ vals m k t = x).
  { induction n as [|n (m & IH & L & V)].
    - exists m2. split; [reflexivity|]. split; [reflexivity|]. cbn [m2 set_val vals]. now rewrite !N.eqb_refl.
    - rewrite iter_S.
      rewrite IH. unfold round. cbn [fst]. rewrite L. cbn [map fst]. rewrite (perm_one order k O). cbn [fold_left]. unfold visit.
      assert (SL : slot m k = Some d) by (unfold slot; rewrite L; cbn [find fst]; now rewrite N.eqb_refl).
      rewrite SL, V. replace ((d =? 0) || (x =? 0)) with false by lia. unfold calls_of. cbn [fold_left].
      rewrite (US (set_val m k t 0) SL x). cbn [snd]. eexists. split.
      + f_equal. change [(k, t, d, x)] with (repeat (k, t, d, x) 1). rewrite <- repeat_app. f_equal. lia.
      + split; [exact L|]. cbn [set_val vals]. now rewrite !N.eqb_refl. }
  destruct (I rounds) as (m & -> & _). reflexivity.
Qed.
Lemma never_null act order rounds m ev st r m' log : posix_step act order rounds m ev = (st, r, m', log) ->
  Forall (fun c => snd c <> 0) log.
Proof. intros H. eapply Forall_impl; [|exact (step_proper act order rounds m ev st r m' log H)]. intros [[[k t] d] x] [_ X]. exact X. Qed.

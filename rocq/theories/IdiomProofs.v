(** A spin lock, an update in a compare-exchange loop, a reference count. *)
From Coq Require Import ZifyBool ZifyNat ZifyN.
From Verif Require Import Base NListFacts BitFacts AtomicModel AtomicSpec AtomicProofs SyncModel IdiomSpec.

Lemma call_cas w o v x : atomic_call w (CompareExchange o v) x = (if x =? o then v else x, x).
Proof. reflexivity. Qed.

(** ** Updates *)
Section Updates.
  Context (w x0 : N) (programs : N -> list (N -> N)).
  Definition behind (m : updating) (i : N) : N :=
    match old (uthreads m i) with Some o => if o =? ucell m then 0 else 1 | None => 0 end.
  Definition uinv (m : updating) (h : list (N * (N -> N) * N)) : Prop :=
    updates_made x0 h (ucell m) /\
    forall i, programs i = map fst (updates_of i h) ++ updates (uthreads m i) /\
      replaced (uthreads m i) = map snd (updates_of i h) /\
      retries (uthreads m i) + behind m i <= updates_of_others i h.
  Lemma updates_of_snoc i h j f y : updates_of i (h ++ [(j, f, y)]) = updates_of i h ++ (if j =? i then [(f, y)] else []).
  Proof. unfold updates_of. rewrite filter_app, map_app. cbn [filter fst]. now destruct (j =? i). Qed.
  Lemma others_snoc i h j f y : updates_of_others i (h ++ [(j, f, y)]) = updates_of_others i h + (if j =? i then 0 else 1).
  Proof. unfold updates_of_others. rewrite filter_app, nlen_app. cbn [filter fst]. now destruct (j =? i). Qed.
  Lemma update_inv m h i : uinv m h -> exists h', uinv (update_one w m i) h' /\ exists k, h' = h ++ k.
  Proof.
    intros [UM I]. unfold update_one, update_step. destruct (updates (uthreads m i)) as [|f rest] eqn:U.
    { exists h. split; [|exists []; now rewrite app_nil_r]. split; [exact UM|]. intros j. unfold behind. cbn [ucell uthreads].
      assert (E : (if j =? i then uthreads m i else uthreads m j) = uthreads m j) by now destruct (N.eqb_spec j i) as [->|]. rewrite E. apply I. }
    destruct (old (uthreads m i)) as [o|] eqn:O.
    - rewrite call_cas. destruct (N.eqb_spec (ucell m) o) as [EQ|NE].
      + exists (h ++ [(i, f, o)]). split; [|now eexists]. split; [cbn [ucell]; subst o; now constructor|].
        intros j. unfold behind. cbn [ucell uthreads]. rewrite updates_of_snoc, others_snoc, (N.eqb_sym i j). destruct (I j) as (PR & RP & RT). unfold behind in RT.
        destruct (N.eqb_spec j i) as [->|NJ].
        * cbn [updates replaced retries old]. rewrite !map_app. cbn [map fst snd]. rewrite PR, RP, U, <- app_assoc. split; [reflexivity|]. split; [reflexivity|].
          rewrite O in RT. lia.
        * rewrite app_nil_r. split; [exact PR|]. split; [exact RP|]. destruct (old (uthreads m j)); [|lia]. destruct (_ =? f o); destruct (_ =? ucell m); lia.
      + exists h. split; [|exists []; now rewrite app_nil_r]. split; [exact UM|]. intros j. unfold behind. cbn [ucell uthreads].
        destruct (N.eqb_spec j i) as [->|NJ]; [|apply I]. cbn [updates replaced retries old]. destruct (I i) as (PR & RP & RT). rewrite PR, RP, U.
        split; [reflexivity|]. split; [reflexivity|]. unfold behind in RT. rewrite O in RT. rewrite N.eqb_refl. destruct (N.eqb_spec o (ucell m)); [congruence|lia].
    - rewrite call_cas. assert (E : (if ucell m =? 0 then 0 else ucell m) = ucell m) by (destruct (N.eqb_spec (ucell m) 0); lia). rewrite E.
      exists h. split; [|exists []; now rewrite app_nil_r]. split; [exact UM|]. intros j. unfold behind. cbn [ucell uthreads].
      destruct (N.eqb_spec j i) as [->|NJ]; [|apply I]. cbn [updates replaced retries old]. destruct (I i) as (PR & RP & RT). rewrite PR, RP, U.
      split; [reflexivity|]. split; [reflexivity|]. rewrite N.eqb_refl. unfold behind in RT. rewrite O in RT. lia.
  Qed.
  Lemma updates_inv : forall s m h, uinv m h -> exists h', uinv (fold_left (update_one w) s m) h' /\ exists k, h' = h ++ k.
  Proof.
    induction s as [|i s IH]; intros m h I; cbn [fold_left].
    - exists h. split; [exact I|]. exists []. now rewrite app_nil_r.
    - destruct (update_inv m h i I) as (h1 & I1 & k1 & ->). destruct (IH _ _ I1) as (h2 & I2 & k2 & ->). exists ((h ++ k1) ++ k2).
      split; [exact I2|]. exists (k1 ++ k2). now rewrite app_assoc.
  Qed.
  Theorem updates_atomic s1 s2 : exists h k, let m1 := update_run w x0 programs s1 in let m2 := update_run w x0 programs (s1 ++ s2) in
    updates_made x0 h (ucell m1) /\ updates_made x0 (h ++ k) (ucell m2) /\
    forall i, programs i = map fst (updates_of i h) ++ updates (uthreads m1 i) /\ replaced (uthreads m1 i) = map snd (updates_of i h) /\
      retries (uthreads m1 i) <= updates_of_others i h /\
      programs i = map fst (updates_of i (h ++ k)) ++ updates (uthreads m2 i) /\ replaced (uthreads m2 i) = map snd (updates_of i (h ++ k)).
  Proof.
    unfold update_run. rewrite fold_left_app.
    destruct (updates_inv s1 (mkupdating x0 (fun i => mkupdater (programs i) None [] 0)) []) as (h & I1 & _).
    { split; [constructor|]. intros i. unfold behind. cbn. split; [reflexivity|]. split; [reflexivity|lia]. }
    destruct (updates_inv s2 _ _ I1) as (h2 & I2 & k & ->). exists h, k. cbv zeta. destruct I1 as [U1 I1], I2 as [U2 I2].
    split; [exact U1|]. split; [exact U2|]. intros i. destruct (I1 i) as (A & B & C), (I2 i) as (A2 & B2 & _). repeat split; auto. lia.
  Qed.
  (** A thread alone gets on. *)
  Lemma alone i : forall us m, updates (uthreads m i) = us -> old (uthreads m i) = None ->
    let m' := fold_left (update_one w) (repeat i (2 * length us)) m in
    updates (uthreads m' i) = [] /\ retries (uthreads m' i) = retries (uthreads m i) /\ ucell m' = fold_left (fun x f => f x) us (ucell m).
  Proof.
    induction us as [|f us IH]; intros m U O; [cbn; auto|]. replace (2 * length (f :: us))%nat with (2 + 2 * length us)%nat by (cbn; lia).
    cbn [Nat.add repeat fold_left]. 
    assert (E1 : update_one w m i = mkupdating (ucell m) (fun j => if j =? i then mkupdater (f :: us) (Some (ucell m)) (replaced (uthreads m i)) (retries (uthreads m i)) else uthreads m j)).
    { unfold update_one, update_step. rewrite U, O, call_cas. f_equal. destruct (N.eqb_spec (ucell m) 0); lia. }
    rewrite E1. set (m1 := mkupdating _ _).
    assert (T1 : uthreads m1 i = mkupdater (f :: us) (Some (ucell m)) (replaced (uthreads m i)) (retries (uthreads m i))) by (unfold m1; cbn; now rewrite N.eqb_refl).
    set (m2 := update_one w m1 i).
    assert (E2 : ucell m2 = f (ucell m) /\ uthreads m2 i = mkupdater us None (replaced (uthreads m i) ++ [ucell m]) (retries (uthreads m i))).
    { unfold m2, update_one, update_step. rewrite T1. cbn [updates old replaced retries]. rewrite call_cas. change (ucell m1) with (ucell m). rewrite N.eqb_refl. cbn. now rewrite N.eqb_refl. }
    destruct E2 as [C2 T2]. destruct (IH m2) as (A & B & C); [now rewrite T2|now rewrite T2|]. rewrite T2 in B. cbn [retries] in B. rewrite C2 in C. auto.
  Qed.
End Updates.

Lemma alone_run w x0 programs s i : let m := update_run w x0 programs s in old (uthreads m i) = None ->
  let us := updates (uthreads m i) in let m' := update_run w x0 programs (s ++ repeat i (2 * length us)) in
  updates (uthreads m' i) = [] /\ retries (uthreads m' i) = retries (uthreads m i) /\ ucell m' = fold_left (fun x f => f x) us (ucell m).
Proof.
  intros m O us m'. assert (E : m' = fold_left (update_one w) (repeat i (2 * length us)) m) by (unfold m', m, update_run; now rewrite fold_left_app).
  rewrite E. now apply (alone w programs).
Qed.

(** Linearizability of the atomic calls. *)
From Verif Require Import Base NListFacts BitFacts AtomicModel AtomicSpec.
From Coq Require Import ZifyBool ZifyNat ZifyN.

Section Proofs.
  Context (w : N).

  Lemma builtin_seq c x x' r : x < 2 ^ w ->
    builtin w c x = (x', r) -> seq_call w c x (returned w c r) x'.
  Proof.
    intros X. destruct c as [c v| |]; cbn [builtin returned]; intros E.
    - injection E as <- <-. destruct (N.eqb_spec x c) as [->|NE]; now constructor.
    - injection E as <- <-. pose proof (pow2_pos w).
      destruct (N.eq_dec (x + 1) (2 ^ w)) as [E|E].
      + replace x with (2 ^ w - 1) at 1 by lia. rewrite E, N.mod_same by lia. apply seq_inc_wrap.
      + rewrite N.mod_small by lia. apply seq_inc; lia.
    - injection E as <- <-. pose proof (pow2_pos w).
      destruct (N.eq_dec x 0) as [->|E].
      + rewrite N.add_0_l, N.mod_small by lia. apply seq_dec_wrap.
      + replace (x + (2 ^ w - 1)) with (x - 1 + 1 * 2 ^ w) by lia.
        rewrite N.mod_add, N.mod_small by lia. apply seq_dec; lia.
  Qed.
  Lemma builtin_lt c x : x < 2 ^ w -> cas_fits w c -> fst (builtin w c x) < 2 ^ w.
  Proof.
    intros X F. destruct c as [c v| |]; cbn [builtin fst cas_fits] in *.
    - destruct (x =? c); assumption.
    - apply N.mod_lt. lia.
    - apply N.mod_lt. lia.
  Qed.

  Definition minv (x0 : N) (programs : N -> list acall) (m : machine) (h : list (N * (acall * N))) : Prop :=
    seq_history w x0 h (cell m) /\ cell m < 2 ^ w /\
    (forall i, of_thread i h = made w (threads m i)) /\
    (forall i, programs i = map fst (made w (threads m i)) ++ todo (threads m i)).

  Lemma of_thread_snoc i h j e : of_thread i (h ++ [(j, e)]) = of_thread i h ++ (if j =? i then [e] else []).
  Proof.
    unfold of_thread. rewrite filter_app, map_app. cbn [filter map fst]. now destruct (j =? i).
  Qed.

  Lemma mstep_inv x0 programs m h i : (forall j c, In c (programs j) -> cas_fits w c) ->
    minv x0 programs m h -> exists h', minv x0 programs (mstep w m i) h' /\ exists k, h' = h ++ k.
  Proof.
    intros FIT (SH & LT & OT & PR). unfold mstep, tstep.
    destruct (pending (threads m i)) as [[c x]|] eqn:P.
    - (* the call returns *)
      exists h. split; [|exists []; now rewrite app_nil_r]. unfold minv. cbn [cell threads].
      assert (E : forall j, made w (if j =? i then mkthread (todo (threads m i)) None (done (threads m i) ++ [(c, returned w c x)])
                                  else threads m j) = made w (threads m j)).
      { intros j. destruct (N.eqb_spec j i) as [->|]; [|reflexivity]. unfold made. cbn [done pending]. rewrite P.
        now rewrite app_nil_r. }
      split; [exact SH|]. split; [exact LT|]. split; intros j; rewrite E; [apply OT|].
      rewrite PR. f_equal. now destruct (N.eqb_spec j i) as [->|].
    - destruct (todo (threads m i)) as [|c cs] eqn:T.
      + exists h. split; [|exists []; now rewrite app_nil_r]. unfold minv. cbn [cell threads].
        assert (E : forall j, (if j =? i then threads m i else threads m j) = threads m j).
        { intros j. now destruct (N.eqb_spec j i) as [->|]. }
        split; [exact SH|]. split; [exact LT|]. split; intros j; rewrite E; [apply OT|apply PR].
      + destruct (builtin w c (cell m)) as [x' r] eqn:B.
        exists (h ++ [(i, (c, returned w c r))]). split; [|now eexists]. unfold minv. cbn [cell threads].
        assert (FC : cas_fits w c).
        { apply (FIT i). rewrite PR, T. apply in_elt. }
        pose proof (builtin_lt c (cell m) LT FC) as LT'. rewrite B in LT'. cbn [fst] in LT'.
        split; [eapply sh_snoc; [exact SH|now apply builtin_seq]|]. split; [exact LT'|]. split; intros j.
        * rewrite of_thread_snoc, OT. rewrite (N.eqb_sym i j). destruct (N.eqb_spec j i) as [->|]; [|now rewrite app_nil_r].
          unfold made. cbn [done pending]. rewrite P. now rewrite app_nil_r.
        * rewrite PR. destruct (N.eqb_spec j i) as [->|]; [|reflexivity]. unfold made. cbn [done pending todo].
          rewrite P, T, app_nil_r, map_app. cbn [map fst]. now rewrite <- app_assoc.
  Qed.
  Lemma mrun_inv x0 programs : (forall j c, In c (programs j) -> cas_fits w c) -> forall s m h,
    minv x0 programs m h -> exists h', minv x0 programs (mrun w m s) h' /\ exists k, h' = h ++ k.
  Proof.
    intros FIT. induction s as [|i s IH]; intros m h I; cbn [mrun fold_left].
    - exists h. split; [exact I|]. exists []. now rewrite app_nil_r.
    - destruct (mstep_inv x0 programs m h i FIT I) as (h1 & I1 & k1 & ->).
      destruct (IH _ _ I1) as (h2 & I2 & k2 & ->). exists ((h ++ k1) ++ k2). split; [exact I2|].
      exists (k1 ++ k2). now rewrite app_assoc.
  Qed.
  Lemma minv_start x0 programs : x0 < 2 ^ w -> minv x0 programs (start x0 programs) [].
  Proof.
    intros L. unfold minv, start. cbn [cell threads]. repeat split; [constructor|exact L].
  Qed.

  Lemma linearizable x0 programs schedule : x0 < 2 ^ w ->
    (forall j c, In c (programs j) -> cas_fits w c) ->
    exists h, let m := mrun w (start x0 programs) schedule in
      seq_history w x0 h (cell m) /\ cell m < 2 ^ w /\
      (forall i, of_thread i h = made w (threads m i)) /\
      (forall i, programs i = map fst (made w (threads m i)) ++ todo (threads m i)).
  Proof.
    intros L FIT. destruct (mrun_inv x0 programs FIT schedule _ _ (minv_start x0 programs L)) as (h & I & _).
    exists h. exact I.
  Qed.

  (** Counting. *)
  Lemma balance_snoc h e : balance (h ++ [e]) = (balance h + balance [e])%Z.
  Proof.
    induction h as [|[i [c r]] h IH]; [reflexivity|]. cbn [app]. unfold balance in *. cbn [fold_right fst snd] in *.
    rewrite IH. destruct c; lia.
  Qed.
  Lemma history_balance x h y : seq_history w x h y -> x < 2 ^ w ->
    (forall i c r, In (i, (c, r)) h -> c = Increment \/ c = Decrement) ->
    y < 2 ^ w /\ (exists q, Z.of_N y = Z.of_N x + balance h + q * 2 ^ Z.of_N w)%Z.
  Proof.
    induction 1 as [x|x h y i c r z SH IH CALL]; intros X ONLY.
    - split; [exact X|]. exists 0%Z. unfold balance. cbn. lia.
    - destruct IH as [Y [q E]]; [exact X|intros j c' r' IN; apply (ONLY j c' r'), in_app_iff; auto|].
      assert (C : c = Increment \/ c = Decrement) by (apply (ONLY i c r), in_elt).
      rewrite balance_snoc. pose proof (pow2_pos w) as PP.
      assert (PZ : Z.of_N (2 ^ w) = (2 ^ Z.of_N w)%Z) by (rewrite N2Z.inj_pow; reflexivity).
      unfold balance at 2. cbn [fold_right fst snd].
      inversion CALL; subst; try (destruct C; discriminate).
      + split; [lia|]. exists q. lia.
      + split; [lia|]. exists (q - 1)%Z. lia.
      + split; [lia|]. exists q. lia.
      + split; [lia|]. exists (q + 1)%Z. lia.
  Qed.
  (** The return values of a history of increments only are all the following values, in order. *)
  Lemma history_increments x h y : seq_history w x h y -> x < 2 ^ w ->
    (forall i c r, In (i, (c, r)) h -> c = Increment) ->
    y = (x + nlen h) mod 2 ^ w /\
    forall a i r b, h = a ++ (i, (Increment, r)) :: b -> r = (x + nlen a + 1) mod 2 ^ w.
  Proof.
    induction 1 as [x|x h y i c r z SH IH CALL]; intros X ONLY.
    - split; [change (nlen (@nil (N * (acall * N)))) with 0; rewrite N.add_0_r, N.mod_small; auto|].
      intros a i r b E. destruct a; discriminate.
    - destruct IH as [-> R]; [exact X|intros j c' r' IN; apply (ONLY j c' r'), in_app_iff; auto|].
      assert (C : c = Increment) by (apply (ONLY i c r), in_elt). subst c.
      pose proof (pow2_pos w) as PP.
      assert (Z : r = (x + nlen h + 1) mod 2 ^ w /\ z = r).
      { rewrite <- (N.add_mod_idemp_l (x + nlen h) 1) by lia.
        pose proof (N.mod_lt (x + nlen h) (2 ^ w) ltac:(lia)).
        inversion CALL; subst.
        - split; [|reflexivity]. symmetry. apply N.mod_small. assumption.
        - split; [|reflexivity].
          replace (2 ^ w - 1 + 1) with (2 ^ w) by lia. now rewrite N.mod_same by lia. }
      destruct Z as [-> ->]. split; [rewrite nlen_app, nlen_cons; change (nlen (@nil (N * (acall * N)))) with 0; f_equal; lia|].
      intros a j r' b E. destruct b as [|e b] using rev_ind.
      + apply app_inj_tail in E as [-> E]. injection E as -> ->. reflexivity.
      + clear IHb. rewrite app_comm_cons, app_assoc in E. apply app_inj_tail in E as [E _].
        now apply (R a j r' b).
  Qed.
  Lemma only_count_history x0 programs schedule h :
    let m := mrun w (start x0 programs) schedule in
    (forall i, of_thread i h = made w (threads m i)) ->
    (forall i, programs i = map fst (made w (threads m i)) ++ todo (threads m i)) ->
    forall i c r, In (i, (c, r)) h -> In c (programs i).
  Proof.
    intros m OT PR i c r IN. rewrite PR. apply in_app_iff. left. rewrite <- OT. unfold of_thread.
    rewrite map_map. apply in_map_iff. exists (i, (c, r)). split; [reflexivity|].
    apply filter_In. split; [exact IN|]. apply N.eqb_refl.
  Qed.
  Lemma counters x0 programs schedule : x0 < 2 ^ w -> (forall i, only_count (programs i)) ->
    exists h, let m := mrun w (start x0 programs) schedule in
      (forall i, of_thread i h = made w (threads m i)) /\
      (forall i, programs i = map fst (made w (threads m i)) ++ todo (threads m i)) /\
      cell m < 2 ^ w /\
      (exists q, Z.of_N (cell m) = Z.of_N x0 + balance h + q * 2 ^ Z.of_N w)%Z.
  Proof.
    intros L ONLY. destruct (linearizable x0 programs schedule L) as (h & SH & LT & OT & PR).
    { intros j c IN. destruct (ONLY j c IN) as [-> | ->]; exact I. }
    exists h. cbv zeta. split; [exact OT|]. split; [exact PR|].
    apply (history_balance x0 h _ SH L). intros i c r IN. apply (ONLY i c).
    apply (only_count_history x0 programs schedule h OT PR i c r IN).
  Qed.

  (** Real-time order: what has happened by some moment is a prefix of the history at any later moment. *)
  Lemma linearizable_prefix x0 programs s1 s2 : x0 < 2 ^ w ->
    (forall j c, In c (programs j) -> cas_fits w c) ->
    exists h k, let m1 := mrun w (start x0 programs) s1 in let m2 := mrun w (start x0 programs) (s1 ++ s2) in
      seq_history w x0 h (cell m1) /\ seq_history w x0 (h ++ k) (cell m2) /\
      (forall i, of_thread i h = made w (threads m1 i)) /\
      (forall i, of_thread i (h ++ k) = made w (threads m2 i)) /\
      (forall i, programs i = map fst (made w (threads m2 i)) ++ todo (threads m2 i)).
  Proof.
    intros L FIT. destruct (mrun_inv x0 programs FIT s1 _ _ (minv_start x0 programs L)) as (h & I & _).
    destruct (mrun_inv x0 programs FIT s2 _ _ I) as (h2 & I2 & k & ->). exists h, k. cbv zeta.
    unfold mrun in *. rewrite fold_left_app. destruct I as (A1 & _ & A2 & _). destruct I2 as (B1 & _ & B2 & B3). auto.
  Qed.
  (** Increments only: the results are all different values, in the order of the history. *)
  Lemma increments_counted x0 programs schedule : x0 < 2 ^ w ->
    (forall i c, In c (programs i) -> c = Increment) ->
    exists h, let m := mrun w (start x0 programs) schedule in
      (forall i, of_thread i h = made w (threads m i)) /\
      cell m = (x0 + nlen h) mod 2 ^ w /\
      forall a i r b, h = a ++ (i, (Increment, r)) :: b -> r = (x0 + nlen a + 1) mod 2 ^ w.
  Proof.
    intros L ONLY. destruct (linearizable x0 programs schedule L) as (h & SH & LT & OT & PR).
    { intros j c IN. rewrite (ONLY j c IN). exact I. }
    exists h. cbv zeta. split; [exact OT|]. apply (history_increments x0 h _ SH L).
    intros i c r IN.
    assert (IN2 : In (c, r) (of_thread i h)).
    { unfold of_thread. apply in_map_iff. exists (i, (c, r)). split; [reflexivity|]. apply filter_In.
      split; [exact IN|apply N.eqb_refl]. }
    rewrite OT in IN2. apply (ONLY i c). rewrite PR. apply in_app_iff. left.
    apply in_map_iff. exists (c, r). auto.
  Qed.
End Proofs.

(** Lemmas about the memory primitives. *)
From Verif Require Import Base NListFacts Status Mem.
From Coq Require Import ZifyBool ZifyNat ZifyN.

Section MemFacts.
  Context {C : Type}.
  Implicit Types (w : world C) (b o n : N).

  Definition upd w b (buf : list C) : world C := set_heap w (hset (heap w) b (Some buf)).

  (** An assertion stops the program or does nothing. *)
  Lemma assert_cases (c : bool) w : assert c w = Ok tt w \/ assert c w = Fault AssertFailed.
  Proof. destruct c; [now left|]. cbn. destruct (checked w); auto. Qed.

  Lemma heap_upd_same w b buf : heap (upd w b buf) b = Some buf.
  Proof. cbn. unfold hset. now rewrite N.eqb_refl. Qed.
  Lemma heap_upd_other w b b' buf : b' <> b -> heap (upd w b buf) b' = heap w b'.
  Proof. cbn. unfold hset. intros H. apply N.eqb_neq in H. now rewrite H. Qed.

  Lemma mread_mid w b o n a x c :
    heap w b = Some (a ++ x ++ c) -> nlen a = o -> nlen x = n ->
    mread (Some (mkptr b o)) n w = Ok x w.
  Proof.
    intros H Ha Hx. unfold mread. cbn [pb po]. rewrite H.
    destruct (N.leb_spec (o + n) (nlen (a ++ x ++ c))) as [L|L].
    - now rewrite nsub_mid.
    - rewrite !nlen_app in L. lia.
  Qed.
  Lemma mwrite_mid w b o a x y c :
    heap w b = Some (a ++ x ++ c) -> nlen a = o -> nlen x = nlen y ->
    mwrite (Some (mkptr b o)) y w = Ok tt (upd w b (a ++ y ++ c)).
  Proof.
    intros H Ha Hx. unfold mwrite. cbn [pb po]. rewrite H.
    destruct (N.leb_spec (o + nlen y) (nlen (a ++ x ++ c))) as [L|L].
    - now rewrite nsplice_mid.
    - rewrite !nlen_app in L. lia.
  Qed.
  Lemma memmove_mid w p n b' o' a x c y :
    mread p n w = Ok y w -> nlen y = n ->
    heap w b' = Some (a ++ x ++ c) -> nlen a = o' -> nlen x = n ->
    memmove (Some (mkptr b' o')) p n w = Ok tt (upd w b' (a ++ y ++ c)).
  Proof.
    intros R Hy H Ha Hx. unfold memmove, bind. rewrite R.
    apply (mwrite_mid w b' o' a x y c); congruence.
  Qed.
  Lemma memcpy_mid w p n b' o' a x c y :
    mread p n w = Ok y w -> nlen y = n ->
    heap w b' = Some (a ++ x ++ c) -> nlen a = o' -> nlen x = n ->
    overlap (Some (mkptr b' o')) p n = false ->
    memcpy (Some (mkptr b' o')) p n w = Ok tt (upd w b' (a ++ y ++ c)).
  Proof.
    intros. unfold memcpy. rewrite H4. eapply memmove_mid; eauto.
  Qed.

  Lemma nlen_fresh (fill : N -> C) n : nlen (fresh fill n) = n.
  Proof. unfold nlen, fresh. rewrite map_length, seq_length. lia. Qed.

  Lemma overlap_other p q n : pb p <> pb q -> overlap (Some p) (Some q) n = false.
  Proof. intros H. unfold overlap. apply N.eqb_neq in H. now rewrite H. Qed.
  Lemma overlap_disj p q n : po p + n <= po q \/ po q + n <= po p ->
    overlap (Some p) (Some q) n = false.
  Proof. intros H. unfold overlap. lia. Qed.

  Lemma bind_ok {A B} (m : M C A) (k : A -> M C B) w a w' :
    m w = Ok a w' -> bind m k w = k a w'.
  Proof. unfold bind. now intros ->. Qed.

  Lemma st_success_err st : st_success (err_status st) = false.
  Proof.
    unfold st_success, err_status. apply negb_false_iff.
    apply N.testbit_true. 
    replace (2 ^ 31) with 2147483648 by reflexivity.
    pose proof (N.mod_upper_bound st 2147483648 ltac:(lia)).
    replace ((2147483648 + st mod 2147483648) / 2147483648) with 1; [reflexivity|].
    apply (N.div_unique _ _ _ (st mod 2147483648)); lia.
  Qed.
End MemFacts.

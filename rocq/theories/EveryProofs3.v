(** Refutations of the LibC replacements for every string. *)
From Verif Require Import Base NListFacts LibCModel LibCSpec LibCProofs LibCProofs2.
From Coq Require Import ZifyBool ZifyNat ZifyN.

Lemma strncmp_same m : forall c p q x y n, bytes_at m p (c ++ x) -> bytes_at m q (c ++ y) -> (length c <= n)%nat ->
  strncmp_loop n p q m = strncmp_loop (n - length c) (p + nlen c) (q + nlen c) m /\ bytes_at m (p + nlen c) x /\ bytes_at m (q + nlen c) y.
Proof.
  induction c as [|b c IH]; intros p q x y n BP BQ L.
  - cbn [length app] in *. rewrite Nat.sub_0_r. change (nlen (@nil N)) with 0. rewrite !N.add_0_r. auto.
  - destruct n as [|n]; [cbn in L; lia|]. destruct BP as [P0 BP]. destruct BQ as [Q0 BQ]. cbn [length] in L.
    cbn [strncmp_loop length Nat.sub]. unfold lbind, ld. rewrite P0, Q0, N.eqb_refl. cbn [negb].
    rewrite nlen_cons. replace (p + (1 + nlen c)) with (p + 1 + nlen c) by lia. replace (q + (1 + nlen c)) with (q + 1 + nlen c) by lia.
    apply IH; auto. lia.
Qed.
Lemma strncmp_behind m p q s c a b n : bytes_at m p (s ++ 0 :: c ++ [a]) -> bytes_at m q (s ++ 0 :: c ++ [b]) -> a <> b ->
  nlen (s ++ 0 :: c) < n -> strncmp p q n m = LOk (Z.of_N a - Z.of_N b)%Z m.
Proof.
  intros BP BQ NE L. unfold strncmp.
  replace (s ++ 0 :: c ++ [a]) with ((s ++ 0 :: c) ++ [a]) in BP by now rewrite <- app_assoc.
  replace (s ++ 0 :: c ++ [b]) with ((s ++ 0 :: c) ++ [b]) in BQ by now rewrite <- app_assoc.
  unfold nlen in L. destruct (strncmp_same m _ _ _ _ _ (N.to_nat n) BP BQ ltac:(lia)) as (E & [PA _] & [QA _]). rewrite E.
  destruct (N.to_nat n - length (s ++ 0%N :: c))%nat eqn:D; [lia|]. cbn [strncmp_loop]. unfold lbind, ld. rewrite PA, QA.
  destruct (N.eqb_spec a b); [congruence|]. reflexivity.
Qed.
Lemma strncmp_outside m p q s c n : bytes_at m p (s ++ 0 :: c) -> bytes_at m q (s ++ 0 :: c) -> m (p + nlen (s ++ 0 :: c)) = None ->
  nlen (s ++ 0 :: c) < n -> strncmp p q n m = LOob.
Proof.
  intros BP BQ MN L. unfold strncmp.
  rewrite <- (app_nil_r (s ++ 0 :: c)) in BP, BQ.
  unfold nlen in L. destruct (strncmp_same m _ _ _ _ _ (N.to_nat n) BP BQ ltac:(lia)) as (E & _ & _). rewrite E.
  destruct (N.to_nat n - length (s ++ 0%N :: c))%nat eqn:D; [lia|]. cbn [strncmp_loop]. unfold lbind, ld. now rewrite MN.
Qed.
Lemma strstr_nothing m p q f : cstr m p [] -> cstr m q [] -> strstr (S f) p q m = LOk None m.
Proof.
  intros [[P0 _] _] HQ. unfold strstr. rewrite (lbind_ok _ _ _ _ _ (strlen_ok m q [] (S f) HQ ltac:(cbn; lia))).
  cbn [strstr_loop]. unfold lbind, ld. now rewrite P0.
Qed.
Lemma strcoll_stub m p q : strcoll p q m = LOk 0%Z m.
Proof. reflexivity. Qed.

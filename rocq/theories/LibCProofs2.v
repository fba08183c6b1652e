(** STRNCMP, STRXFRM and STRTOK. *)
From Verif Require Import Base NListFacts LibCModel LibCSpec LibCProofs.
From Coq Require Import ZifyBool ZifyNat ZifyN.

Lemma strncmp_loop_ok m : forall s t p q k, cstr m p s -> cstr m q t ->
  (s = t -> (k <= length s + 1)%nat) ->
  exists r, strncmp_loop k p q m = LOk r m /\ cmp_result r (firstn k s) (firstn k t).
Proof.
  induction s as [|a s IH]; intros t p q [|k] H1 H2 G; cbn [strncmp_loop firstn];
    try (exists 0%Z; split; [reflexivity|apply cmp_result_refl]).
  - apply cstr_nil in H1. rewrite (lbind_ok _ _ _ _ _ (ld_ok _ _ _ H1)). destruct t as [|b t].
    + apply cstr_nil in H2. rewrite (lbind_ok _ _ _ _ _ (ld_ok _ _ _ H2)). rewrite N.eqb_refl. cbn [negb].
      specialize (G eq_refl). cbn [length] in G. replace k with O by lia. cbn [strncmp_loop].
      exists 0%Z. split; [reflexivity|apply cmp_result_refl].
    + apply cstr_cons in H2 as (A & NZ & _). rewrite (lbind_ok _ _ _ _ _ (ld_ok _ _ _ A)).
      destruct (N.eqb_spec 0 b) as [Z|_]; [congruence|]. cbn [negb].
      eexists. split; [reflexivity|]. repeat split; intros X; try (lia || discriminate); try constructor.
      inversion X.
  - apply cstr_cons in H1 as (A & NZ & H1). rewrite (lbind_ok _ _ _ _ _ (ld_ok _ _ _ A)). destruct t as [|b t].
    + apply cstr_nil in H2. rewrite (lbind_ok _ _ _ _ _ (ld_ok _ _ _ H2)).
      destruct (N.eqb_spec a 0) as [Z|_]; [congruence|]. cbn [negb].
      eexists. split; [reflexivity|]. repeat split; intros X; try (lia || discriminate); try constructor.
      inversion X.
    + apply cstr_cons in H2 as (B & NZ2 & H2). rewrite (lbind_ok _ _ _ _ _ (ld_ok _ _ _ B)).
      destruct (N.eqb_spec a b) as [->|NE]; cbn [negb].
      * destruct (IH t (p + 1) (q + 1) k H1 H2) as (r & R & C).
        { intros ->. specialize (G eq_refl). cbn [length] in G. lia. }
        exists r. split; [exact R|]. now apply cmp_result_cons.
      * eexists. split; [reflexivity|]. now apply cmp_result_head.
Qed.
Lemma strncmp_ok m s t p q n : cstr m p s -> cstr m q t -> (s = t -> n <= nlen s + 1) ->
  exists r, strncmp p q n m = LOk r m /\ cmp_result r (nfirst n s) (nfirst n t).
Proof.
  intros H1 H2 G. apply strncmp_loop_ok; auto. intros E. specialize (G E). unfold nlen in G. lia.
Qed.

Lemma strxfrm_ok m d p s n f : cstr m p s -> (length s < f)%nat ->
  (nlen s < n -> mapped m d (nlen s + 1) /\ disjoint d (nlen s + 1) p (nlen s + 1)) ->
  exists m', strxfrm f d p n m = LOk (nlen s) m' /\
    forall a, m' a = (if nlen s <? n then put m d (s ++ [0]) a else m a).
Proof.
  intros H F G. unfold strxfrm. rewrite (lbind_ok _ _ _ _ _ (strlen_ok m p s f H F)).
  destruct (N.ltb_spec (nlen s) n) as [L|L].
  - destruct (G L) as [M D]. destruct (strcpy_ok m d p s f H M D F) as (m' & R & E).
    exists m'. rewrite (lbind_ok _ _ _ _ _ R). split; [reflexivity|exact E].
  - exists m. split; reflexivity.
Qed.

(** ** STRTOK *)
Lemma span_unique f s n x y : span f s n -> s = x ++ y -> forallb f x = true ->
  match y with [] => True | b :: _ => f b = false end -> nlen x = n.
Proof.
  intros (x' & y' & -> & <- & F1 & F2). revert x. induction x' as [|a x' IH]; intros x E F3 F4; cbn [app] in E.
  - destruct x as [|b x]; [reflexivity|]. rewrite E in F2. cbn [app forallb] in *.
    apply andb_true_iff in F3 as [F3 _]. congruence.
  - cbn [forallb] in F1. apply andb_true_iff in F1 as [FA F1]. destruct x as [|b x]; cbn [app] in E.
    + subst y. congruence.
    + injection E as <- E. cbn [forallb] in F3. apply andb_true_iff in F3 as [_ F3].
      rewrite !nlen_cons. f_equal. apply IH; auto.
Qed.
Lemma span_split (f : N -> bool) : forall s, exists x y, s = x ++ y /\ forallb f x = true /\
  match y with [] => True | b :: _ => f b = false end.
Proof.
  induction s as [|a s (x & y & -> & F1 & F2)]; [now exists [], []|].
  destruct (f a) eqn:E.
  - exists (a :: x), y. cbn [forallb app]. rewrite E. auto.
  - exists [], (a :: x ++ y). auto.
Qed.

Lemma tokens_skip d x s : forallb (among d) x = true -> tokens d (x ++ s) = tokens d s.
Proof.
  unfold tokens. induction x as [|b x IH]; cbn [forallb app tokens_from]; [reflexivity|].
  intros F. apply andb_true_iff in F as [A F]. rewrite A. now apply IH.
Qed.
Lemma tokens_cur d : forall x cur s, forallb (fun b => negb (among d b)) x = true ->
  tokens_from d cur (x ++ s) = tokens_from d (cur ++ x) s.
Proof.
  induction x as [|b x IH]; intros cur s; cbn [forallb app tokens_from]; [now rewrite app_nil_r|].
  intros F. apply andb_true_iff in F as [A F]. apply negb_true_iff in A. rewrite A, IH by exact F.
  now rewrite <- app_assoc.
Qed.
Lemma tokens_one d x : x <> [] -> forallb (fun b => negb (among d b)) x = true -> tokens d x = [x].
Proof.
  intros NE F. unfold tokens. rewrite <- (app_nil_r x) at 1. rewrite tokens_cur by exact F. cbn [app tokens_from].
  destruct x; congruence.
Qed.
Lemma tokens_more d x b s : x <> [] -> forallb (fun b => negb (among d b)) x = true -> among d b = true ->
  tokens d (x ++ b :: s) = x :: tokens d s.
Proof.
  intros NE F A. unfold tokens. rewrite tokens_cur by exact F. cbn [app tokens_from]. rewrite A.
  destruct x; congruence.
Qed.

(** One call: skip delimiters, return the token that follows, remember the rest. *)
Definition tok_post (d s : list N) (p : N) (m : mem) (r : option N) (p' : option N) (m' : mem) : Prop :=
  match tokens d s with
  | [] => r = None /\ p' = None /\ m' = m
  | tok :: toks => exists a, r = Some a /\ p <= a /\ cstr m' a tok /\ a + nlen tok <= p + nlen s /\
      (forall x, x < a \/ a + nlen tok < x \/ p + nlen s <= x -> m' x = m x) /\
      match p' with
      | Some q => exists s', q = a + nlen tok + 1 /\ q + nlen s' = p + nlen s /\
                    cstr m' q s' /\ Forall (fun b => b < 256) s' /\ tokens d s' = toks
      | None => toks = []
      end
  end.
Lemma strtok_step m p q s d f : cstr m p s -> cstr m q d -> Forall (fun b => b < 256) s ->
  (length s < f)%nat -> (length d < f)%nat -> nlen s < W64 ->
  exists r p' m', strtok f (Some p) None q m = LOk (r, p') m' /\ tok_post d s p m r p' m'.
Proof.
  intros H HD B F FD W. unfold strtok.
  destruct (span_split (among d) s) as (x & s1 & ES & F1 & F2).
  destruct (strspn_ok m s d p q f H HD B F FD W) as (n1 & R1 & S1).
  pose proof (span_unique _ _ _ _ _ S1 ES F1 F2) as <-. rewrite (lbind_ok _ _ _ _ _ R1). cbv zeta.
  assert (N1 : ~ In 0 x) by (intros I; apply (proj2 H); rewrite ES; apply in_app_iff; auto).
  pose proof H as HS. rewrite ES in HS. apply cstr_app in HS as [HX HS1]; [|exact N1].
  rewrite ES in B. apply Forall_app in B as [_ B1].
  destruct (span_split (fun b => negb (among d b)) s1) as (tok & s2 & ES1 & F3 & F4).
  assert (LS : nlen s = nlen x + nlen s1) by (rewrite ES, nlen_app; reflexivity).
  assert (LL : (length s1 <= length s)%nat) by (rewrite ES, app_length; lia).
  destruct (strcspn_ok m s1 d (p + nlen x) q f HS1 HD B1 ltac:(lia) FD ltac:(lia)) as (n2 & R2 & S2).
  pose proof (span_unique _ _ _ _ _ S2 ES1 F3 F4) as <-. rewrite (lbind_ok _ _ _ _ _ R2). cbv zeta.
  assert (TK : tokens d s = tokens d s1) by (rewrite ES; now apply tokens_skip).
  assert (N2 : ~ In 0 tok) by (intros I; apply (proj2 HS1); rewrite ES1; apply in_app_iff; auto).
  pose proof HS1 as HS2. rewrite ES1 in HS2. apply cstr_app in HS2 as [HT HS2]; [|exact N2].
  assert (LS1 : nlen s1 = nlen tok + nlen s2) by (rewrite ES1, nlen_app; reflexivity).
  unfold tok_post. rewrite TK.
  destruct tok as [|c tok].
  - (* no token left *)
    change (nlen (@nil N)) with 0 in *. rewrite N.add_0_r, N.eqb_refl. cbn [app] in ES1. subst s2.
    assert (E : s1 = []).
    { destruct s1 as [|b s1]; [reflexivity|]. apply negb_false_iff in F4. congruence. }
    subst s1. exists None, None, m. split; [reflexivity|]. cbn. auto.
  - set (T := c :: tok) in *. assert (NT : nlen T <> 0) by (unfold T; rewrite nlen_cons; lia).
    destruct (N.eqb_spec (p + nlen x + nlen T) (p + nlen x)) as [Z|_]; [lia|].
    destruct s2 as [|b s2].
    + apply cstr_nil in HS2. rewrite (lbind_ok _ _ _ _ _ (ld_ok _ _ _ HS2)), N.eqb_refl.
      rewrite app_nil_r in ES1. exists (Some (p + nlen x)), None, m. split; [reflexivity|].
      rewrite ES1, tokens_one by (exact F3 || discriminate).
      exists (p + nlen x). change (nlen (@nil N)) with 0 in LS1. split; [reflexivity|]. split; [lia|].
      split; [rewrite <- ES1; exact HS1|]. split; [lia|]. auto.
    + apply cstr_cons in HS2 as (A & NZ & HS2). rewrite (lbind_ok _ _ _ _ _ (ld_ok _ _ _ A)).
      destruct (N.eqb_spec b 0) as [Z|_]; [contradiction|].
      rewrite (lbind_ok _ _ _ _ _ (st_ok m (p + nlen x + nlen T) 0 ltac:(congruence))).
      apply negb_false_iff in F4. rewrite nlen_cons in LS1.
      exists (Some (p + nlen x)), (Some (p + nlen x + nlen T + 1)), (mset m (p + nlen x + nlen T) 0).
      split; [reflexivity|]. rewrite ES1, tokens_more by (exact F3 || exact F4 || discriminate).
      exists (p + nlen x). split; [reflexivity|]. split; [lia|]. split; [|split; [lia|split]].
      * split; [|exact N2]. apply bytes_at_app. split; [apply bytes_at_mset; [lia|exact HT]|].
        cbn [bytes_at]. split; [apply mset_same|exact I].
      * intros y Y. apply mset_other. lia.
      * exists s2. split; [reflexivity|]. split; [lia|]. split; [|split; [|reflexivity]].
        -- apply (cstr_ext m); [|exact HS2]. intros a Y. apply mset_other. lia.
        -- rewrite ES1 in B1. apply Forall_app in B1 as [_ B1]. now inversion B1.
Qed.
Lemma strtok_null f q m : strtok f None None q m = LOk (None, None) m.
Proof. reflexivity. Qed.
Lemma strtok_next_null f q : forall k m, strtok_next f k None q m = LOk (repeat None k) m.
Proof.
  induction k as [|k IH]; intros m; cbn [strtok_next repeat]; [reflexivity|].
  rewrite (lbind_ok _ _ _ _ _ (strtok_null f q m)). cbv beta iota.
  rewrite (lbind_ok _ _ _ _ _ (IH m)). reflexivity.
Qed.
Lemma strtok_next_ok f q d : (length d < f)%nat -> forall k m p s,
  cstr m p s -> cstr m q d -> Forall (fun b => b < 256) s -> (length s < f)%nat -> nlen s < W64 ->
  disjoint p (nlen s + 1) q (nlen d + 1) ->
  exists addrs m', strtok_next f k (Some p) q m = LOk (map Some addrs ++ repeat None (k - length addrs)) m' /\
    Forall2 (cstr m') addrs (firstn k (tokens d s)) /\
    (forall x, x < p \/ p + nlen s <= x -> m' x = m x).
Proof.
  intros FD. induction k as [|k IH]; intros m p s H HD B F W D.
  - exists [], m. split; [reflexivity|]. split; [constructor|auto].
  - destruct (strtok_step m p q s d f H HD B F FD W) as (r & p' & m1 & R & P).
    cbn [strtok_next]. rewrite (lbind_ok _ _ _ _ _ R). cbv beta iota. unfold tok_post in P.
    destruct (tokens d s) as [|tok toks].
    + destruct P as (-> & -> & ->). rewrite (lbind_ok _ _ _ _ _ (strtok_next_null f q k m)).
      exists [], m. split; [reflexivity|]. split; [constructor|auto].
    + destruct P as (a & -> & PA & CT & LT & OUT & P'). destruct p' as [q'|].
      * destruct P' as (s' & EQ & LQ & CS & BS & TS).
        unfold disjoint in D.
        destruct (IH m1 q' s') as (addrs & m' & R' & F2 & OUT').
        -- exact CS.
        -- apply (cstr_ext m); [|exact HD]. intros x X. apply OUT. lia.
        -- exact BS.
        -- unfold nlen in *. lia.
        -- lia.
        -- unfold disjoint. lia.
        -- rewrite (lbind_ok _ _ _ _ _ R'). exists (a :: addrs), m'. split; [reflexivity|].
           split; [|intros x X; rewrite OUT' by lia; apply OUT; lia].
           cbn [firstn]. constructor.
           ++ apply (cstr_ext m1); [|exact CT]. intros x X. apply OUT'. lia.
           ++ now rewrite <- TS.
      * subst toks. rewrite (lbind_ok _ _ _ _ _ (strtok_next_null f q k m1)).
        exists [a], m1. split; [cbn [map app length]; now replace (S k - 1)%nat with k by lia|].
        split; [|intros x X; apply OUT; lia].
        cbn [firstn]. rewrite firstn_nil. constructor; [exact CT|constructor].
Qed.

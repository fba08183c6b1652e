(** Proofs about the fallback C library functions. *)
From Verif Require Import Base NListFacts LibCModel LibCSpec.
From Coq Require Import ZifyBool ZifyNat ZifyN.

(** ** Memory *)
Lemma ld_ok m a b : m a = Some b -> ld a m = LOk b m.
Proof. unfold ld. now intros ->. Qed.
Lemma st_ok m a v : m a <> None -> st a v m = LOk tt (mset m a v).
Proof. unfold st. destruct (m a); [reflexivity|intros []; reflexivity]. Qed.
Lemma lbind_ok {A B} (x : LM A) (k : A -> LM B) m a m' : x m = LOk a m' -> lbind x k m = k a m'.
Proof. unfold lbind. now intros ->. Qed.
Lemma mset_same m a v : mset m a v a = Some v.
Proof. unfold mset. now rewrite N.eqb_refl. Qed.
Lemma mset_other m a v a' : a' <> a -> mset m a v a' = m a'.
Proof. unfold mset. destruct (N.eqb_spec a' a); congruence. Qed.
Lemma put_nil m p a : put m p [] a = m a.
Proof. unfold put. change (nlen (@nil N)) with 0. destruct (N.leb_spec p a), (N.ltb_spec a (p + 0)); cbn; lia || reflexivity. Qed.
Lemma nnth_S {A} (x : A) l i : i <> 0 -> nnth i (x :: l) = nnth (i - 1) l.
Proof.
  intros H. unfold nnth. replace (N.to_nat i) with (S (N.to_nat (i - 1))) by lia. reflexivity.
Qed.
Lemma put_cons m p b l a : put m p (b :: l) a = put (mset m p b) (p + 1) l a.
Proof.
  unfold put, mset. rewrite nlen_cons.
  destruct (N.eqb_spec a p) as [->|NE].
  - replace (p <=? p) with true by lia. replace (p <? p + (1 + nlen l)) with true by lia.
    replace (p + 1 <=? p) with false by lia. cbn [andb]. now rewrite N.sub_diag.
  - replace (p + 1 <=? a) with (p <=? a) by lia.
    replace (a <? p + 1 + nlen l) with (a <? p + (1 + nlen l)) by lia.
    destruct (N.leb_spec p a), (N.ltb_spec a (p + (1 + nlen l))); cbn [andb]; try reflexivity.
    rewrite nnth_S by lia. f_equal. lia.
Qed.
Lemma put_app m p l1 l2 a : put m p (l1 ++ l2) a = put (put m p l1) (p + nlen l1) l2 a.
Proof.
  unfold put. rewrite nlen_app.
  destruct (N.leb_spec (p + nlen l1) a) as [G|G].
  - replace (p <=? a) with true by lia. rewrite N.add_assoc. cbn [andb].
    destruct (N.ltb_spec a (p + nlen l1 + nlen l2)) as [H1|H1].
    + rewrite nnth_app2 by lia. f_equal. lia.
    + replace (a <? p + nlen l1) with false by lia. reflexivity.
  - cbn [andb]. destruct (N.leb_spec p a); cbn [andb]; [|reflexivity].
    replace (a <? p + (nlen l1 + nlen l2)) with true by lia.
    replace (a <? p + nlen l1) with true by lia. apply nnth_app1. lia.
Qed.
Lemma bytes_at_ext m m' : forall l p, (forall a, p <= a < p + nlen l -> m' a = m a) ->
  bytes_at m p l -> bytes_at m' p l.
Proof.
  induction l as [|b l IH]; cbn [bytes_at]; [auto|]. intros p E [A B]. rewrite nlen_cons in E. split.
  - rewrite E by lia. exact A.
  - apply IH; [|exact B]. intros a H. apply E. lia.
Qed.
Lemma bytes_at_app m : forall l1 l2 p, bytes_at m p (l1 ++ l2) <-> bytes_at m p l1 /\ bytes_at m (p + nlen l1) l2.
Proof.
  induction l1 as [|b l1 IH]; intros l2 p; cbn [bytes_at app].
  - change (nlen (@nil N)) with 0. rewrite N.add_0_r. tauto.
  - rewrite IH, nlen_cons. replace (p + 1 + nlen l1) with (p + (1 + nlen l1)) by lia. tauto.
Qed.
Lemma mapped_step m p n v a : mapped m p (1 + n) -> mapped (mset m a v) (p + 1) n.
Proof.
  intros M i I. unfold mset. destruct (N.eqb_spec (p + 1 + i) a); [discriminate|].
  replace (p + 1 + i) with (p + (1 + i)) by lia. apply M. lia.
Qed.
Lemma mapped_mset m p n v a : mapped m p n -> mapped (mset m a v) p n.
Proof. intros M i I. unfold mset. destruct (N.eqb_spec (p + i) a); [discriminate|]. now apply M. Qed.
Lemma mapped_le m p n k : k <= n -> mapped m p n -> mapped m p k.
Proof. intros L M i I. apply M. lia. Qed.
Lemma mapped_head m p n : mapped m p (1 + n) -> m p <> None.
Proof. intros M. specialize (M 0 ltac:(lia)). now rewrite N.add_0_r in M. Qed.
Lemma mapped_shift m p n k : mapped m p (k + n) -> mapped m (p + k) n.
Proof. intros M i I. rewrite <- N.add_assoc. apply M. lia. Qed.
Lemma bytes_at_mset m p l a v : a < p \/ p + nlen l <= a -> bytes_at m p l -> bytes_at (mset m a v) p l.
Proof. intros H. apply bytes_at_ext. intros x X. apply mset_other. lia. Qed.
Lemma nlen_to_nat {A} (l : list A) : N.to_nat (nlen l) = length l.
Proof. unfold nlen. lia. Qed.

(** ** mem functions *)
Lemma memchr_loop_ok m c : forall l p, bytes_at m p l ->
  exists r, memchr_loop (length l) p c m = LOk r m /\ first_at (fun b => b =? c mod 256) p l r.
Proof.
  induction l as [|b l IH]; intros p; cbn [bytes_at length memchr_loop].
  - intros _. exists None. split; reflexivity.
  - intros [A B]. rewrite (lbind_ok _ _ _ _ _ (ld_ok _ _ _ A)).
    destruct (N.eqb_spec b (c mod 256)) as [E|E]; cbn [negb].
    + exists (Some p). split; [reflexivity|]. exists [], l, b.
      change (nlen (@nil N)) with 0. repeat split; [lia|]. apply N.eqb_eq, E.
    + destruct (IH _ B) as ([a|] & R & F); rewrite R.
      * exists (Some a). split; [reflexivity|]. destruct F as (x & y & b' & -> & -> & F1 & F2).
        exists (b :: x), y, b'. rewrite nlen_cons. repeat split; [lia|exact F1|].
        cbn [forallb]. apply N.eqb_neq in E. now rewrite E.
      * exists None. split; [reflexivity|]. cbn [first_at forallb] in *. apply N.eqb_neq in E. now rewrite E.
Qed.
Lemma memchr_ok m p c n l : bytes_at m p l -> nlen l = n ->
  exists r, memchr p c n m = LOk r m /\ first_at (fun b => b =? c mod 256) p l r.
Proof. intros B <-. unfold memchr. rewrite nlen_to_nat. now apply memchr_loop_ok. Qed.

Lemma lex_irr l : ~ lex_lt l l.
Proof. induction l; intros H; inversion H; subst; [lia|auto]. Qed.
Lemma cmp_result_cons r a s t : cmp_result r s t -> cmp_result r (a :: s) (a :: t).
Proof.
  intros (A & B & D). repeat split; intros H.
  - f_equal. now apply A.
  - injection H as H. now apply A.
  - apply lex_tail. now apply B.
  - inversion H; subst; [lia|now apply B].
  - apply lex_tail. now apply D.
  - inversion H; subst; [lia|now apply D].
Qed.
Lemma cmp_result_head a b s t : a <> b -> cmp_result (Z.of_N a - Z.of_N b)%Z (a :: s) (b :: t).
Proof.
  intros NE. repeat split; intros H; try (lia || congruence).
  - apply lex_head. lia.
  - inversion H; subst; [lia|congruence].
  - apply lex_head. lia.
  - inversion H; subst; [lia|congruence].
Qed.
Lemma cmp_result_refl s : cmp_result 0 s s.
Proof. repeat split; intros H; try lia; exfalso; now apply (lex_irr s). Qed.

Lemma memcmp_loop_ok m : forall l1 l2 p1 p2, length l1 = length l2 ->
  bytes_at m p1 l1 -> bytes_at m p2 l2 ->
  exists r, memcmp_loop (length l1) p1 p2 m = LOk r m /\ cmp_result r l1 l2.
Proof.
  induction l1 as [|a l1 IH]; intros [|b l2] p1 p2 L; try discriminate; cbn [bytes_at length memcmp_loop].
  - intros _ _. exists 0%Z. split; [reflexivity|apply cmp_result_refl].
  - intros [A1 B1] [A2 B2]. injection L as L.
    rewrite (lbind_ok _ _ _ _ _ (ld_ok _ _ _ A1)), (lbind_ok _ _ _ _ _ (ld_ok _ _ _ A2)).
    destruct (N.eqb_spec a b) as [->|NE]; cbn [negb].
    + destruct (IH l2 (p1 + 1) (p2 + 1) L B1 B2) as (r & R & H). exists r. split; [exact R|].
      now apply cmp_result_cons.
    + eexists. split; [reflexivity|]. now apply cmp_result_head.
Qed.
Lemma memcmp_ok m p1 p2 n l1 l2 : nlen l1 = n -> nlen l2 = n -> bytes_at m p1 l1 -> bytes_at m p2 l2 ->
  exists r, memcmp p1 p2 n m = LOk r m /\ cmp_result r l1 l2.
Proof.
  intros <- E B1 B2. unfold memcmp. rewrite nlen_to_nat. apply memcmp_loop_ok; auto.
  unfold nlen in E. lia.
Qed.

Lemma copy_up_ok : forall l m d s, bytes_at m s l -> mapped m d (nlen l) ->
  d <= s \/ s + nlen l <= d ->
  exists m', copy_up (length l) d s m = LOk tt m' /\ forall a, m' a = put m d l a.
Proof.
  induction l as [|b l IH]; intros m d s; cbn [bytes_at length copy_up].
  - intros _ _ _. exists m. split; [reflexivity|]. intros a. now rewrite put_nil.
  - intros [A B] M D. rewrite nlen_cons in *.
    rewrite (lbind_ok _ _ _ _ _ (ld_ok _ _ _ A)).
    rewrite (lbind_ok _ _ _ _ _ (st_ok m d b (mapped_head _ _ _ M))).
    destruct (IH (mset m d b) (d + 1) (s + 1)) as (m' & R & E).
    + apply bytes_at_mset; [lia|exact B].
    + apply mapped_step. exact M.
    + lia.
    + exists m'. split; [exact R|]. intros a. rewrite E. symmetry. apply put_cons.
Qed.
Lemma memcpy_ok m d s n l : bytes_at m s l -> nlen l = n -> mapped m d n -> disjoint d n s n ->
  exists m', memcpy d s n m = LOk d m' /\ forall a, m' a = put m d l a.
Proof.
  intros B <- M D. unfold memcpy. rewrite nlen_to_nat. unfold disjoint in D.
  destruct (copy_up_ok l m d s B M ltac:(lia)) as (m' & R & E).
  exists m'. rewrite (lbind_ok _ _ _ _ _ R). split; [reflexivity|exact E].
Qed.
Lemma mset_put m d l b a : put m d (l ++ [b]) a = put (mset m (d + nlen l) b) d l a.
Proof.
  rewrite put_app, put_cons, put_nil. unfold mset, put.
  destruct (N.eqb_spec a (d + nlen l)) as [->|NE]; [|reflexivity].
  now replace (d + nlen l <? d + nlen l) with false by lia; rewrite andb_false_r.
Qed.
Lemma copy_down_ok : forall l m d s, bytes_at m s l -> mapped m d (nlen l) ->
  s < d ->
  exists m', copy_down (length l) (d + nlen l) (s + nlen l) m = LOk tt m' /\ forall a, m' a = put m d l a.
Proof.
  induction l as [|b l IH] using rev_ind; intros m d s B M D.
  - exists m. split; [reflexivity|]. intros a. now rewrite put_nil.
  - apply bytes_at_app in B as [B [A _]]. rewrite app_length. cbn [length].
    rewrite Nat.add_1_r. cbn [copy_down]. rewrite nlen_app in *. rewrite nlen_cons in *.
    change (nlen (@nil N)) with 0 in *.
    replace (s + (nlen l + (1 + 0)) - 1) with (s + nlen l) by lia.
    replace (d + (nlen l + (1 + 0)) - 1) with (d + nlen l) by lia.
    rewrite (lbind_ok _ _ _ _ _ (ld_ok _ _ _ A)).
    rewrite (lbind_ok _ _ _ _ _ (st_ok m (d + nlen l) b (M (nlen l) ltac:(lia)))).
    destruct (IH (mset m (d + nlen l) b) d s) as (m' & R & E).
    + apply bytes_at_mset; [lia|exact B].
    + apply mapped_mset. apply (mapped_le m d _ (nlen l)) in M; [exact M|lia].
    + exact D.
    + exists m'. split; [exact R|]. intros a. rewrite E. symmetry. apply mset_put.
Qed.
Lemma memmove_ok m d s n l : bytes_at m s l -> nlen l = n -> mapped m d n ->
  exists m', memmove d s n m = LOk d m' /\ forall a, m' a = put m d l a.
Proof.
  intros B <- M. unfold memmove. rewrite nlen_to_nat. destruct (N.ltb_spec s d) as [L|L].
  - destruct (copy_down_ok l m d s B M L) as (m' & R & E).
    exists m'. rewrite (lbind_ok _ _ _ _ _ R). split; [reflexivity|exact E].
  - destruct (copy_up_ok l m d s B M ltac:(lia)) as (m' & R & E).
    exists m'. rewrite (lbind_ok _ _ _ _ _ R). split; [reflexivity|exact E].
Qed.
Lemma fill_loop_ok v : forall k m p, mapped m p (N.of_nat k) ->
  exists m', fill_loop k p v m = LOk tt m' /\ forall a, m' a = put m p (repeat v k) a.
Proof.
  induction k as [|k IH]; intros m p M; cbn [fill_loop repeat].
  - exists m. split; [reflexivity|]. intros a. now rewrite put_nil.
  - replace (N.of_nat (S k)) with (1 + N.of_nat k) in M by lia.
    rewrite (lbind_ok _ _ _ _ _ (st_ok m p v (mapped_head _ _ _ M))).
    destruct (IH (mset m p v) (p + 1)) as (m' & R & E); [apply mapped_step; exact M|].
    exists m'. split; [exact R|]. intros a. rewrite E. symmetry. apply put_cons.
Qed.
Lemma memset_ok m d v n : mapped m d n ->
  exists m', memset d v n m = LOk d m' /\ forall a, m' a = put m d (nrepeat (v mod 256) n) a.
Proof.
  intros M. unfold memset, nrepeat. destruct (fill_loop_ok (v mod 256) (N.to_nat n) m d) as (m' & R & E).
  - rewrite Nnat.N2Nat.id. exact M.
  - exists m'. rewrite (lbind_ok _ _ _ _ _ R). split; [reflexivity|exact E].
Qed.

(** ** Strings *)
Lemma cstr_cons m p b s : cstr m p (b :: s) <-> m p = Some b /\ b <> 0 /\ cstr m (p + 1) s.
Proof. unfold cstr. cbn [app bytes_at In]. intuition congruence. Qed.
Lemma cstr_nil m p : cstr m p [] <-> m p = Some 0.
Proof. unfold cstr. cbn [app bytes_at In]. intuition. Qed.
Lemma cstr_app m p s t : ~ In 0 s -> cstr m p (s ++ t) <-> bytes_at m p s /\ cstr m (p + nlen s) t.
Proof.
  intros NI. unfold cstr. rewrite <- app_assoc, bytes_at_app, in_app_iff. tauto.
Qed.
Lemma cstr_ext m m' p s : (forall a, p <= a <= p + nlen s -> m' a = m a) -> cstr m p s -> cstr m' p s.
Proof.
  intros E [A B]. split; [|exact B]. apply (bytes_at_ext m); [|exact A].
  intros a H. rewrite nlen_app, nlen_cons in H. change (nlen (@nil N)) with 0 in H. apply E. lia.
Qed.
Lemma to_end_ok m : forall s p f, cstr m p s -> (length s < f)%nat -> to_end f p m = LOk (p + nlen s) m.
Proof.
  induction s as [|b s IH]; intros p f H F; destruct f as [|f]; try (cbn [length] in F; lia); cbn [to_end].
  - apply cstr_nil in H. rewrite (lbind_ok _ _ _ _ _ (ld_ok _ _ _ H)). rewrite N.eqb_refl.
    change (nlen (@nil N)) with 0. now rewrite N.add_0_r.
  - apply cstr_cons in H as (A & NZ & H). rewrite (lbind_ok _ _ _ _ _ (ld_ok _ _ _ A)).
    apply N.eqb_neq in NZ. rewrite NZ. cbn [length] in F. rewrite (IH _ _ H) by lia.
    rewrite nlen_cons. f_equal. lia.
Qed.
Lemma strlen_ok m p s f : cstr m p s -> (length s < f)%nat -> strlen f p m = LOk (nlen s) m.
Proof.
  intros H F. unfold strlen. rewrite (lbind_ok _ _ _ _ _ (to_end_ok m s p f H F)).
  unfold lret. f_equal. lia.
Qed.
Lemma copy_str_ok : forall s m d p f, cstr m p s -> mapped m d (nlen s + 1) ->
  d <= p \/ p + nlen s + 1 <= d -> (length s < f)%nat ->
  exists m', copy_str f d p m = LOk tt m' /\ forall a, m' a = put m d (s ++ [0]) a.
Proof.
  induction s as [|b s IH]; intros m d p f H M D F; destruct f as [|f]; try (cbn [length] in F; lia);
    cbn [copy_str app].
  - apply cstr_nil in H. rewrite (lbind_ok _ _ _ _ _ (ld_ok _ _ _ H)).
    change (nlen (@nil N) + 1) with (1 + 0) in M.
    rewrite (lbind_ok _ _ _ _ _ (st_ok m d 0 (mapped_head _ _ _ M))). rewrite N.eqb_refl.
    eexists. split; [reflexivity|]. intros a. now rewrite put_cons, put_nil.
  - apply cstr_cons in H as (A & NZ & H). rewrite nlen_cons in *. cbn [length] in F.
    rewrite (lbind_ok _ _ _ _ _ (ld_ok _ _ _ A)).
    rewrite <- N.add_assoc in M.
    rewrite (lbind_ok _ _ _ _ _ (st_ok m d b (mapped_head _ _ _ M))).
    apply N.eqb_neq in NZ. rewrite NZ.
    destruct (IH (mset m d b) (d + 1) (p + 1) f) as (m' & R & E).
    + apply (cstr_ext m); [|exact H]. intros a X. apply mset_other. lia.
    + apply mapped_step. exact M.
    + lia.
    + lia.
    + exists m'. split; [exact R|]. intros a. rewrite E. symmetry. apply put_cons.
Qed.
Lemma strcpy_ok m d p s f : cstr m p s -> mapped m d (nlen s + 1) ->
  disjoint d (nlen s + 1) p (nlen s + 1) -> (length s < f)%nat ->
  exists m', strcpy f d p m = LOk d m' /\ forall a, m' a = put m d (s ++ [0]) a.
Proof.
  intros H M D F. unfold disjoint in D.
  destruct (copy_str_ok s m d p f H M ltac:(lia) F) as (m' & R & E).
  exists m'. unfold strcpy. rewrite (lbind_ok _ _ _ _ _ R). split; [reflexivity|exact E].
Qed.
Lemma strcat_ok m d p s t f : cstr m d s -> cstr m p t -> mapped m d (nlen s + nlen t + 1) ->
  disjoint d (nlen s + nlen t + 1) p (nlen t + 1) -> (length s < f)%nat -> (length t < f)%nat ->
  exists m', strcat f d p m = LOk d m' /\ forall a, m' a = put m (d + nlen s) (t ++ [0]) a.
Proof.
  intros H1 H2 M D F1 F2. unfold disjoint in D. unfold strcat.
  rewrite (lbind_ok _ _ _ _ _ (to_end_ok m s d f H1 F1)).
  destruct (copy_str_ok t m (d + nlen s) p f H2) as (m' & R & E); [| lia |exact F2|].
  - rewrite <- N.add_assoc in M. now apply mapped_shift in M.
  - exists m'. rewrite (lbind_ok _ _ _ _ _ R). split; [reflexivity|exact E].
Qed.
(** Between "at most [n]" sources. *)
Lemma cstr_n_cons m p n b s : cstr_n m p n (b :: s) ->
  m p = Some b /\ b <> 0 /\ 1 <= n /\ cstr_n m (p + 1) (n - 1) s.
Proof.
  intros [[H L]|(H & NI & L)]; rewrite nlen_cons in L.
  - apply cstr_cons in H as (A & NZ & H). repeat split; auto; [lia|]. left. split; [exact H|lia].
  - cbn [bytes_at In] in *. destruct H as [A H]. repeat split; auto; [lia|].
    right. repeat split; auto. lia.
Qed.
Lemma strncat_loop_ok : forall s m d p n, cstr_n m p n s -> mapped m d (nlen s + 1) ->
  d <= p \/ p + n <= d ->
  exists m', strncat_loop (N.to_nat n) d p m = LOk tt m' /\ forall a, m' a = put m d (s ++ [0]) a.
Proof.
  induction s as [|b s IH]; intros m d p n H M D.
  - destruct H as [[H L]|(_ & _ & L)].
    + change (nlen (@nil N)) with 0 in L. replace (N.to_nat n) with (S (N.to_nat (n - 1))) by lia.
      cbn [strncat_loop]. apply cstr_nil in H. rewrite (lbind_ok _ _ _ _ _ (ld_ok _ _ _ H)).
      change (nlen (@nil N) + 1) with (1 + 0) in M.
      rewrite (lbind_ok _ _ _ _ _ (st_ok m d 0 (mapped_head _ _ _ M))). rewrite N.eqb_refl.
      eexists. split; [reflexivity|]. intros a. cbn [app]. now rewrite put_cons, put_nil.
    + change (nlen (@nil N)) with 0 in L. subst n. change (N.to_nat 0) with O. cbn [strncat_loop app].
      change (nlen (@nil N) + 1) with (1 + 0) in M.
      rewrite (st_ok m d 0 (mapped_head _ _ _ M)).
      eexists. split; [reflexivity|]. intros a. now rewrite put_cons, put_nil.
  - destruct (cstr_n_cons _ _ _ _ _ H) as (A & NZ & N1 & H'). rewrite nlen_cons in *.
    replace (N.to_nat n) with (S (N.to_nat (n - 1))) by lia. cbn [strncat_loop app].
    rewrite (lbind_ok _ _ _ _ _ (ld_ok _ _ _ A)).
    rewrite <- N.add_assoc in M.
    rewrite (lbind_ok _ _ _ _ _ (st_ok m d b (mapped_head _ _ _ M))).
    apply N.eqb_neq in NZ. rewrite NZ.
    destruct (IH (mset m d b) (d + 1) (p + 1) (n - 1)) as (m' & R & E).
    + assert (LE : nlen s <= n - 1) by (destruct H' as [[_ L]|(_ & _ & L)]; lia).
      destruct H' as [[H' L]|(H' & NI & L)].
      * left. split; [|exact L]. apply (cstr_ext m); [|exact H']. intros a X. apply mset_other. lia.
      * right. repeat split; auto. apply bytes_at_mset; [lia|exact H'].
    + apply mapped_step. exact M.
    + lia.
    + exists m'. split; [exact R|]. intros a. rewrite E. symmetry. apply put_cons.
Qed.
Lemma strncat_ok m d p s t n f : cstr m d s -> cstr_n m p n t -> mapped m d (nlen s + nlen t + 1) ->
  disjoint d (nlen s + nlen t + 1) p n -> (length s < f)%nat ->
  exists m', strncat f d p n m = LOk d m' /\ forall a, m' a = put m (d + nlen s) (t ++ [0]) a.
Proof.
  intros H1 H2 M D F1. unfold disjoint in D. unfold strncat.
  rewrite (lbind_ok _ _ _ _ _ (to_end_ok m s d f H1 F1)).
  destruct (strncat_loop_ok t m (d + nlen s) p n H2) as (m' & R & E); [|lia|].
  - rewrite <- N.add_assoc in M. now apply mapped_shift in M.
  - exists m'. rewrite (lbind_ok _ _ _ _ _ R). split; [reflexivity|exact E].
Qed.
Lemma strncpy_loop_ok : forall s m d p n, cstr_n m p n s -> mapped m d n ->
  d <= p \/ p + n <= d ->
  exists m', strncpy_loop (N.to_nat n) d p m = LOk tt m' /\
    forall a, m' a = put m d (s ++ nrepeat 0 (n - nlen s)) a.
Proof.
  induction s as [|b s IH]; intros m d p n H M D.
  - change (nlen (@nil N)) with 0 in *. rewrite N.sub_0_r. cbn [app].
    destruct H as [[H L]|(_ & _ & L)]; change (nlen (@nil N)) with 0 in L.
    + unfold nrepeat. replace (N.to_nat n) with (S (N.to_nat (n - 1))) by lia.
      cbn [strncpy_loop repeat]. apply cstr_nil in H. rewrite (lbind_ok _ _ _ _ _ (ld_ok _ _ _ H)).
      replace n with (1 + (n - 1)) in M by lia.
      rewrite (lbind_ok _ _ _ _ _ (st_ok m d 0 (mapped_head _ _ _ M))). rewrite N.eqb_refl.
      destruct (fill_loop_ok 0 (N.to_nat (n - 1)) (mset m d 0) (d + 1)) as (m' & R & E).
      { rewrite Nnat.N2Nat.id. now apply mapped_step. }
      exists m'. split; [exact R|]. intros a. rewrite E. symmetry. apply put_cons.
    + subst n. exists m. split; [reflexivity|]. intros a. symmetry. apply put_nil.
  - destruct (cstr_n_cons _ _ _ _ _ H) as (A & NZ & N1 & H'). rewrite nlen_cons in *.
    replace (N.to_nat n) with (S (N.to_nat (n - 1))) by lia. cbn [strncpy_loop app].
    rewrite (lbind_ok _ _ _ _ _ (ld_ok _ _ _ A)).
    replace n with (1 + (n - 1)) in M by lia.
    rewrite (lbind_ok _ _ _ _ _ (st_ok m d b (mapped_head _ _ _ M))).
    apply N.eqb_neq in NZ. rewrite NZ.
    destruct (IH (mset m d b) (d + 1) (p + 1) (n - 1)) as (m' & R & E).
    + assert (LE : nlen s <= n - 1) by (destruct H' as [[_ L]|(_ & _ & L)]; lia).
      destruct H' as [[H' L]|(H' & NI & L)].
      * left. split; [|exact L]. apply (cstr_ext m); [|exact H']. intros a X. apply mset_other. lia.
      * right. repeat split; auto. apply bytes_at_mset; [lia|exact H'].
    + now apply mapped_step.
    + lia.
    + exists m'. split; [exact R|]. intros a. rewrite E.
      replace (n - (1 + nlen s)) with (n - 1 - nlen s) by lia. symmetry. apply put_cons.
Qed.
Lemma strncpy_ok m d p s n : cstr_n m p n s -> mapped m d n -> disjoint d n p n ->
  exists m', strncpy d p n m = LOk d m' /\ forall a, m' a = put m d (s ++ nrepeat 0 (n - nlen s)) a.
Proof.
  intros H M D. unfold disjoint in D.
  destruct (strncpy_loop_ok s m d p n H M ltac:(lia)) as (m' & R & E).
  exists m'. unfold strncpy. rewrite (lbind_ok _ _ _ _ _ R). split; [reflexivity|exact E].
Qed.

Lemma strcmp_ok m : forall s t p q f, cstr m p s -> cstr m q t -> (length s < f)%nat ->
  exists r, strcmp f p q m = LOk r m /\ cmp_result r s t.
Proof.
  induction s as [|a s IH]; intros t p q f H1 H2 F; destruct f as [|f]; try (cbn [length] in F; lia);
    cbn [strcmp].
  - apply cstr_nil in H1. rewrite (lbind_ok _ _ _ _ _ (ld_ok _ _ _ H1)). rewrite N.eqb_refl.
    destruct t as [|b t].
    + apply cstr_nil in H2. rewrite (lbind_ok _ _ _ _ _ (ld_ok _ _ _ H2)).
      eexists. split; [reflexivity|]. apply cmp_result_refl.
    + apply cstr_cons in H2 as (A & NZ & _). rewrite (lbind_ok _ _ _ _ _ (ld_ok _ _ _ A)).
      eexists. split; [reflexivity|]. repeat split; intros X; try (lia || discriminate); try constructor.
      inversion X.
  - apply cstr_cons in H1 as (A & NZ & H1). rewrite (lbind_ok _ _ _ _ _ (ld_ok _ _ _ A)).
    cbn [length] in F. destruct (N.eqb_spec a 0) as [Z|_]; [contradiction|].
    destruct t as [|b t].
    + apply cstr_nil in H2. rewrite (lbind_ok _ _ _ _ _ (ld_ok _ _ _ H2)).
      destruct (N.eqb_spec a 0) as [Z|_]; [contradiction|].
      eexists. split; [reflexivity|]. repeat split; intros X; try (lia || discriminate); try constructor.
      inversion X.
    + apply cstr_cons in H2 as (B & NZ2 & H2). rewrite (lbind_ok _ _ _ _ _ (ld_ok _ _ _ B)).
      destruct (N.eqb_spec a b) as [->|NE].
      * destruct (IH t (p + 1) (q + 1) f H1 H2 ltac:(lia)) as (r & R & C). exists r. split; [exact R|].
        now apply cmp_result_cons.
      * eexists. split; [reflexivity|]. now apply cmp_result_head.
Qed.

(** MEMCMP stops at the first difference. *)
Lemma memcmp_diff m : forall x p q k a b, bytes_at m p (x ++ [a]) -> bytes_at m q (x ++ [b]) -> a <> b ->
  (length x < k)%nat -> memcmp_loop k p q m = LOk (Z.of_N a - Z.of_N b)%Z m.
Proof.
  induction x as [|c x IH]; intros p q k a b H1 H2 NE L; destruct k as [|k]; try (cbn [length] in L; lia);
    cbn [app bytes_at memcmp_loop] in *.
  - destruct H1 as [A _], H2 as [B _].
    rewrite (lbind_ok _ _ _ _ _ (ld_ok _ _ _ A)), (lbind_ok _ _ _ _ _ (ld_ok _ _ _ B)).
    apply N.eqb_neq in NE. now rewrite NE.
  - destruct H1 as [A H1], H2 as [B H2]. cbn [length] in L.
    rewrite (lbind_ok _ _ _ _ _ (ld_ok _ _ _ A)), (lbind_ok _ _ _ _ _ (ld_ok _ _ _ B)).
    rewrite N.eqb_refl. cbn [negb]. apply IH; auto. lia.
Qed.
(** Two lists: one is a prefix of the other or there is a first difference. *)
Lemma first_difference : forall s t : list N,
  (exists y, s = t ++ y) \/ (exists b y, t = s ++ b :: y) \/
  (exists x a b y z, s = x ++ a :: y /\ t = x ++ b :: z /\ a <> b).
Proof.
  induction s as [|a s IH]; intros t.
  - destruct t as [|b t]; [left; now exists []|right; left; now exists b, t].
  - destruct t as [|b t]; [left; now exists (a :: s)|].
    destruct (N.eq_dec a b) as [->|NE].
    + destruct (IH t) as [(y & ->)|[(c & y & ->)|(x & c & d & y & z & -> & -> & NE)]].
      * left. now exists y.
      * right. left. now exists c, y.
      * right. right. exists (b :: x), c, d, y, z. auto.
    + right. right. exists [], a, b, s, t. auto.
Qed.

(** ** Character searches *)
Lemma first_at_cons f p b l r : f b = false -> first_at f (p + 1) l r -> first_at f p (b :: l) r.
Proof.
  intros E. destruct r as [a|]; cbn [first_at].
  - intros (x & y & c & -> & -> & F1 & F2). exists (b :: x), y, c. rewrite nlen_cons.
    repeat split; [lia|exact F1|]. cbn [forallb]. now rewrite E.
  - intros H. cbn [forallb]. now rewrite E.
Qed.
Lemma first_at_here (f : N -> bool) p b l : f b = true -> first_at f p (b :: l) (Some p).
Proof. intros E. exists [], l, b. change (nlen (@nil N)) with 0. repeat split; [lia|exact E]. Qed.
Lemma strchr_ok m c : forall s p f, cstr m p s -> (length s < f)%nat ->
  exists r, strchr f p c m = LOk r m /\ first_at (fun b => b =? c mod 256) p (s ++ [0]) r.
Proof.
  unfold strchr.
  induction s as [|a s IH]; intros p f H F; destruct f as [|f]; try (cbn [length] in F; lia);
    cbn [strchr_loop app].
  - apply cstr_nil in H. rewrite (lbind_ok _ _ _ _ _ (ld_ok _ _ _ H)).
    destruct (0 =? c mod 256) eqn:E; cbn [negb].
    + exists (Some p). split; [reflexivity|]. now apply first_at_here.
    + rewrite N.eqb_refl. exists None. split; [reflexivity|]. cbn [first_at forallb]. now rewrite E.
  - apply cstr_cons in H as (A & NZ & H). rewrite (lbind_ok _ _ _ _ _ (ld_ok _ _ _ A)). cbn [length] in F.
    destruct (a =? c mod 256) eqn:E; cbn [negb].
    + exists (Some p). split; [reflexivity|]. now apply first_at_here.
    + apply N.eqb_neq in NZ. rewrite NZ. destruct (IH (p + 1) f H ltac:(lia)) as (r & R & FA).
      exists r. split; [exact R|]. now apply first_at_cons.
Qed.
Lemma last_at_skip f p b l r : l = [] \/ True -> forall a, r = Some a -> last_at f (p + 1) l (Some a) -> last_at f p (b :: l) (Some a).
Proof.
  intros _ a -> (x & y & c & -> & -> & F1 & F2). exists (b :: x), y, c. rewrite nlen_cons.
  repeat split; [lia|exact F1|exact F2].
Qed.
Lemma strrchr_loop_ok m c : forall s p f r0, cstr m p s -> (length s < f)%nat ->
  exists r, strrchr_loop f p c r0 m = LOk r m /\
    (exists a, r = Some a /\ last_at (fun b => b =? c mod 256) p (s ++ [0]) r \/
     r = r0 /\ last_at (fun b => b =? c mod 256) p (s ++ [0]) None).
Proof.
  induction s as [|a s IH]; intros p f r0 H F; destruct f as [|f]; try (cbn [length] in F; lia);
    cbn [strrchr_loop app].
  - apply cstr_nil in H. rewrite (lbind_ok _ _ _ _ _ (ld_ok _ _ _ H)). cbv zeta. rewrite N.eqb_refl.
    destruct (0 =? c mod 256) eqn:E.
    + exists (Some p). split; [reflexivity|]. exists p. left. split; [reflexivity|].
      exists [], [], 0. change (nlen (@nil N)) with 0. repeat split; [lia|exact E].
    + exists r0. split; [reflexivity|]. exists 0. right. split; [reflexivity|]. cbn [last_at forallb]. now rewrite E.
  - apply cstr_cons in H as (A & NZ & H). rewrite (lbind_ok _ _ _ _ _ (ld_ok _ _ _ A)). cbn [length] in F.
    cbv zeta. apply N.eqb_neq in NZ. rewrite NZ.
    destruct (a =? c mod 256) eqn:E.
    + destruct (IH (p + 1) f (Some p) H ltac:(lia)) as (r & R & a' & [(-> & L)|(-> & L)]).
      * exists (Some a'). split; [exact R|]. exists a'. left. split; [reflexivity|].
        apply (last_at_skip _ _ _ _ (Some a')); auto.
      * exists (Some p). split; [exact R|]. exists p. left. split; [reflexivity|].
        exists [], (s ++ [0]), a. change (nlen (@nil N)) with 0. repeat split; [lia|exact E|exact L].
    + destruct (IH (p + 1) f r0 H ltac:(lia)) as (r & R & a' & [(-> & L)|(-> & L)]).
      * exists (Some a'). split; [exact R|]. exists a'. left. split; [reflexivity|].
        apply (last_at_skip _ _ _ _ (Some a')); auto.
      * exists r0. split; [exact R|]. exists 0. right. split; [reflexivity|].
        cbn [last_at forallb] in *. now rewrite E.
Qed.
Lemma strrchr_ok m c s p f : cstr m p s -> (length s < f)%nat ->
  exists r, strrchr f p c m = LOk r m /\ last_at (fun b => b =? c mod 256) p (s ++ [0]) r.
Proof.
  intros H F. destruct (strrchr_loop_ok m c s p f None H F) as (r & R & a & [(E & L)|(E & L)]).
  - exists r. auto.
  - exists r. split; [exact R|]. now subst.
Qed.

(** Membership through STRCHR. *)
Lemma strchr_among m t q f b : cstr m q t -> (length t < f)%nat -> b <> 0 -> b < 256 ->
  exists r, strchr f q b m = LOk r m /\ (match r with Some _ => true | None => false end) = among t b.
Proof.
  intros H F NZ LT. destruct (strchr_ok m b t q f H F) as (r & R & FA). exists r. split; [exact R|].
  rewrite N.mod_small in FA by exact LT. unfold among. destruct r as [a|]; cbn [first_at] in FA.
  - destruct FA as (x & y & c & E & _ & F1 & _). symmetry. apply N.eqb_eq in F1. subst c.
    assert (I : In b (t ++ [0])) by (rewrite E; apply in_elt).
    apply in_app_iff in I as [I|[I|[]]]; [|congruence].
    apply existsb_exists. exists b. split; [exact I|apply N.eqb_refl].
  - symmetry. apply not_true_iff_false. intros X. apply existsb_exists in X as (c & I & E).
    apply N.eqb_eq in E. subst c. rewrite forallb_forall in FA.
    specialize (FA b ltac:(apply in_app_iff; auto)). rewrite N.eqb_refl in FA. discriminate.
Qed.
Lemma span_cons (f : N -> bool) b s n : f b = true -> span f s n -> span f (b :: s) (1 + n).
Proof.
  intros E (x & y & -> & L & F1 & F2). exists (b :: x), y. rewrite nlen_cons, L. repeat split; auto.
  cbn [forallb]. now rewrite E.
Qed.
Lemma span_stop (f : N -> bool) b s : f b = false -> span f (b :: s) 0.
Proof. intros E. exists [], (b :: s). repeat split; auto. Qed.
Lemma span_nil (f : N -> bool) : span f [] 0.
Proof. exists [], []. repeat split; auto. Qed.
Lemma strcspn_loop_ok m t q f2 : cstr m q t -> (length t < f2)%nat ->
  forall s p f r, cstr m p s -> Forall (fun b => b < 256) s -> (length s < f)%nat -> r + nlen s < W64 ->
  exists n, strcspn_loop f f2 p q r m = LOk (r + n) m /\ span (fun b => negb (among t b)) s n.
Proof.
  intros HT FT. induction s as [|a s IH]; intros p f r H B F W; destruct f as [|f]; try (cbn [length] in F; lia);
    cbn [strcspn_loop].
  - apply cstr_nil in H. rewrite (lbind_ok _ _ _ _ _ (ld_ok _ _ _ H)). rewrite N.eqb_refl.
    exists 0. rewrite N.add_0_r. split; [reflexivity|apply span_nil].
  - apply cstr_cons in H as (A & NZ & H). rewrite (lbind_ok _ _ _ _ _ (ld_ok _ _ _ A)).
    inversion_clear B as [|? ? B1 B2]. cbn [length] in F. rewrite nlen_cons in W.
    destruct (N.eqb_spec a 0) as [Z|_]; [contradiction|].
    destruct (strchr_among m t q f2 a HT FT NZ B1) as (q' & R & E).
    rewrite (lbind_ok _ _ _ _ _ R). destruct q' as [a'|].
    + exists 0. rewrite N.add_0_r. split; [reflexivity|]. apply span_stop. now rewrite <- E.
    + destruct (IH (p + 1) f (wadd r 1) H B2 ltac:(lia)) as (n & R' & S).
      { rewrite wadd_small by lia. lia. }
      exists (1 + n). rewrite R'. rewrite wadd_small by lia. split; [f_equal; lia|].
      apply span_cons; [now rewrite <- E|exact S].
Qed.
Lemma strspn_loop_ok m t q f2 : cstr m q t -> (length t < f2)%nat ->
  forall s p f r, cstr m p s -> Forall (fun b => b < 256) s -> (length s < f)%nat -> r + nlen s < W64 ->
  exists n, strspn_loop f f2 p q r m = LOk (r + n) m /\ span (among t) s n.
Proof.
  intros HT FT. induction s as [|a s IH]; intros p f r H B F W; destruct f as [|f]; try (cbn [length] in F; lia);
    cbn [strspn_loop].
  - apply cstr_nil in H. rewrite (lbind_ok _ _ _ _ _ (ld_ok _ _ _ H)). rewrite N.eqb_refl.
    exists 0. rewrite N.add_0_r. split; [reflexivity|apply span_nil].
  - apply cstr_cons in H as (A & NZ & H). rewrite (lbind_ok _ _ _ _ _ (ld_ok _ _ _ A)).
    inversion_clear B as [|? ? B1 B2]. cbn [length] in F. rewrite nlen_cons in W.
    destruct (N.eqb_spec a 0) as [Z|_]; [contradiction|].
    destruct (strchr_among m t q f2 a HT FT NZ B1) as (q' & R & E).
    rewrite (lbind_ok _ _ _ _ _ R). destruct q' as [a'|].
    + destruct (IH (p + 1) f (wadd r 1) H B2 ltac:(lia)) as (n & R' & S).
      { rewrite wadd_small by lia. lia. }
      exists (1 + n). rewrite R'. rewrite wadd_small by lia. split; [f_equal; lia|].
      apply span_cons; [now rewrite <- E|exact S].
    + exists 0. rewrite N.add_0_r. split; [reflexivity|]. now apply span_stop.
Qed.
Lemma strcspn_ok m s t p q f : cstr m p s -> cstr m q t -> Forall (fun b => b < 256) s ->
  (length s < f)%nat -> (length t < f)%nat -> nlen s < W64 ->
  exists n, strcspn f p q m = LOk n m /\ span (fun b => negb (among t b)) s n.
Proof.
  intros H HT B F1 F2 W. exact (strcspn_loop_ok m t q f HT F2 s p f 0 H B F1 W).
Qed.
Lemma strspn_ok m s t p q f : cstr m p s -> cstr m q t -> Forall (fun b => b < 256) s ->
  (length s < f)%nat -> (length t < f)%nat -> nlen s < W64 ->
  exists n, strspn f p q m = LOk n m /\ span (among t) s n.
Proof.
  intros H HT B F1 F2 W. exact (strspn_loop_ok m t q f HT F2 s p f 0 H B F1 W).
Qed.
Lemma strpbrk_loop_ok m t q f2 : cstr m q t -> (length t < f2)%nat ->
  forall s p f, cstr m p s -> Forall (fun b => b < 256) s -> (length s < f)%nat ->
  exists r, strpbrk_loop f f2 p q m = LOk r m /\ first_at (among t) p s r.
Proof.
  intros HT FT. induction s as [|a s IH]; intros p f H B F; destruct f as [|f]; try (cbn [length] in F; lia);
    cbn [strpbrk_loop].
  - apply cstr_nil in H. rewrite (lbind_ok _ _ _ _ _ (ld_ok _ _ _ H)). rewrite N.eqb_refl.
    exists None. split; reflexivity.
  - apply cstr_cons in H as (A & NZ & H). rewrite (lbind_ok _ _ _ _ _ (ld_ok _ _ _ A)).
    inversion_clear B as [|? ? B1 B2]. cbn [length] in F.
    destruct (N.eqb_spec a 0) as [Z|_]; [contradiction|].
    destruct (strchr_among m t q f2 a HT FT NZ B1) as (q' & R & E).
    rewrite (lbind_ok _ _ _ _ _ R). destruct q' as [a'|].
    + exists (Some p). split; [reflexivity|]. now apply first_at_here.
    + destruct (IH (p + 1) f H B2 ltac:(lia)) as (r & R' & FA).
      exists r. split; [exact R'|]. now apply first_at_cons.
Qed.

(** ** STRSTR *)
Lemma memcmp_prefix m s t y p q : s = t ++ y -> cstr m p s -> cstr m q t ->
  memcmp p q (nlen t) m = LOk 0%Z m.
Proof.
  intros -> [A1 _] [A2 _]. rewrite <- app_assoc in A1. apply bytes_at_app in A1 as [A1 _]. apply bytes_at_app in A2 as [A2 _].
  destruct (memcmp_ok m p q (nlen t) t t eq_refl eq_refl A1 A2) as (r & R & C & _).
  rewrite R. f_equal. now apply C.
Qed.
Lemma memcmp_not_prefix m s t p q : (forall y, s <> t ++ y) -> cstr m p s -> cstr m q t ->
  exists r, memcmp p q (nlen t) m = LOk r m /\ r <> 0%Z.
Proof.
  intros NP [A1 N1] [A2 N2]. unfold memcmp. rewrite nlen_to_nat.
  destruct (first_difference s t) as [(y & E)|[(b & y & E)|(x & a & b & y & z & E1 & E2 & NE)]].
  - now destruct (NP y).
  - assert (b <> 0) by (intros ->; apply N2; rewrite E; apply in_elt).
    rewrite (memcmp_diff m s p q (length t) 0 b).
    + eexists. split; [reflexivity|lia].
    + exact A1.
    + rewrite E in A2. rewrite <- app_assoc in A2. cbn [app] in A2. apply bytes_at_app in A2 as [X Y].
      apply bytes_at_app. split; [exact X|]. destruct Y as [Y _]. now split.
    + auto.
    + rewrite E, app_length. cbn [length]. lia.
  - rewrite (memcmp_diff m x p q (length t) a b).
    + eexists. split; [reflexivity|lia].
    + rewrite E1 in A1. rewrite <- app_assoc in A1. cbn [app] in A1. apply bytes_at_app in A1 as [X Y].
      apply bytes_at_app. split; [exact X|]. destruct Y as [Y _]. now split.
    + rewrite E2 in A2. rewrite <- app_assoc in A2. cbn [app] in A2. apply bytes_at_app in A2 as [X Y].
      apply bytes_at_app. split; [exact X|]. destruct Y as [Y _]. now split.
    + exact NE.
    + rewrite E2, app_length. cbn [length]. lia.
Qed.
Lemma prefix_dec (s t : list N) : (exists y, s = t ++ y) \/ (forall y, s <> t ++ y).
Proof.
  destruct (first_difference s t) as [H|[(b & y & ->)|(x & a & b & y & z & -> & -> & NE)]]; [now left|right|right].
  - intros w E. apply (f_equal (@length N)) in E. rewrite !app_length in E. cbn [length] in E. lia.
  - intros w E. rewrite <- app_assoc in E. cbn [app] in E. apply app_inv_head in E. congruence.
Qed.
Lemma strstr_loop_ok m t q : cstr m q t ->
  forall s p f, cstr m p s -> (length s < f)%nat ->
  exists r, strstr_loop f p q (nlen t) m = LOk r m /\
    match r with
    | Some a => first_occ p s t (Some a)
    | None => forall x y, s = x ++ t ++ y -> t = [] /\ x = s
    end.
Proof.
  intros HT. induction s as [|b s IH]; intros p f H F; destruct f as [|f]; try (cbn [length] in F; lia);
    cbn [strstr_loop].
  - apply cstr_nil in H. rewrite (lbind_ok _ _ _ _ _ (ld_ok _ _ _ H)). rewrite N.eqb_refl.
    exists None. split; [reflexivity|]. intros x y E. destruct x; [|discriminate]. destruct t; [auto|discriminate].
  - pose proof H as HS. apply cstr_cons in H as (A & NZ & H).
    rewrite (lbind_ok _ _ _ _ _ (ld_ok _ _ _ A)). cbn [length] in F.
    destruct (N.eqb_spec b 0) as [Z|_]; [contradiction|].
    destruct (prefix_dec (b :: s) t) as [(y & E)|NP].
    + rewrite (lbind_ok _ _ _ _ _ (memcmp_prefix m (b :: s) t y p q E HS HT)).
      exists (Some p). split; [reflexivity|]. split.
      * exists [], y. split; [exact E|]. change (nlen (@nil N)) with 0. lia.
      * intros x z _. lia.
    + destruct (memcmp_not_prefix m (b :: s) t p q NP HS HT) as (r & R & NR).
      rewrite (lbind_ok _ _ _ _ _ R). destruct (Z.eqb_spec r 0) as [Z|_]; [contradiction|].
      destruct (IH (p + 1) f H ltac:(lia)) as ([a|] & R' & O).
      * exists (Some a). split; [exact R'|]. destruct O as [(x & y & E & EA) MIN]. split.
        -- exists (b :: x), y. rewrite nlen_cons. split; [cbn [app]; now rewrite E|lia].
        -- intros x' y' E'. destruct x' as [|c x']; [now destruct (NP y')|].
           injection E' as -> E'. specialize (MIN x' y' E'). rewrite nlen_cons. lia.
      * exists None. split; [exact R'|]. intros x' y' E'. destruct x' as [|c x']; [now destruct (NP y')|].
        injection E' as -> E'. destruct (O x' y' E') as [-> <-]. auto.
Qed.
Lemma strstr_ok m s t p q f : cstr m p s -> cstr m q t -> (length s < f)%nat -> (length t < f)%nat ->
  s <> [] \/ t <> [] ->
  exists r, strstr f p q m = LOk r m /\ first_occ p s t r.
Proof.
  intros H HT F1 F2 NE. unfold strstr.
  rewrite (lbind_ok _ _ _ _ _ (strlen_ok m q t f HT F2)).
  destruct (strstr_loop_ok m t q HT s p f H F1) as ([a|] & R & O); exists (Some a) || exists None; split; auto.
  intros x y E. destruct (O x y E) as [-> EX]. destruct NE as [NE|NE]; [|congruence].
  (* an empty needle is found at once *)
  clear O. destruct s as [|b s]; [congruence|]. destruct f as [|f]; [cbn [length] in F1; lia|].
  cbn [strstr_loop] in R. pose proof H as H'. apply cstr_cons in H as (A & NZ & _).
  rewrite (lbind_ok _ _ _ _ _ (ld_ok _ _ _ A)) in R.
  destruct (N.eqb_spec b 0) as [Z|_]; [contradiction|].
  rewrite (lbind_ok _ _ _ _ _ (memcmp_prefix m (b :: s) [] (b :: s) p q eq_refl H' HT)) in R. discriminate.
Qed.

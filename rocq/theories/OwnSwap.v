(** Exchanging two elements of a list, for elements of any type. *)
From Coq Require Import Permutation.
From Verif Require Import Base NListFacts Status Mem VectorSpec.
From Coq Require Import ZifyBool ZifyNat ZifyN.

Section Swap.
  Context {A : Type}.
  Definition gset (i : N) (x : A) (l : list A) : list A := nfirst i l ++ [x] ++ nskip (i + 1) l.
  Definition gswap (i j : N) (l : list A) : list A :=
    match nnth i l, nnth j l with Some x, Some y => gset j x (gset i y l) | _, _ => l end.
  Lemma nnth_here (a : list A) x c : nnth (nlen a) (a ++ x :: c) = Some x.
  Proof. unfold nnth, nlen. rewrite Nat2N.id, nth_error_app2 by lia. now rewrite Nat.sub_diag. Qed.
  Lemma gset_here (a : list A) x y c : gset (nlen a) y (a ++ x :: c) = a ++ y :: c.
  Proof.
    unfold gset. rewrite nfirst_app_l by reflexivity. change (a ++ x :: c) with (a ++ [x] ++ c). rewrite (app_assoc a [x] c), nskip_app_l; [reflexivity|].
    now rewrite nlen_app.
  Qed.
  Lemma gswap_lt (a b c : list A) x y i j : i = nlen a -> j = nlen (a ++ x :: b) ->
    gswap i j (a ++ x :: b ++ y :: c) = a ++ y :: b ++ x :: c /\ gswap j i (a ++ x :: b ++ y :: c) = a ++ y :: b ++ x :: c.
  Proof.
    intros -> ->. assert (E : forall p q, a ++ p :: b ++ q :: c = (a ++ p :: b) ++ q :: c) by (intros; now rewrite <- app_assoc).
    assert (L : forall p q, nlen (a ++ p :: b) = nlen (a ++ q :: b)) by (intros; unfold nlen; now rewrite !app_length).
    assert (N1 : nnth (nlen a) (a ++ x :: b ++ y :: c) = Some x) by apply nnth_here.
    assert (N2 : nnth (nlen (a ++ x :: b)) (a ++ x :: b ++ y :: c) = Some y) by (rewrite E; apply nnth_here).
    unfold gswap. rewrite N1, N2. split.
    - rewrite gset_here, E, (L x y), gset_here. now rewrite <- E.
    - rewrite (E x y), gset_here, <- E, gset_here. reflexivity.
  Qed.
  Lemma split_two (l : list A) i j : i < j -> j < nlen l -> exists a x b y c, l = a ++ x :: b ++ y :: c /\ i = nlen a /\ j = nlen (a ++ x :: b).
  Proof.
    intros IJ J. destruct (nnth j l) as [y|] eqn:EJ.
    2: { unfold nnth in EJ. apply nth_error_None in EJ. unfold nlen in J. lia. }
    apply nnth_some in EJ as (u & c & -> & LU). destruct (nnth i u) as [x|] eqn:EI.
    2: { unfold nnth in EI. apply nth_error_None in EI. unfold nlen in *. lia. }
    apply nnth_some in EI as (a & b & -> & LA). exists a, x, b, y, c. split; [now rewrite <- app_assoc|]. now split.
  Qed.
  Lemma gswap_perm (l : list A) i j : i < nlen l -> j < nlen l -> i <> j -> Permutation l (gswap i j l).
  Proof.
    intros I J NE. assert (X : forall (a b c : list A) x y, Permutation (a ++ x :: b ++ y :: c) (a ++ y :: b ++ x :: c)).
    { intros. apply Permutation_app_head. rewrite <- !Permutation_middle. apply perm_swap. }
    destruct (N.lt_ge_cases i j) as [L|L].
    - destruct (split_two l i j L J) as (a & x & b & y & c & -> & LA & LB). destruct (gswap_lt a b c x y i j LA LB) as [-> _]. apply X.
    - destruct (split_two l j i ltac:(lia) I) as (a & x & b & y & c & -> & LA & LB). destruct (gswap_lt a b c x y j i LA LB) as [_ ->]. apply X.
  Qed.
End Swap.
Lemma gswap_map {A B} (f : A -> B) i j (l : list A) : map f (gswap i j l) = gswap i j (map f l).
Proof.
  assert (S : forall k x (m : list A), map f (gset k x m) = gset k (f x) (map f m)).
  { intros k x m. unfold gset, nfirst, nskip. now rewrite !map_app, firstn_map, skipn_map. }
  assert (T : forall k, nnth k (map f l) = option_map f (nnth k l)) by (intros k; unfold nnth; apply nth_error_map).
  unfold gswap. rewrite !T. destruct (nnth i l), (nnth j l); cbn [option_map]; try reflexivity. now rewrite !S.
Qed.
Lemma gswap_lswap {C} i j (l : list (list C)) : lswap i j l = gswap i j l.
Proof. reflexivity. Qed.

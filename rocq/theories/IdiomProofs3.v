(** A reference count. *)
From Coq Require Import ZifyBool ZifyNat ZifyN.
From Verif Require Import Base NListFacts BitFacts AtomicModel AtomicSpec AtomicProofs IdiomSpec.

Lemma owns_app : forall a b h, owns_enough h (a ++ b) -> owns_enough (left_over h a) b.
Proof. induction a as [|[x v| |] a IH]; intros b h H; cbn [app owns_enough left_over] in *; [exact H|contradiction|apply IH, H|apply IH, H]. Qed.
Lemma left_over_snoc : forall a h c, left_over h (a ++ [c]) = left_over (left_over h a) [c].
Proof. induction a as [|[x v| |] a IH]; intros h c; cbn [app left_over]; [reflexivity|apply IH..]. Qed.
Lemma left_over_le : forall a h, left_over h a <= h + copies a.
Proof.
  induction a as [|[x v| |] a IH]; intros h; cbn [left_over]; unfold copies in *; cbn [filter]; [lia|apply IH| |].
  - rewrite nlen_cons. specialize (IH (h + 1)). lia.
  - specialize (IH (h - 1)). lia.
Qed.
Lemma copies_app a b : copies (a ++ b) = copies a + copies b.
Proof. unfold copies. now rewrite filter_app, nlen_app. Qed.
Lemma destroys_snoc l c r : destroys (l ++ [(c, r)]) = destroys l + match c, r with Decrement, 0 => 1 | _, _ => 0 end.
Proof. unfold destroys. rewrite filter_app, nlen_app. cbn [filter]. destruct c; [reflexivity|reflexivity|now destruct r]. Qed.
Lemma sum_ext f g : forall n, (forall i, i < N.of_nat n -> f i = g i) -> sum_to n f = sum_to n g.
Proof. induction n as [|n IH]; intros H; cbn [sum_to]; [reflexivity|]. rewrite (H (N.of_nat n)), IH; [reflexivity|intros; apply H; lia|lia]. Qed.
Lemma sum_le f g : forall n, (forall i, i < N.of_nat n -> f i <= g i) -> sum_to n f <= sum_to n g.
Proof. induction n as [|n IH]; intros H; cbn [sum_to]; [lia|]. pose proof (H (N.of_nat n) ltac:(lia)). specialize (IH ltac:(intros; apply H; lia)). lia. Qed.
Lemma sum_add f g : forall n, sum_to n (fun i => f i + g i) = sum_to n f + sum_to n g.
Proof. induction n as [|n IH]; cbn [sum_to]; [reflexivity|]. rewrite IH. lia. Qed.
Lemma sum_upd f i x : forall n, i < N.of_nat n -> sum_to n (fun j => if j =? i then x else f j) + f i = sum_to n f + x.
Proof.
  induction n as [|n IH]; intros L; [lia|]. cbn [sum_to]. destruct (N.eqb_spec (N.of_nat n) i) as [E|NE].
  - rewrite E. rewrite (sum_ext _ f); [lia|]. intros j LJ. now replace (j =? i) with false by lia.
  - specialize (IH ltac:(lia)). lia.
Qed.
Lemma sum_ge f i : forall n, i < N.of_nat n -> f i <= sum_to n f.
Proof. induction n as [|n IH]; intros L; [lia|]. cbn [sum_to]. destruct (N.eq_dec i (N.of_nat n)) as [->|NE]; [lia|]. specialize (IH ltac:(lia)). lia. Qed.
Lemma sum_zero f n : sum_to n f = 0 -> forall i, i < N.of_nat n -> f i = 0.
Proof. intros E i L. pose proof (sum_ge f i n L). lia. Qed.
Lemma sum_none f : forall n, (forall i, i < N.of_nat n -> f i = 0) -> sum_to n f = 0.
Proof. induction n as [|n IH]; intros H; cbn [sum_to]; [reflexivity|]. rewrite (H (N.of_nat n)), IH; [reflexivity|intros; apply H; lia|lia]. Qed.

Section Count.
  Context (w : N) (n : nat) (h : N -> N) (programs : N -> list acall).
  Hypothesis (PN : forall i, N.of_nat n <= i -> programs i = []) (OE : forall i, owns_enough (h i) (programs i))
    (H1 : 1 <= sum_to n h) (FIT : sum_to n h + sum_to n (fun i => copies (programs i)) < 2 ^ w).
  Definition has (m : machine) (i : N) : N := left_over (h i) (map fst (made w (threads m i))).
  Definition told (m : machine) : N := sum_to n (fun i => destroys (made w (threads m i))).
  Record cinv (m : machine) : Prop := mkcinv {
    c_prog : forall i, programs i = map fst (made w (threads m i)) ++ todo (threads m i);
    c_cell : cell m = sum_to n (has m);
    c_told : told m = if cell m =? 0 then 1 else 0 }.
  Lemma has_room m : cinv m -> forall i c cs, todo (threads m i) = c :: cs -> c = Increment -> sum_to n (has m) + 1 < 2 ^ w.
  Proof.
    intros [CP _ _] i c cs T ->. eapply N.le_lt_trans; [|exact FIT].
    assert (LI : i < N.of_nat n). { destruct (N.ltb_spec i (N.of_nat n)) as [L|L]; [exact L|]. specialize (CP i). rewrite (PN i L), T in CP. destruct (map fst _); discriminate CP. }
    rewrite <- sum_add. pose proof (sum_upd (has m) i (has m i + 1) n LI) as SU.
    replace (sum_to n (has m) + 1) with (sum_to n (fun j => if j =? i then has m i + 1 else has m j)) by lia.
    apply sum_le. intros j _. unfold has. rewrite (CP j), copies_app. pose proof (left_over_le (map fst (made w (threads m j))) (h j)) as LO.
    destruct (N.eqb_spec j i) as [->|]; [|lia]. rewrite T. unfold copies at 2. cbn [filter]. rewrite nlen_cons. lia.
  Qed.
  Lemma cstep m i : cinv m -> cinv (mstep w m i).
  Proof.
    intros IV. pose proof IV as [CP CC CT]. unfold mstep, tstep. destruct (pending (threads m i)) as [[c x]|] eqn:P.
    - set (m' := mkmachine _ _). assert (E : forall j, made w (threads m' j) = made w (threads m j)).
      { intros j. unfold m'. cbn [threads]. destruct (N.eqb_spec j i) as [->|]; [|reflexivity]. unfold made. cbn [done pending]. rewrite P. now rewrite app_nil_r. }
      split.
      + intros j. rewrite E, (CP j). f_equal. unfold m'. cbn [threads]. now destruct (N.eqb_spec j i) as [->|].
      + change (cell m') with (cell m). rewrite CC. apply sum_ext. intros j _. unfold has. now rewrite E.
      + change (cell m') with (cell m). rewrite <- CT. apply sum_ext. intros j _. now rewrite E.
    - destruct (todo (threads m i)) as [|c cs] eqn:T.
      + set (m' := mkmachine _ _). assert (E : forall j, threads m' j = threads m j) by (intros j; unfold m'; cbn [threads]; now destruct (N.eqb_spec j i) as [->|]).
        split.
        * intros j. rewrite E. apply CP.
        * change (cell m') with (cell m). rewrite CC. apply sum_ext. intros j _. unfold has. now rewrite E.
        * change (cell m') with (cell m). rewrite <- CT. apply sum_ext. intros j _. now rewrite E.
      + assert (LI : i < N.of_nat n). { destruct (N.ltb_spec i (N.of_nat n)) as [L|L]; [exact L|]. specialize (CP i). rewrite (PN i L), T in CP. destruct (map fst _); discriminate CP. }
        pose proof (OE i) as OW. rewrite (CP i), T in OW. apply owns_app in OW. fold (has m i) in OW. pose proof (sum_ge (has m) i n LI) as GE.
        pose proof (has_room m IV i c cs T) as RM. pose proof (pow2_pos w) as P2.
        assert (SM : sum_to n (has m) < 2 ^ w).
        { eapply N.le_lt_trans; [|exact FIT]. rewrite <- sum_add. apply sum_le. intros j _. unfold has. rewrite (CP j), copies_app. pose proof (left_over_le (map fst (made w (threads m j))) (h j)). lia. }
        assert (B : exists x' r, builtin w c (cell m) = (x', r) /\ x' = sum_to n (has m) - has m i + left_over (has m i) [c] /\
          (match c, returned w c r with Decrement, 0 => 1 | _, _ => 0 end) = (if x' =? 0 then 1 else 0) /\ cell m <> 0).
        { rewrite CC. destruct c as [a v| |]; cbn [owns_enough] in OW; [contradiction| |]; destruct OW as [O1 _]; eexists _, _; split; try reflexivity; cbn [returned left_over].
          - specialize (RM eq_refl). rewrite N.mod_small by lia. split; [lia|]. split; [|lia]. now replace (_ =? 0) with false by lia.
          - replace (sum_to n (has m) + (2 ^ w - 1)) with (sum_to n (has m) - 1 + 1 * 2 ^ w) by lia. rewrite N.mod_add, N.mod_small by lia.
            split; [lia|]. split; [|lia]. now destruct (sum_to n (has m) - 1). }
        destruct B as (x' & r & B & EX & ED & NZ). rewrite B. set (m' := mkmachine _ _).
        assert (E : forall j, made w (threads m' j) = if j =? i then made w (threads m i) ++ [(c, returned w c r)] else made w (threads m j)).
        { intros j. unfold m'. cbn [threads]. destruct (N.eqb_spec j i) as [->|]; [|reflexivity]. unfold made. cbn [done pending]. rewrite P. now rewrite app_nil_r. }
        split.
        * intros j. rewrite E, (CP j). unfold m'. cbn [threads]. destruct (N.eqb_spec j i) as [->|]; [|reflexivity]. cbn [todo]. rewrite T, map_app. cbn [map fst]. now rewrite <- app_assoc.
        * change (cell m') with x'. rewrite EX. rewrite (sum_ext (has m') (fun j => if j =? i then left_over (has m i) [c] else has m j)).
          -- pose proof (sum_upd (has m) i (left_over (has m i) [c]) n LI). lia.
          -- intros j _. unfold has. rewrite E. destruct (N.eqb_spec j i) as [->|]; [|reflexivity]. rewrite map_app. cbn [map fst]. now rewrite left_over_snoc.
        * change (cell m') with x'. rewrite <- ED. unfold told. rewrite (sum_ext _ (fun j => if j =? i then destroys (made w (threads m i) ++ [(c, returned w c r)]) else destroys (made w (threads m j)))).
          2:{ intros j _. rewrite E. now destruct (N.eqb_spec j i) as [->|]. }
          pose proof (sum_upd (fun j => destroys (made w (threads m j))) i (destroys (made w (threads m i) ++ [(c, returned w c r)])) n LI) as SU. cbv beta in SU.
          rewrite destroys_snoc in *. fold (told m) in SU. rewrite CT in SU. destruct (N.eqb_spec (cell m) 0); [contradiction|]. lia.
  Qed.
  Lemma crun : forall s m, cinv m -> cinv (mrun w m s).
  Proof. induction s as [|i s IH]; intros m I; [exact I|]. cbn [mrun fold_left]. apply IH. now apply cstep. Qed.
  Theorem counted s : let m := mrun w (start (sum_to n h) programs) s in
    told m <= 1 /\ (told m = 1 <-> forall i, i < N.of_nat n -> has m i = 0) /\
    (told m = 1 -> forall i, todo (threads m i) = []) /\
    cell m = sum_to n (has m) /\ forall i, programs i = map fst (made w (threads m i)) ++ todo (threads m i).
  Proof.
    intros m. destruct (crun s (start (sum_to n h) programs)) as [CP CC CT].
    { split; cbn [start cell threads todo].
      - reflexivity.
      - apply sum_ext. reflexivity.
      - unfold told. replace (sum_to n h =? 0) with false by lia. apply sum_none. reflexivity. }
    fold m in CP, CC, CT.
    assert (Z : told m = 1 <-> forall i, i < N.of_nat n -> has m i = 0).
    { rewrite CT. destruct (N.eqb_spec (cell m) 0) as [E|NE]; split; intros X; try lia.
      - apply sum_zero. lia.
      - exfalso. apply NE. rewrite CC. now apply sum_none. }
    split; [rewrite CT; destruct (cell m =? 0); lia|]. split; [exact Z|]. split; [|auto].
    intros X i. destruct (todo (threads m i)) as [|c cs] eqn:T; [reflexivity|]. exfalso. rewrite Z in X.
    assert (LI : i < N.of_nat n). { destruct (N.ltb_spec i (N.of_nat n)) as [L|L]; [exact L|]. specialize (CP i). rewrite (PN i L), T in CP. destruct (map fst _); discriminate CP. }
    pose proof (OE i) as OW. rewrite (CP i), T in OW. apply owns_app in OW. fold (has m i) in OW. rewrite (X i LI) in OW. destruct c; cbn [owns_enough] in OW; lia.
  Qed.
End Count.

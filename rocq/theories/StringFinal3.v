(** What the case-insensitive functions and Compare do on all characters. *)
From Verif Require Import Base NListFacts Status Mem MemFacts VectorModel VectorDriver StringModel StringSpec StringDriver
  StringSearch StringFinal StringFinal2.
From Coq Require Import ZifyBool ZifyNat ZifyN.

Lemma decides_bit5 hay needle : decides eq_ci same_but_bit5 hay needle.
Proof. intros a b _ _. unfold eq_ci, same_but_bit5. rewrite orb_true_iff, !N.eqb_eq. reflexivity. Qed.
Lemma lpos_ex_bit5 w hv nv hay needle index count : views w hv hay -> views w nv needle -> ~ In 0 needle ->
  index + count < W64 ->
  exists st r, slpos_ex eq_ci hv nv index count w = Ok (st, r) w /\ lpos_result same_but_bit5 hay needle index count st r.
Proof. intros. apply lpos_ex_correct; auto. apply decides_bit5. Qed.
Lemma rpos_ex_bit5 w hv nv hay needle index count : views_part w hv hay -> views_part w nv needle ->
  exists st r, srpos_ex eq_ci hv nv index count w = Ok (st, r) w /\ rpos_result same_but_bit5 hay needle index count st r.
Proof. intros. apply rpos_ex_correct; auto. apply decides_bit5. Qed.
Lemma compare_bit5 w v1 v2 a b : views w v1 a -> views w v2 b ->
  exists st r, scompare eq_ci v1 v2 w = Ok (st, r) w /\
    ((Forall2 same_but_bit5 a b /\ st = ST_TRUE /\ r = 0%Z) \/
     (~ Forall2 same_but_bit5 a b /\ st = ST_FALSE /\ (r = 1 \/ r = -1)%Z)).
Proof. intros. apply compare_zero; auto; [apply decides_bit5|apply eq_ci_refl]. Qed.

(** Two one-character strings. *)
Lemma bit5_confused w u v c : c <> 0 -> c <> 32 -> views w u [c] -> views w v [N.lxor c 32] ->
  slpos eq_ci u v w = Ok (ST_TRUE, Some 0) w /\ srpos eq_ci u v w = Ok (ST_TRUE, Some 0) w /\
  scompare eq_ci u v w = Ok (ST_TRUE, 0%Z) w.
Proof.
  intros N0 N32 VU VV. assert (NZ : ~ In 0 [N.lxor c 32]).
  { intros [H|[]]. apply N32. apply N.lxor_eq. exact H. }
  assert (F : Forall2 same_but_bit5 [c] [N.lxor c 32]). { constructor; [now right|constructor]. }
  assert (O : occurs same_but_bit5 [c] [N.lxor c 32] 0). { split; [reflexivity|exact F]. }
  split; [|split].
  - destruct (lpos_correct eq_ci same_but_bit5 w u v _ _ (decides_bit5 _ _) VU VV NZ) as (st & r & -> & K).
    cbn in K. destruct K as [K1 K2]. destruct r as [i|].
    + cbn in K1. subst st. do 3 f_equal. destruct K2 as (_ & L & _). change (nlen [N.lxor c 32]) with 1 in L. change (nlen [c]) with 1 in L. lia.
    + exfalso. apply (K2 0); [lia|reflexivity|exact O].
  - destruct (rpos_correct eq_ci same_but_bit5 w u v _ _ (decides_bit5 _ _) (views_views_part _ _ _ VU) (views_views_part _ _ _ VV)) as (st & r & -> & K).
    cbn in K. destruct K as [K1 K2]. destruct r as [i|].
    + cbn in K1. subst st. do 3 f_equal. destruct K2 as (_ & L & _). change (nlen [N.lxor c 32]) with 1 in L. change (nlen [c]) with 1 in L. lia.
    + exfalso. apply (K2 0); [cbn; lia|reflexivity|exact O].
  - destruct (compare_bit5 w u v _ _ VU VV) as (st & r & -> & [(_ & -> & ->)|(X & _)]); [reflexivity|contradiction].
Qed.

(** Compare of strings whose first different characters differ in bit 5 only. *)
Lemma lor32_lxor x : N.lor (N.lxor x 32) 32 = N.lor x 32.
Proof.
  apply N.bits_inj. intros k. rewrite !N.lor_spec, N.lxor_spec.
  destruct (N.testbit x k), (N.testbit 32 k); reflexivity.
Qed.
Lemma lxor32_ne x : N.lxor x 32 <> x.
Proof. intros H. assert (K : N.lxor (N.lxor x 32) x = 0) by (rewrite H; apply N.lxor_nilpotent).
  rewrite (N.lxor_comm x 32), N.lxor_assoc, N.lxor_nilpotent in K. discriminate K. Qed.
Lemma bit5_greater w v1 v2 p x y s s' : x <> y -> N.lor x 32 = N.lor y 32 -> nlen s = nlen s' ->
  views w v1 (p ++ [x] ++ s) -> views w v2 (p ++ [y] ++ s') ->
  scompare eq_cs v1 v2 w = Ok (ST_FALSE, 1%Z) w.
Proof.
  intros NE EQ LS V1 V2. destruct (scompare_ok eq_cs w v1 v2 _ _ V1 V2 eq_cs_refl) as (st & r & -> & K).
  assert (LL : nlen (p ++ [x] ++ s) = nlen (p ++ [y] ++ s')) by (rewrite !nlen_app, LS; reflexivity).
  assert (NX : nnth (nlen p) (p ++ [x] ++ s) = Some x /\ nnth (nlen p) (p ++ [y] ++ s') = Some y).
  { split; rewrite nnth_app2 by lia; now rewrite N.sub_diag. }
  destruct NX as [NX NY].
  destruct K as [(L & _)|[(L & _)|[(F & _)|(_ & -> & x' & y' & (k & LK & A & X & Y & D) & ->)]]]; [lia|lia| |].
  - exfalso. apply NE. apply Forall2_app_inv_l in F as (l1 & l2 & F1 & F2 & EQ2).
    assert (l1 = p). { clear - F1. induction F1 as [|c d l l' H _ IH]; [reflexivity|]. apply N.eqb_eq in H. congruence. }
    subst l1. apply app_inv_head in EQ2. subst l2. inversion F2; subst. now apply N.eqb_eq.
  - do 2 f_equal. assert (k = nlen p).
    { destruct (N.lt_trichotomy k (nlen p)) as [L|[L|L]]; [|exact L|].
      - rewrite nnth_app1 in X, Y by exact L. rewrite X in Y. injection Y as ->. now rewrite eq_cs_refl in D.
      - destruct (A (nlen p) ltac:(lia)) as (x0 & y0 & H1 & H2 & H3). rewrite N.add_0_l, NX in H1. rewrite NY in H2.
        injection H1 as <-. injection H2 as <-. apply N.eqb_eq in H3. contradiction. }
    subst k. rewrite X in NX. rewrite Y in NY. injection NX as ->. injection NY as ->. rewrite EQ.
    destruct (Z.ltb_spec (schar (N.lor y 32)) (schar (N.lor y 32))); [lia|reflexivity].
Qed.

Lemma bit5_both_greater w v1 v2 p x s s' : nlen s = nlen s' ->
  views w v1 (p ++ [x] ++ s) -> views w v2 (p ++ [N.lxor x 32] ++ s') ->
  scompare eq_cs v1 v2 w = Ok (ST_FALSE, 1%Z) w /\ scompare eq_cs v2 v1 w = Ok (ST_FALSE, 1%Z) w.
Proof.
  intros L V1 V2. split.
  - apply (bit5_greater w v1 v2 p x (N.lxor x 32) s s'); auto; [intros H; now apply (lxor32_ne x)|now rewrite lor32_lxor].
  - apply (bit5_greater w v2 v1 p (N.lxor x 32) x s' s); auto; [apply lxor32_ne|apply lor32_lxor].
Qed.

(** Searching and comparing strings. *)
From Verif Require Import Base NListFacts Status Mem MemFacts StringModel StringSpec StringDriver.
From Coq Require Import ZifyBool ZifyNat ZifyN.

Notation world := (world N).

Lemma views_read1 w q x i c : views w q x -> nnth i (x ++ [0]) = Some c -> mread1 (padd (sdata q) i) w = Ok c w.
Proof.
  intros (_ & _ & R) H. apply nnth_some in H as (a & d & E & <-). rewrite E in R.
  assert (L : nlen x + 1 = nlen a + 1 + nlen d).
  { apply (f_equal nlen) in E. rewrite !nlen_app, (nlen_cons c) in E. change (nlen [0]) with 1 in E. lia. }
  unfold mread in R. destruct (sdata q) as [p|]; [|discriminate]. cbn [padd].
  destruct (heap w (pb p)) as [buf|] eqn:HB; [|discriminate].
  destruct (N.leb_spec (po p + (nlen x + 1)) (nlen buf)) as [LE|]; [|discriminate].
  injection R as R. destruct (nsplit3 (po p) (nlen x + 1) buf LE) as (u & v & z & -> & LU & LV).
  rewrite nsub_mid in R by assumption. subst v.
  unfold mread1. rewrite (bind_ok _ _ w [c] w); [reflexivity|].
  apply (mread_mid w (pb p) (po p + nlen a) 1 (u ++ a) [c] (d ++ z)).
  - rewrite HB. now rewrite <- !app_assoc.
  - rewrite nlen_app. lia.
  - reflexivity.
Qed.
Lemma views_read1_0 w q x c : views w q x -> nnth 0 (x ++ [0]) = Some c -> mread1 (sdata q) w = Ok c w.
Proof.
  intros V H. pose proof (views_read1 w q x 0 c V H) as R. destruct (sdata q) as [p|] eqn:E.
  - cbn [padd] in R. rewrite N.add_0_r in R. now destruct p.
  - exact R.
Qed.

Lemma views_part_read1 w q x i c : views_part w q x -> nnth i x = Some c -> mread1 (padd (sdata q) i) w = Ok c w.
Proof.
  intros (_ & _ & R) H. apply nnth_some in H as (a & d & E & <-). subst x.
  rewrite nlen_app, nlen_cons in R.
  unfold mread in R. destruct (sdata q) as [p|]; [|discriminate]. cbn [padd].
  destruct (heap w (pb p)) as [buf|] eqn:HB; [|discriminate].
  destruct (N.leb_spec (po p + (nlen a + (1 + nlen d))) (nlen buf)) as [LE|]; [|discriminate].
  injection R as R. destruct (nsplit3 (po p) (nlen a + (1 + nlen d)) buf LE) as (u & v & z & -> & LU & LV).
  rewrite nsub_mid in R by assumption. subst v.
  unfold mread1. rewrite (bind_ok _ _ w [c] w); [reflexivity|].
  apply (mread_mid w (pb p) (po p + nlen a) 1 (u ++ a) [c] (d ++ z)).
  - rewrite HB. now rewrite <- !app_assoc.
  - rewrite nlen_app. lia.
  - reflexivity.
Qed.
Lemma views_views_part w q x : views w q x -> views_part w q x.
Proof.
  intros (H1 & H2 & H3). split; [exact H1|]. split; [exact H2|]. unfold mread in *.
  destruct (sdata q) as [p|]; [|discriminate]. destruct (heap w (pb p)) as [buf|]; [|discriminate].
  destruct (N.leb_spec (po p + (nlen x + 1)) (nlen buf)) as [LE|]; [|discriminate].
  destruct (N.leb_spec (po p + nlen x) (nlen buf)) as [|]; [|lia]. f_equal. injection H3 as H3.
  destruct (nsplit3 (po p) (nlen x + 1) buf LE) as (u & v & z & -> & LU & LV).
  rewrite nsub_mid in H3 by assumption. subst v. rewrite <- app_assoc. now apply nsub_mid.
Qed.

(** Pointwise form of an occurrence; [n] characters are compared. *)
Definition agree (R : N -> N -> Prop) (hay needle : list N) (s k n : N) : Prop :=
  forall t, k <= t < n -> exists x y, nnth (s + t) hay = Some x /\ nnth t needle = Some y /\ R x y.

Lemma nnth_cons {A} (x : A) l n : nnth (1 + n) (x :: l) = nnth n l.
Proof. unfold nnth. replace (N.to_nat (1 + n)) with (S (N.to_nat n)) by lia. reflexivity. Qed.
Lemma nnth_succ {A} (x : A) l n : 1 <= n -> nnth n (x :: l) = nnth (n - 1) l.
Proof. intros. rewrite <- (nnth_cons x l (n - 1)). f_equal. lia. Qed.
Lemma forall2_nnth (R : N -> N -> Prop) a : forall b,
  Forall2 R a b <-> nlen a = nlen b /\ forall t, t < nlen b -> exists x y, nnth t a = Some x /\ nnth t b = Some y /\ R x y.
Proof.
  induction a as [|x a IH]; intros [|y b].
  - split; [|constructor]. intros _. split; [reflexivity|]. intros t L. change (nlen (@nil N)) with 0 in L. lia.
  - split; [intros H; inversion H|]. intros [H _]. rewrite nlen_cons in H. change (nlen (@nil N)) with 0 in H. lia.
  - split; [intros H; inversion H|]. intros [H _]. rewrite nlen_cons in H. change (nlen (@nil N)) with 0 in H. lia.
  - split.
    + intros H. inversion H as [|? ? ? ? H1 H2]; subst. apply IH in H2 as [L P]. split; [rewrite !nlen_cons; lia|].
      intros t LT. rewrite nlen_cons in LT. destruct (N.eq_dec t 0) as [->|NE].
      * exists x, y. now repeat split.
      * rewrite !nnth_succ by lia. apply P. lia.
    + intros [L P]. rewrite !nlen_cons in L. constructor.
      * destruct (P 0) as (x' & y' & H1 & H2 & H3); [rewrite nlen_cons; lia|].
        injection H1 as ->. injection H2 as ->. exact H3.
      * apply IH. split; [lia|]. intros t LT. destruct (P (1 + t)) as (x' & y' & H1 & H2 & H3).
        { rewrite nlen_cons. lia. }
        rewrite nnth_cons in H1, H2. now exists x', y'.
Qed.
Lemma nnth_nsub {A} i n (l : list A) t : i + n <= nlen l -> t < n -> nnth t (nsub i n l) = nnth (i + t) l.
Proof.
  intros L T. destruct (nsplit3 i n l L) as (a & b & c & -> & LA & LB). rewrite nsub_mid by assumption.
  rewrite nnth_app2 by lia. rewrite nnth_app1 by lia. f_equal. lia.
Qed.
Lemma occurs_agree R hay needle s : occurs R hay needle s <-> s + nlen needle <= nlen hay /\ agree R hay needle s 0 (nlen needle).
Proof.
  unfold occurs, agree. split; intros [L H]; (split; [exact L|]).
  - apply forall2_nnth in H as [_ H]. intros t T. destruct (H t) as (x & y & H1 & H2 & H3); [lia|].
    rewrite nnth_nsub in H1 by lia. now exists x, y.
  - apply forall2_nnth. split; [now apply nlen_nsub|]. intros t T. rewrite nnth_nsub by lia. apply H. lia.
Qed.

Lemma nnth_not_nul x i : ~ In 0 x -> nnth i (x ++ [0]) = Some 0 -> i = nlen x.
Proof.
  intros NI H. pose proof (nnth_lt _ _ _ H) as L. rewrite nlen_app in L. change (nlen [0]) with 1 in L.
  destruct (N.lt_ge_cases i (nlen x)) as [LT|]; [|lia]. rewrite nnth_app1 in H by assumption.
  exfalso. apply NI. unfold nnth in H. eapply nth_error_In; eauto.
Qed.

Section Search.
  Context (eqc : N -> N -> bool).
  Let R a b := eqc a b = true.

  Lemma lpos_inner_ok w hv nv hay needle limit s : views w hv hay -> views w nv needle -> ~ In 0 needle ->
    limit <= nlen hay -> forall fuel b, b <= nlen needle -> s + b <= limit + 1 ->
    limit + 2 - (s + b) <= N.of_nat fuel ->
    agree R (hay ++ [0]) needle s 0 b ->
    exists r, lpos_inner eqc hv nv limit (s + b) b fuel w = Ok r w /\
      match r with
      | Some true => s + nlen needle <= limit /\ agree R (hay ++ [0]) needle s 0 (nlen needle)
      | Some false => limit < s + nlen needle
      | None => ~ agree R (hay ++ [0]) needle s 0 (nlen needle)
      end.
  Proof.
    intros VH VN NN LL. induction fuel as [|fuel IH]; intros b LB LS F A; [lia|].
    cbn [lpos_inner]. destruct (N.ltb_spec limit (s + b)).
    { exists (Some false). split; [reflexivity|]. lia. }
    destruct (nnth_exists b (needle ++ [0])) as [y NY]; [rewrite nlen_app; change (nlen [0]) with 1; lia|].
    rewrite (bind_ok _ _ _ _ _ (views_read1 _ _ _ _ _ VN NY)).
    destruct (N.eqb_spec y 0) as [->|NZ].
    { apply nnth_not_nul in NY; [|exact NN]. subst b. exists (Some true). split; [reflexivity|]. now split. }
    assert (B : b < nlen needle).
    { destruct (N.eq_dec b (nlen needle)) as [->|]; [|lia]. rewrite nnth_mid in NY by reflexivity. congruence. }
    rewrite nnth_app1 in NY by assumption.
    destruct (nnth_exists (s + b) (hay ++ [0])) as [x NX]; [rewrite nlen_app; change (nlen [0]) with 1; lia|].
    rewrite (bind_ok _ _ _ _ _ (views_read1 _ _ _ _ _ VH NX)).
    destruct (eqc x y) eqn:EQ.
    - replace (s + b + 1) with (s + (b + 1)) by lia. apply IH; try lia.
      intros t T. destruct (N.eq_dec t b) as [->|]; [|apply A; lia]. now exists x, y.
    - exists None. split; [reflexivity|]. intros AA. destruct (AA b) as (x' & y' & H1 & H2 & H3); [lia|].
      unfold R in H3. congruence.
  Qed.

  Lemma agree_term hay needle s n : s + n <= nlen hay -> agree R (hay ++ [0]) needle s 0 n <-> agree R hay needle s 0 n.
  Proof.
    intros L. unfold agree. split; intros A t T; destruct (A t T) as (x & y & H1 & H2 & H3); exists x, y;
      rewrite nnth_app1 in * by lia; now repeat split.
  Qed.

  Lemma lpos_outer_ok w hv nv hay needle lo limit : views w hv hay -> views w nv needle -> ~ In 0 needle ->
    1 <= nlen needle -> limit <= nlen hay ->
    forall fuel s, lo <= s -> nlen hay + 1 <= s + N.of_nat fuel -> 1 <= N.of_nat fuel ->
    (forall j, lo <= j < s -> ~ occurs R hay needle j) ->
    exists st r, lpos_outer eqc hv nv limit s fuel w = Ok (st, r) w /\ found st r /\
      first_occurrence R hay needle lo limit r.
  Proof.
    intros VH VN NN LN LL. pose proof VH as (SH & LH & _).
    induction fuel as [|fuel IH]; intros s LS F F1 NO; [lia|]. cbn [lpos_outer]. rewrite SH.
    destruct (N.ltb_spec (s + 1) (nlen hay + 1)) as [B|B]; cbn [negb].
    2:{ exists ST_FALSE, None. split; [reflexivity|]. split; [reflexivity|]. intros j L1 L2.
        apply NO. lia. }
    destruct (nnth_exists s hay) as [x NX]; [lia|].
    assert (NX' : nnth s (hay ++ [0]) = Some x) by (rewrite nnth_app1 by lia; exact NX).
    rewrite (bind_ok _ _ _ _ _ (views_read1 _ _ _ _ _ VH NX')).
    destruct (nnth_exists 0 needle) as [y NY]; [lia|].
    assert (NY' : nnth 0 (needle ++ [0]) = Some y) by (rewrite nnth_app1 by lia; exact NY).
    rewrite (bind_ok _ _ _ _ _ (views_read1_0 _ _ _ _ VN NY')).
    assert (NEXT : ~ occurs R hay needle s -> exists st r, lpos_outer eqc hv nv limit (s + 1) fuel w = Ok (st, r) w /\
      found st r /\ first_occurrence R hay needle lo limit r).
    { intros NS. apply IH; try lia. intros j [J1 J2]. destruct (N.eq_dec j s) as [->|]; [exact NS|]. apply NO. lia. }
    destruct (eqc x y) eqn:EQ; cbn [negb].
    - destruct (N.le_gt_cases s limit) as [SL|SL].
      + destruct (lpos_inner_ok w hv nv hay needle limit s VH VN NN LL (N.to_nat (nlen hay + 1) + 2) 0) as (r & E & K); try lia.
        { intros t T. lia. }
        rewrite N.add_0_r in E. rewrite (bind_ok _ _ _ _ _ E). destruct r as [[|]|].
        * exists ST_TRUE, (Some s). split; [reflexivity|]. split; [reflexivity|]. destruct K as [K1 K2].
          split; [exact LS|]. split; [exact K1|]. split; [|exact NO].
          apply occurs_agree. split; [lia|]. rewrite agree_term in K2 by lia. exact K2.
        * exists ST_FALSE, None. split; [reflexivity|]. split; [reflexivity|]. intros j L1 L2.
          apply NO. lia.
        * apply NEXT. intros O. apply K. apply occurs_agree in O as [O1 O2]. apply agree_term; [lia|exact O2].
      + assert (E : lpos_inner eqc hv nv limit s 0 (N.to_nat (nlen hay + 1) + 2) w = Ok (Some false) w).
        { replace (N.to_nat (nlen hay + 1) + 2)%nat with (S (N.to_nat (nlen hay + 1) + 1)) by lia. cbn [lpos_inner].
          destruct (N.ltb_spec limit s); [reflexivity|lia]. }
        rewrite (bind_ok _ _ _ _ _ E). exists ST_FALSE, None. split; [reflexivity|]. split; [reflexivity|].
        intros j L1 L2. apply NO. lia.
    - apply NEXT. intros O. apply occurs_agree in O as [_ O2].
      destruct (O2 0) as (x' & y' & H1 & H2 & H3); [lia|]. rewrite N.add_0_r in H1. unfold R in H3. congruence.
  Qed.

  (** What LPosEx answers. *)
  Definition lpos_answer (hay needle : list N) (index count : N) (st : status) (r : option N) : Prop :=
    if nlen hay <? index + count then st = ST_OUT_OF_RANGE /\ r = None
    else if nlen needle =? 0 then st = ST_FALSE /\ r = None
    else found st r /\ first_occurrence R hay needle index (index + count) r.
  Lemma slpos_ex_ok w hv nv hay needle index count : views w hv hay -> views w nv needle -> ~ In 0 needle ->
    index + count < W64 ->
    exists st r, slpos_ex eqc hv nv index count w = Ok (st, r) w /\ lpos_answer hay needle index count st r.
  Proof.
    intros VH VN NN J. pose proof VH as (SH & LH & _). pose proof VN as (SN & LN & _).
    unfold slpos_ex, lpos_answer. rewrite wadd_small, SH, SN by exact J.
    destruct (N.leb_spec (nlen hay + 1) (index + count)); destruct (N.ltb_spec (nlen hay) (index + count)); try lia.
    { exists ST_OUT_OF_RANGE, None. now repeat split. }
    destruct (N.eqb_spec (nlen needle) 0) as [E0|E0].
    { rewrite E0. change (0 + 1 =? 1) with true. rewrite orb_true_r. cbn [orb].
      exists ST_FALSE, None. now repeat split. }
    destruct (N.eqb_spec (nlen needle + 1) 1); [lia|]. rewrite orb_false_r.
    destruct ((nlen hay + 1 =? 1) || (nlen hay + 1 <? nlen needle + 1)) eqn:B.
    { exists ST_FALSE, None. split; [reflexivity|]. split; [reflexivity|].
      intros j L1 L2 [O _]. lia. }
    apply lpos_outer_ok; auto; try lia.
  Qed.

  Lemma rpos_inner_ok w hv nv hay needle low e : views_part w hv hay -> views_part w nv needle ->
    e <= nlen hay -> forall fuel b1, b1 <= nlen needle -> nlen needle - b1 <= e -> b1 < N.of_nat fuel ->
    (b1 < nlen needle -> low + nlen needle <= e + b1) ->
    (nlen needle <= e -> agree R hay needle (e - nlen needle) b1 (nlen needle)) ->
    exists r, rpos_inner eqc hv nv low (e - (nlen needle - b1)) b1 fuel w = Ok r w /\
      match r with
      | Some (Some i) => i + nlen needle = e /\ (0 < nlen needle -> low <= i) /\ agree R hay needle i 0 (nlen needle)
      | Some None => e < low + nlen needle
      | None => nlen needle <= e -> ~ agree R hay needle (e - nlen needle) 0 (nlen needle)
      end.
  Proof.
    intros VH VN LE. induction fuel as [|fuel IH]; intros b1 LB LN F IL A; [lia|]. cbn [rpos_inner].
    destruct (N.ltb_spec b1 1).
    { assert (b1 = 0) by lia. subst b1. exists (Some (Some (e - nlen needle))). split.
      - now rewrite N.sub_0_r.
      - split; [lia|]. split; [lia|]. apply A. lia. }
    destruct (N.ltb_spec (e - (nlen needle - b1)) (low + 1)).
    { exists (Some None). split; [reflexivity|]. lia. }
    destruct (nnth_exists (e - (nlen needle - b1) - 1) hay) as [x NX]; [lia|].
    rewrite (bind_ok _ _ _ _ _ (views_part_read1 _ _ _ _ _ VH NX)).
    destruct (nnth_exists (b1 - 1) needle) as [y NY]; [lia|].
    rewrite (bind_ok _ _ _ _ _ (views_part_read1 _ _ _ _ _ VN NY)).
    destruct (eqc x y) eqn:EQ.
    - replace (e - (nlen needle - b1) - 1) with (e - (nlen needle - (b1 - 1))) in * by lia.
      apply IH; try lia. intros L t T. destruct (N.eq_dec t (b1 - 1)) as [->|]; [|apply A; lia].
      exists x, y. split; [|now split]. rewrite <- NX. f_equal. lia.
    - exists None. split; [reflexivity|]. intros L AA. destruct (AA (b1 - 1)) as (x' & y' & H1 & H2 & H3); [lia|].
      replace (e - nlen needle + (b1 - 1)) with (e - (nlen needle - b1) - 1) in H1 by lia. unfold R in H3. congruence.
  Qed.

  Lemma rpos_outer_ok w hv nv hay needle low hi : views_part w hv hay -> views_part w nv needle ->
    1 <= nlen needle -> hi <= nlen hay ->
    forall fuel e, e <= hi -> e < N.of_nat fuel ->
    (forall j, e < j + nlen needle -> j + nlen needle <= hi -> ~ occurs R hay needle j) ->
    exists st r, rpos_outer eqc hv nv low e fuel w = Ok (st, r) w /\ found st r /\
      last_occurrence R hay needle low hi r.
  Proof.
    intros VH VN LN LL. pose proof VH as (SH & LH & _). pose proof VN as (SN & LN2 & _).
    induction fuel as [|fuel IH]; intros e LE F NO; [lia|]. cbn [rpos_outer].
    destruct (N.ltb_spec e 1).
    { exists ST_FALSE, None. split; [reflexivity|]. split; [reflexivity|]. intros j L1 L2. apply NO; lia. }
    destruct (nnth_exists (e - 1) hay) as [x NX]; [lia|].
    rewrite (bind_ok _ _ _ _ _ (views_part_read1 _ _ _ _ _ VH NX)).
    rewrite SN, !wsub_small by lia. replace (nlen needle + 1 - 2) with (nlen needle - 1) by lia.
    replace (nlen needle + 1 - 1) with (nlen needle) by lia.
    destruct (nnth_exists (nlen needle - 1) needle) as [y NY]; [lia|].
    rewrite (bind_ok _ _ _ _ _ (views_part_read1 _ _ _ _ _ VN NY)).
    assert (NEXT : (nlen needle <= e -> ~ agree R hay needle (e - nlen needle) 0 (nlen needle)) ->
      exists st r, rpos_outer eqc hv nv low (e - 1) fuel w = Ok (st, r) w /\
      found st r /\ last_occurrence R hay needle low hi r).
    { intros NS. apply IH; try lia. intros j J1 J2. destruct (N.eq_dec (j + nlen needle) e) as [EQ|]; [|apply NO; lia].
      intros O. apply occurs_agree in O as [_ O]. apply NS; [lia|]. now replace (e - nlen needle) with j by lia. }
    destruct (eqc x y) eqn:EQ; cbn [negb].
    - destruct (rpos_inner_ok w hv nv hay needle low e VH VN ltac:(lia) (N.to_nat (nlen needle + 1) + 1) (nlen needle)) as (r & E & K); try lia.
      { intros _ t T. lia. }
      replace (e - (nlen needle - nlen needle)) with e in E by lia. rewrite (bind_ok _ _ _ _ _ E).
      destruct r as [[i|]|].
      + destruct K as (K1 & K2 & K3). exists ST_TRUE, (Some i). split; [reflexivity|]. split; [reflexivity|].
        split; [apply K2; lia|]. split; [lia|]. split; [apply occurs_agree; split; [lia|exact K3]|].
        intros j J1 J2. apply NO; lia.
      + exists ST_FALSE, None. split; [reflexivity|]. split; [reflexivity|]. intros j L1 L2. apply NO; lia.
      + now apply NEXT.
    - apply NEXT. intros L AA. destruct (AA (nlen needle - 1)) as (x' & y' & H1 & H2 & H3); [lia|].
      replace (e - nlen needle + (nlen needle - 1)) with (e - 1) in H1 by lia. unfold R in H3. congruence.
  Qed.
  Definition rpos_answer (hay needle : list N) (index count : N) (st : status) (r : option N) : Prop :=
    if (nlen hay <? index) || (index <? count) then st = ST_OUT_OF_RANGE /\ r = None
    else if nlen needle =? 0 then st = ST_FALSE /\ r = None
    else found st r /\ last_occurrence R hay needle (index - count) index r.
  Lemma srpos_ex_ok w hv nv hay needle index count : views_part w hv hay -> views_part w nv needle ->
    exists st r, srpos_ex eqc hv nv index count w = Ok (st, r) w /\ rpos_answer hay needle index count st r.
  Proof.
    intros VH VN. pose proof VH as (SH & LH & _). pose proof VN as (SN & LN & _).
    unfold srpos_ex, rpos_answer. rewrite SH, SN.
    replace (nlen hay + 1 <=? index) with (nlen hay <? index) by lia.
    destruct ((nlen hay <? index) || (index <? count)) eqn:B0.
    { exists ST_OUT_OF_RANGE, None. now repeat split. }
    destruct (N.eqb_spec (nlen needle) 0) as [E0|E0].
    { rewrite E0. change (0 + 1 =? 1) with true. rewrite orb_true_r. cbn [orb].
      exists ST_FALSE, None. now repeat split. }
    destruct ((index =? 0) || (count =? 0) || (nlen hay + 1 =? 1) || (nlen needle + 1 =? 1) || (nlen hay + 1 <? nlen needle + 1)) eqn:B.
    { exists ST_FALSE, None. split; [reflexivity|]. split; [reflexivity|]. intros j L1 L2 [O _]. lia. }
    apply rpos_outer_ok; auto; try lia.
  Qed.

  (** ** Comparison *)
  Lemma compare_loop_ok w v1 v2 a b : views w v1 a -> views w v2 b -> nlen a = nlen b ->
    forall fuel i, i <= nlen a -> nlen a < i + N.of_nat fuel ->
    agree R a b 0 0 i ->
    exists k, compare_loop eqc v1 v2 i fuel w = Ok k w /\ k <= nlen a /\ agree R a b 0 0 k /\
      (k < nlen a -> exists x y, nnth k a = Some x /\ nnth k b = Some y /\ eqc x y = false).
  Proof.
    intros V1 V2 L. pose proof V1 as (S1 & _). pose proof V2 as (S2 & _).
    induction fuel as [|fuel IH]; intros i LI F A; [lia|]. cbn [compare_loop]. rewrite S1, S2, <- L, andb_diag.
    destruct (N.ltb_spec (i + 1) (nlen a + 1)); cbn [negb].
    2:{ exists i. split; [reflexivity|]. split; [exact LI|]. split; [exact A|]. lia. }
    destruct (nnth_exists i a) as [x NX]; [lia|]. destruct (nnth_exists i b) as [y NY]; [lia|].
    assert (NX' : nnth i (a ++ [0]) = Some x) by (rewrite nnth_app1 by lia; exact NX).
    assert (NY' : nnth i (b ++ [0]) = Some y) by (rewrite nnth_app1 by lia; exact NY).
    rewrite (bind_ok _ _ _ _ _ (views_read1 _ _ _ _ _ V1 NX')), (bind_ok _ _ _ _ _ (views_read1 _ _ _ _ _ V2 NY')).
    destruct (eqc x y) eqn:EQ.
    - apply IH; try lia. intros t T. destruct (N.eq_dec t i) as [->|]; [|apply A; lia].
      exists x, y. now rewrite N.add_0_l.
    - exists i. split; [reflexivity|]. split; [exact LI|]. split; [exact A|]. intros _. now exists x, y.
  Qed.
  (** The first position at which two lists differ, and what they have there. *)
  Definition first_diff (a b : list N) (x y : N) : Prop :=
    exists k, k < nlen a /\ agree R a b 0 0 k /\ nnth k a = Some x /\ nnth k b = Some y /\ eqc x y = false.
  Lemma scompare_ok w v1 v2 a b : views w v1 a -> views w v2 b -> (forall c, eqc c c = true) ->
    exists st r, scompare eqc v1 v2 w = Ok (st, r) w /\
      ((nlen a < nlen b /\ st = ST_FALSE /\ r = (-1)%Z) \/
       (nlen b < nlen a /\ st = ST_FALSE /\ r = 1%Z) \/
       (Forall2 R a b /\ st = ST_TRUE /\ r = 0%Z) \/
       (nlen a = nlen b /\ st = ST_FALSE /\ exists x y, first_diff a b x y /\
          r = if (schar (N.lor x 32) <? schar (N.lor y 32))%Z then (-1)%Z else 1%Z)).
  Proof.
    intros V1 V2 RF. pose proof V1 as (S1 & L1 & _). pose proof V2 as (S2 & L2 & _). unfold scompare. rewrite S1, S2.
    destruct (N.ltb_spec (nlen a + 1) (nlen b + 1)).
    { exists ST_FALSE, (-1)%Z. split; [reflexivity|]. left. repeat split. lia. }
    destruct (N.ltb_spec (nlen b + 1) (nlen a + 1)).
    { exists ST_FALSE, 1%Z. split; [reflexivity|]. right. left. repeat split. lia. }
    assert (L : nlen a = nlen b) by lia.
    destruct (compare_loop_ok w v1 v2 a b V1 V2 L (N.to_nat (nlen a + 1) + 1) 0) as (k & E & LK & A & D); try lia.
    { intros t T. lia. }
    rewrite (bind_ok _ _ _ _ _ E). destruct (N.eq_dec k (nlen a)) as [->|NE].
    - assert (X : nnth (nlen a) (a ++ [0]) = Some 0) by now apply nnth_mid.
      assert (Y : nnth (nlen a) (b ++ [0]) = Some 0) by now apply nnth_mid.
      rewrite (bind_ok _ _ _ _ _ (views_read1 _ _ _ _ _ V1 X)), (bind_ok _ _ _ _ _ (views_read1 _ _ _ _ _ V2 Y)).
      change (0 =? 0) with true. cbv iota. exists ST_TRUE, 0%Z. split; [reflexivity|]. right. right. left.
      split; [|now split]. apply forall2_nnth. split; [exact L|]. intros t T. apply (A t). lia.
    - destruct D as (x & y & NX & NY & EQ); [lia|].
      assert (NX' : nnth k (a ++ [0]) = Some x) by (rewrite nnth_app1 by lia; exact NX).
      assert (NY' : nnth k (b ++ [0]) = Some y) by (rewrite nnth_app1 by lia; exact NY).
      rewrite (bind_ok _ _ _ _ _ (views_read1 _ _ _ _ _ V1 NX')), (bind_ok _ _ _ _ _ (views_read1 _ _ _ _ _ V2 NY')).
      destruct (N.eqb_spec x y) as [->|XY]; [rewrite RF in EQ; discriminate|].
      assert (FD : first_diff a b x y). { exists k. split; [lia|]. now repeat split. }
      exists ST_FALSE. destruct (schar (N.lor x 32) <? schar (N.lor y 32))%Z eqn:LT;
        eexists; (split; [reflexivity|]; right; right; right; split; [exact L|]; split; [reflexivity|];
          exists x, y; split; [exact FD|]; now rewrite LT).
  Qed.
End Search.

(** Searching and comparing views of parts of larger texts. *)
From Verif Require Import Base NListFacts Status Mem MemFacts VectorModel StringModel StringSpec StringDriver StringSearch
  StringFinal StringFinal3 BitsetBits ViewSpec.
From Coq Require Import ZifyBool ZifyNat ZifyN.

Implicit Types (w : world).

Lemma read_at w q x i c : mread (sdata q) (nlen x) w = Ok x w -> nnth i x = Some c -> mread1 (padd (sdata q) i) w = Ok c w.
Proof.
  intros R H. apply nnth_some in H as (a & d & E & <-). subst x.
  rewrite nlen_app, nlen_cons in R.
  unfold mread in R. destruct (sdata q) as [p|]; [|discriminate]. cbn [padd].
  destruct (heap w (pb p)) as [buf|] eqn:HB; [|discriminate].
  destruct (N.leb_spec (po p + (nlen a + (1 + nlen d))) (nlen buf)) as [LE|]; [|discriminate].
  injection R as R. destruct (nsplit3 (po p) (nlen a + (1 + nlen d)) buf LE) as (u & v & z & -> & LU & LV).
  rewrite nsub_mid in R by assumption. subst v. unfold mread1, bind, mread, ret. cbn [pb po]. rewrite HB.
  destruct (N.leb_spec (po p + nlen a + 1) (nlen (u ++ (a ++ c :: d) ++ z))) as [L2|L2].
  2:{ rewrite !nlen_app, nlen_cons in L2. lia. }
  replace (u ++ (a ++ c :: d) ++ z) with ((u ++ a) ++ [c] ++ (d ++ z)) by (rewrite <- !app_assoc; reflexivity).
  rewrite nsub_mid; [reflexivity|rewrite nlen_app; lia|reflexivity].
Qed.
Lemma read_at0 w q x c : mread (sdata q) (nlen x) w = Ok x w -> nnth 0 x = Some c -> mread1 (sdata q) w = Ok c w.
Proof.
  intros V H. pose proof (read_at w q x 0 c V H) as R. destruct (sdata q) as [p|] eqn:E.
  - cbn [padd] in R. rewrite N.add_0_r in R. now destruct p.
  - exact R.
Qed.
Lemma next_read w q x c : views_next w q x c -> mread (sdata q) (nlen (x ++ [c])) w = Ok (x ++ [c]) w.
Proof. intros (_ & _ & R). rewrite nlen_app. exact R. Qed.
Lemma text_read w q n z : views_text w q n z -> mread (sdata q) (nlen (z ++ [0])) w = Ok (z ++ [0]) w.
Proof. intros (_ & _ & _ & R). rewrite nlen_app. exact R. Qed.

Lemma nskip_cons {A} i (l : list A) x : nnth i l = Some x -> nskip i l = x :: nskip (i + 1) l.
Proof.
  intros H. apply nnth_some in H as (a & e & -> & LA). rewrite (nskip_app_l i a) by exact LA.
  replace (a ++ x :: e) with ((a ++ [x]) ++ e) by now rewrite <- app_assoc. rewrite nskip_app_l; [reflexivity|].
  rewrite nlen_app. change (nlen [x]) with 1. lia.
Qed.

Lemma nnth_skip_add {A} i t (l : list A) : nnth t (nskip i l) = nnth (i + t) l.
Proof.
  destruct (N.le_gt_cases (nlen l) i) as [L|L].
  - rewrite nskip_all by exact L. rewrite !nnth_ge; [reflexivity|lia|change (nlen (@nil A)) with 0; lia].
  - rewrite <- (nfirst_skip i l) at 2. rewrite nnth_app2 by (rewrite nlen_nfirst; lia). f_equal. rewrite nlen_nfirst. lia.
Qed.
Lemma f2_len {A B} (R : A -> B -> Prop) l m : Forall2 R l m -> nlen l = nlen m.
Proof. induction 1; [reflexivity|]. now rewrite !nlen_cons, IHForall2. Qed.
Lemma Forall2_impl' {A B} (R S : A -> B -> Prop) l m : (forall a b, R a b -> S a b) -> Forall2 R l m -> Forall2 S l m.
Proof. intros H. induction 1; constructor; auto. Qed.
Lemma f2_at {A B} (R : A -> B -> Prop) l m : Forall2 R l m -> forall i, i < nlen l ->
  exists a b, nnth i l = Some a /\ nnth i m = Some b /\ R a b.
Proof.
  induction 1 as [|a b l m H F IH]; intros i L; [change (i < 0) in L; lia|]. rewrite nlen_cons in L.
  destruct (N.eq_dec i 0) as [->|]; [now exists a, b|]. destruct (IH (i - 1)) as (x & y & X & Y & XY); [lia|]. exists x, y.
  change (a :: l) with ([a] ++ l). change (b :: m) with ([b] ++ m). rewrite !nnth_app2 by (change (nlen [a]) with 1; change (nlen [b]) with 1; lia).
  change (nlen [a]) with 1. change (nlen [b]) with 1. now repeat split.
Qed.

(** ** Compare *)
  Lemma end_read w q x i c : views_end w q x -> nnth i x = Some c -> mread1 (padd (sdata q) i) w = Ok c w.
  Proof.
    intros (_ & _ & b & pre & D & H). apply read_at. rewrite D. unfold mread. cbn [pb po]. rewrite H.
    destruct (N.leb_spec (nlen pre + nlen x) (nlen (pre ++ x))) as [|X]; [|rewrite nlen_app in X; lia].
    f_equal. replace (pre ++ x) with (pre ++ x ++ []) by now rewrite app_nil_r. now apply nsub_mid.
  Qed.
  Lemma end_fault w q x : views_end w q x -> mread1 (padd (sdata q) (nlen x)) w = Fault OutOfBounds.
  Proof.
    intros (_ & _ & b & pre & D & H). rewrite D. unfold mread1, bind, mread. cbn [padd pb po]. rewrite H.
    destruct (N.leb_spec (nlen pre + nlen x + 1) (nlen (pre ++ x))) as [X|]; [rewrite nlen_app in X; lia|reflexivity].
  Qed.

Section Compare.
  Context (eqc : N -> N -> bool).
  Lemma compare_loop_next w v1 v2 x1 y1 c d : views_next w v1 x1 c -> views_next w v2 y1 d -> nlen x1 = nlen y1 ->
    forall fuel i, i <= nlen x1 -> nlen x1 < i + N.of_nat fuel ->
    exists k a b, compare_loop eqc v1 v2 i fuel w = Ok k w /\ nnth k (x1 ++ [c]) = Some a /\ nnth k (y1 ++ [d]) = Some b /\
      texts_order eqc (nskip i x1) (nskip i y1) c d = byte_order a b.
  Proof.
    intros V1 V2 L. pose proof V1 as (S1 & _). pose proof V2 as (S2 & _).
    induction fuel as [|fuel IH]; intros i LI F; [lia|]. cbn [compare_loop]. rewrite S1, S2, <- L, andb_diag.
    destruct (N.ltb_spec (i + 1) (nlen x1 + 1)); cbn [negb].
    2:{ exists i, c, d. split; [reflexivity|]. assert (i = nlen x1) as -> by lia.
        split; [now apply nnth_mid|]. split; [now apply nnth_mid|]. rewrite (nskip_all (nlen x1) x1) by lia. now rewrite (nskip_all (nlen x1) y1) by lia. }
    destruct (nnth_exists i x1) as [x NX]; [lia|]. destruct (nnth_exists i y1) as [y NY]; [lia|].
    assert (NX' : nnth i (x1 ++ [c]) = Some x) by (rewrite nnth_app1 by lia; exact NX).
    assert (NY' : nnth i (y1 ++ [d]) = Some y) by (rewrite nnth_app1 by lia; exact NY).
    rewrite (bind_ok _ _ _ _ _ (read_at _ _ _ _ _ (next_read _ _ _ _ V1) NX')),
            (bind_ok _ _ _ _ _ (read_at _ _ _ _ _ (next_read _ _ _ _ V2) NY')).
    rewrite (nskip_cons _ _ _ NX), (nskip_cons _ _ _ NY). cbn [texts_order]. destruct (eqc x y) eqn:EQ.
    - apply IH; lia.
    - now exists i, x, y.
  Qed.
  Lemma compare_next w v1 v2 x y c d : views_next w v1 x c -> views_next w v2 y d ->
    scompare eqc v1 v2 w = Ok (views_order eqc x y c d) w.
  Proof.
    intros V1 V2. pose proof V1 as (S1 & _). pose proof V2 as (S2 & _). unfold scompare, views_order. rewrite S1, S2.
    destruct (N.ltb_spec (nlen x + 1) (nlen y + 1)); destruct (N.ltb_spec (nlen x) (nlen y)); try lia; [reflexivity|].
    destruct (N.ltb_spec (nlen y + 1) (nlen x + 1)); destruct (N.ltb_spec (nlen y) (nlen x)); try lia; [reflexivity|].
    destruct (compare_loop_next w v1 v2 x y c d V1 V2 ltac:(lia) (N.to_nat (nlen x + 1) + 1) 0) as (k & a & b & E & NA & NB & T); try lia.
    rewrite (bind_ok _ _ _ _ _ E), (bind_ok _ _ _ _ _ (read_at _ _ _ _ _ (next_read _ _ _ _ V1) NA)),
            (bind_ok _ _ _ _ _ (read_at _ _ _ _ _ (next_read _ _ _ _ V2) NB)).
    rewrite !nskip_0 in T. rewrite T. unfold byte_order. destruct (a =? b); [reflexivity|].
    destruct (_ <? _)%Z; reflexivity.
  Qed.
  (** Texts that are alike: the bytes behind them decide. *)
  Lemma order_alike x y c d : Forall2 (fun a b => eqc a b = true) x y -> views_order eqc x y c d = byte_order c d.
  Proof.
    intros F. unfold views_order. assert (L : nlen x = nlen y) by (eapply f2_len; exact F).
    rewrite L, N.ltb_irrefl. clear L. induction F as [|a b x y H F IH]; [reflexivity|]. cbn. rewrite H. exact IH.
  Qed.
  (** The memory ends with the first text. *)
  Lemma compare_loop_end w v1 v2 x y : views_end w v1 x -> views_part w v2 y -> Forall2 (fun a b => eqc a b = true) x y ->
    forall fuel i, i <= nlen x -> nlen x < i + N.of_nat fuel -> compare_loop eqc v1 v2 i fuel w = Ok (nlen x) w.
  Proof.
    intros V1 V2 A. assert (L : nlen x = nlen y) by (eapply f2_len; exact A).
    pose proof (f2_at _ _ _ A) as AT.
    pose proof V1 as (S1 & _). pose proof V2 as (S2 & _).
    induction fuel as [|fuel IH]; intros i LI F; [lia|]. cbn [compare_loop]. rewrite S1, S2, <- L, andb_diag.
    destruct (N.ltb_spec (i + 1) (nlen x + 1)); cbn [negb].
    2:{ assert (i = nlen x) as -> by lia. reflexivity. }
    destruct (AT i) as (a & b & NX & NY & EQ); [lia|].
    rewrite (bind_ok _ _ _ _ _ (end_read _ _ _ _ _ V1 NX)), (bind_ok _ _ _ _ _ (views_part_read1 _ _ _ _ _ V2 NY)), EQ.
    apply IH; lia.
  Qed.
  Lemma compare_end w v1 v2 x y : views_end w v1 x -> views_part w v2 y -> Forall2 (fun a b => eqc a b = true) x y ->
    scompare eqc v1 v2 w = Fault OutOfBounds.
  Proof.
    intros V1 V2 A. pose proof V1 as (S1 & _). pose proof V2 as (S2 & _).
    assert (L : nlen x = nlen y) by (eapply f2_len; exact A).
    unfold scompare. rewrite S1, S2, L, N.ltb_irrefl.
    rewrite (bind_ok _ _ _ _ _ (compare_loop_end w v1 v2 x y V1 V2 A (N.to_nat (nlen y + 1) + 1) 0 ltac:(lia) ltac:(lia))).
    unfold bind. now rewrite (end_fault _ _ _ V1).
  Qed.
End Compare.

(** ** LPos *)
Section Search.
  Context (eqc : N -> N -> bool).
  Let R a b := eqc a b = true.
  Lemma lpos_inner_next w hv nv n hay c needle limit s : views_next w hv hay c -> views_text w nv n needle ->
    limit <= nlen hay -> forall fuel b, b <= nlen needle -> s + b <= limit + 1 ->
    limit + 2 - (s + b) <= N.of_nat fuel ->
    agree R (hay ++ [c]) needle s 0 b ->
    exists r, lpos_inner eqc hv nv limit (s + b) b fuel w = Ok r w /\
      match r with
      | Some true => s + nlen needle <= limit /\ agree R (hay ++ [c]) needle s 0 (nlen needle)
      | Some false => limit < s + nlen needle
      | None => ~ agree R (hay ++ [c]) needle s 0 (nlen needle)
      end.
  Proof.
    intros VH VN LL. pose proof VN as (_ & _ & NN & _). induction fuel as [|fuel IH]; intros b LB LS F A; [lia|].
    cbn [lpos_inner]. destruct (N.ltb_spec limit (s + b)).
    { exists (Some false). split; [reflexivity|]. lia. }
    destruct (nnth_exists b (needle ++ [0])) as [y NY]; [rewrite nlen_app; change (nlen [0]) with 1; lia|].
    rewrite (bind_ok _ _ _ _ _ (read_at _ _ _ _ _ (text_read _ _ _ _ VN) NY)).
    destruct (N.eqb_spec y 0) as [->|NZ].
    { apply nnth_not_nul in NY; [|exact NN]. subst b. exists (Some true). split; [reflexivity|]. now split. }
    assert (B : b < nlen needle).
    { destruct (N.eq_dec b (nlen needle)) as [->|]; [|lia]. rewrite nnth_mid in NY by reflexivity. congruence. }
    rewrite nnth_app1 in NY by assumption.
    destruct (nnth_exists (s + b) (hay ++ [c])) as [x NX]; [rewrite nlen_app; change (nlen [c]) with 1; lia|].
    rewrite (bind_ok _ _ _ _ _ (read_at _ _ _ _ _ (next_read _ _ _ _ VH) NX)).
    destruct (eqc x y) eqn:EQ.
    - replace (s + b + 1) with (s + (b + 1)) by lia. apply IH; try lia.
      intros t T. destruct (N.eq_dec t b) as [->|]; [|apply A; lia]. now exists x, y.
    - exists None. split; [reflexivity|]. intros AA. destruct (AA b) as (x' & y' & H1 & H2 & H3); [lia|].
      unfold R in H3. congruence.
  Qed.
  Lemma agree_next hay c needle s n : s + n <= nlen hay -> agree R (hay ++ [c]) needle s 0 n <-> agree R hay needle s 0 n.
  Proof.
    intros L. unfold agree. split; intros A t T; destruct (A t T) as (x & y & H1 & H2 & H3); exists x, y;
      rewrite nnth_app1 in * by lia; now repeat split.
  Qed.
  Lemma lpos_outer_next w hv nv n hay c needle lo limit : views_next w hv hay c -> views_text w nv n needle ->
    1 <= nlen needle -> limit <= nlen hay ->
    forall fuel s, lo <= s -> nlen hay + 1 <= s + N.of_nat fuel -> 1 <= N.of_nat fuel ->
    (forall j, lo <= j < s -> ~ occurs R hay needle j) ->
    exists st r, lpos_outer eqc hv nv limit s fuel w = Ok (st, r) w /\ found st r /\
      first_occurrence R hay needle lo limit r.
  Proof.
    intros VH VN LN LL. pose proof VH as (SH & LH & _).
    induction fuel as [|fuel IH]; intros s LS F F1 NO; [lia|]. cbn [lpos_outer]. rewrite SH.
    destruct (N.ltb_spec (s + 1) (nlen hay + 1)) as [B|B]; cbn [negb].
    2:{ exists ST_FALSE, None. split; [reflexivity|]. split; [reflexivity|]. intros j L1 L2.
        apply NO. lia. }
    destruct (nnth_exists s hay) as [x NX]; [lia|].
    assert (NX' : nnth s (hay ++ [c]) = Some x) by (rewrite nnth_app1 by lia; exact NX).
    rewrite (bind_ok _ _ _ _ _ (read_at _ _ _ _ _ (next_read _ _ _ _ VH) NX')).
    destruct (nnth_exists 0 needle) as [y NY]; [lia|].
    assert (NY' : nnth 0 (needle ++ [0]) = Some y) by (rewrite nnth_app1 by lia; exact NY).
    rewrite (bind_ok _ _ _ _ _ (read_at0 _ _ _ _ (text_read _ _ _ _ VN) NY')).
    assert (NEXT : ~ occurs R hay needle s -> exists st r, lpos_outer eqc hv nv limit (s + 1) fuel w = Ok (st, r) w /\
      found st r /\ first_occurrence R hay needle lo limit r).
    { intros NS. apply IH; try lia. intros j [J1 J2]. destruct (N.eq_dec j s) as [->|]; [exact NS|]. apply NO. lia. }
    destruct (eqc x y) eqn:EQ; cbn [negb].
    - destruct (N.le_gt_cases s limit) as [SL|SL].
      + destruct (lpos_inner_next w hv nv n hay c needle limit s VH VN LL (N.to_nat (nlen hay + 1) + 2) 0) as (r & E & K); try lia.
        { intros t T. lia. }
        rewrite N.add_0_r in E. rewrite (bind_ok _ _ _ _ _ E). destruct r as [[|]|].
        * exists ST_TRUE, (Some s). split; [reflexivity|]. split; [reflexivity|]. destruct K as [K1 K2].
          split; [exact LS|]. split; [exact K1|]. split; [|exact NO].
          apply occurs_agree. split; [lia|]. rewrite agree_next in K2 by lia. exact K2.
        * exists ST_FALSE, None. split; [reflexivity|]. split; [reflexivity|]. intros j L1 L2.
          apply NO. lia.
        * apply NEXT. intros O. apply K. apply occurs_agree in O as [O1 O2]. apply agree_next; [lia|exact O2].
      + assert (E : lpos_inner eqc hv nv limit s 0 (N.to_nat (nlen hay + 1) + 2) w = Ok (Some false) w).
        { replace (N.to_nat (nlen hay + 1) + 2)%nat with (S (N.to_nat (nlen hay + 1) + 1)) by lia. cbn [lpos_inner].
          destruct (N.ltb_spec limit s); [reflexivity|lia]. }
        rewrite (bind_ok _ _ _ _ _ E). exists ST_FALSE, None. split; [reflexivity|]. split; [reflexivity|].
        intros j L1 L2. apply NO. lia.
    - apply NEXT. intros O. apply occurs_agree in O as [_ O2].
      destruct (O2 0) as (x' & y' & H1 & H2 & H3); [lia|]. rewrite N.add_0_r in H1. unfold R in H3. congruence.
  Qed.
End Search.
Lemma lpos_ex_next eqc (R : N -> N -> Prop) w hv nv n hay c z index count : (forall a b, eqc a b = true <-> R a b) ->
  views_next w hv hay c -> views_text w nv n z -> 1 <= n -> 1 <= nlen z -> index + count < W64 ->
  exists st r, slpos_ex eqc hv nv index count w = Ok (st, r) w /\
    (nlen hay < index + count -> st = ST_OUT_OF_RANGE /\ r = None) /\
    (index + count <= nlen hay -> nlen hay < n -> st = ST_FALSE /\ r = None) /\
    (index + count <= nlen hay -> n <= nlen hay -> lpos_result R hay z index count st r).
Proof.
  intros D VH VN N1 Z1 J. pose proof VH as (SH & LH & _). pose proof VN as (SN & LN & _).
  unfold slpos_ex. rewrite wadd_small, SH, SN by exact J.
  destruct (N.leb_spec (nlen hay + 1) (index + count)).
  { exists ST_OUT_OF_RANGE, None. split; [reflexivity|]. split; [now split|]. split; lia. }
  destruct (N.eqb_spec (n + 1) 1); [lia|]. rewrite orb_false_r.
  destruct (N.ltb_spec (nlen hay + 1) (n + 1)); cbn [orb].
  { rewrite orb_true_r. exists ST_FALSE, None. split; [reflexivity|]. split; [lia|]. split; [now split|lia]. }
  destruct (N.eqb_spec (nlen hay + 1) 1); [lia|]. cbn [orb].
  destruct (lpos_outer_next eqc w hv nv n hay c z index (index + count) VH VN Z1 ltac:(lia) (N.to_nat (nlen hay + 1) + 1) index)
    as (st & r & E & FO & FI); try lia.
  exists st, r. split; [exact E|]. split; [lia|]. split; [lia|]. intros _ _. unfold lpos_result.
  destruct (N.ltb_spec (nlen hay) (index + count)); [lia|]. destruct (N.eqb_spec (nlen z) 0); [lia|]. split; [exact FO|].
  eapply first_occurrence_ext; [|exact FI]. intros a b _ _. apply D.
Qed.

(** ** LPos when the memory ends with the haystack *)
Section SearchEnd.
  Context (eqc : N -> N -> bool).
  Let R a b := eqc a b = true.
  Lemma lpos_inner_end w hv nv n hay z s : views_end w hv hay -> views_text w nv n z ->
    forall fuel b, b <= nlen z -> s + b <= nlen hay -> nlen hay + 1 - (s + b) <= N.of_nat fuel ->
    agree R hay z s 0 b ->
    lpos_inner eqc hv nv (nlen hay) (s + b) b fuel w = Fault OutOfBounds \/
    (exists r, lpos_inner eqc hv nv (nlen hay) (s + b) b fuel w = Ok r w /\ r <> Some false /\
      (r = Some true -> occurs R hay z s) /\
      (nlen hay < s + nlen z -> ~ agree R hay z s 0 (nlen hay - s))).
  Proof.
    intros VH VN. pose proof VN as (_ & _ & NN & _). induction fuel as [|fuel IH]; intros b LB LS F A; [lia|].
    cbn [lpos_inner]. destruct (N.ltb_spec (nlen hay) (s + b)); [lia|].
    destruct (nnth_exists b (z ++ [0])) as [y NY]; [rewrite nlen_app; change (nlen [0]) with 1; lia|].
    rewrite (bind_ok _ _ _ _ _ (read_at _ _ _ _ _ (text_read _ _ _ _ VN) NY)).
    destruct (N.eqb_spec y 0) as [->|NZ].
    { apply nnth_not_nul in NY; [|exact NN]. subst b. right. exists (Some true). split; [reflexivity|]. split; [discriminate|].
      split; [|lia]. intros _. apply occurs_agree. split; [lia|exact A]. }
    assert (B : b < nlen z).
    { destruct (N.eq_dec b (nlen z)) as [->|]; [|lia]. rewrite nnth_mid in NY by reflexivity. congruence. }
    rewrite nnth_app1 in NY by assumption.
    destruct (N.eq_dec (s + b) (nlen hay)) as [X|X].
    { left. unfold bind. rewrite X. now rewrite (end_fault _ _ _ VH). }
    destruct (nnth_exists (s + b) hay) as [x NX]; [lia|].
    rewrite (bind_ok _ _ _ _ _ (end_read _ _ _ _ _ VH NX)).
    destruct (eqc x y) eqn:EQ.
    - replace (s + b + 1) with (s + (b + 1)) by lia. apply IH; try lia.
      intros t T. destruct (N.eq_dec t b) as [->|]; [|apply A; lia]. now exists x, y.
    - right. exists None. split; [reflexivity|]. split; [discriminate|]. split; [discriminate|]. intros _ AA.
      destruct (AA b) as (x' & y' & H1 & H2 & H3); [lia|]. unfold R in H3. congruence.
  Qed.
  Lemma lpos_outer_end w hv nv n hay z i : views_end w hv hay -> views_text w nv n z ->
    i < nlen hay -> nlen hay < i + nlen z -> agree R hay z i 0 (nlen hay - i) ->
    (forall j, j < i -> ~ occurs R hay z j) ->
    forall fuel s, s <= i -> nlen hay + 1 <= s + N.of_nat fuel ->
    lpos_outer eqc hv nv (nlen hay) s fuel w = Fault OutOfBounds.
  Proof.
    intros VH VN LI LZ A NO. pose proof VH as (SH & LH & _).
    induction fuel as [|fuel IH]; intros s LS F; [lia|]. cbn [lpos_outer]. rewrite SH.
    destruct (N.ltb_spec (s + 1) (nlen hay + 1)) as [B|B]; cbn [negb]; [|lia].
    destruct (nnth_exists s hay) as [x NX]; [lia|].
    rewrite (bind_ok _ _ _ _ _ (end_read _ _ _ _ _ VH NX)).
    destruct (nnth_exists 0 z) as [y NY]; [lia|].
    assert (NY' : nnth 0 (z ++ [0]) = Some y) by (rewrite nnth_app1 by lia; exact NY).
    rewrite (bind_ok _ _ _ _ _ (read_at0 _ _ _ _ (text_read _ _ _ _ VN) NY')).
    destruct (eqc x y) eqn:EQ; cbn [negb].
    - destruct (lpos_inner_end w hv nv n hay z s VH VN (N.to_nat (nlen hay + 1) + 2) 0) as [E|(r & E & NF & T & NA)]; try lia.
      { intros t T. lia. }
      { rewrite N.add_0_r in E. unfold bind. now rewrite E. }
      rewrite N.add_0_r in E. rewrite (bind_ok _ _ _ _ _ E).
      destruct (N.eq_dec s i) as [->|NE]; [exfalso; apply NA; [lia|exact A]|].
      destruct r as [[|]|]; [exfalso; apply (NO s); [lia|now apply T]|congruence|]. apply IH; lia.
    - destruct (N.eq_dec s i) as [->|NE].
      + destruct (A 0) as (x' & y' & H1 & H2 & H3); [lia|]. rewrite N.add_0_r in H1. unfold R in H3. congruence.
      + apply IH; lia.
  Qed.
  Lemma inside_agree hay z i : i < nlen hay -> nlen hay < i + nlen z -> ends_inside eqc hay z i -> agree R hay z i 0 (nlen hay - i).
  Proof.
    intros LI LZ E t T. pose proof (f2_at _ _ _ E) as AT. destruct (AT t) as (a & b & X & Y & XY); [rewrite nlen_nskip; lia|].
    exists a, b. rewrite nnth_skip_add in X. rewrite nnth_nfirst in Y by lia. now repeat split.
  Qed.
End SearchEnd.
Lemma lpos_end eqc (R : N -> N -> Prop) w hv nv n hay z i : (forall a b, eqc a b = true <-> R a b) ->
  views_end w hv hay -> views_text w nv n z -> 1 <= n <= nlen hay ->
  i < nlen hay -> nlen hay - i < nlen z -> ends_inside eqc hay z i -> (forall j, j < i -> ~ occurs R hay z j) ->
  slpos eqc hv nv w = Fault OutOfBounds.
Proof.
  intros D VH VN N1 LI LZ E NO. pose proof VH as (SH & LH & _). pose proof VN as (SN & LN & _).
  unfold slpos, slpos_ex. rewrite SH, SN. rewrite wsub_small, N.add_sub, wadd_small by lia. rewrite N.add_0_l.
  destruct (N.leb_spec (nlen hay + 1) (nlen hay)); [lia|].
  destruct (N.eqb_spec (nlen hay + 1) 1); [lia|]. destruct (N.eqb_spec (n + 1) 1); [lia|].
  destruct (N.ltb_spec (nlen hay + 1) (n + 1)); [lia|]. cbn [orb].
  eapply (lpos_outer_end eqc w hv nv n hay z i VH VN LI ltac:(lia)); [apply inside_agree; [exact LI|lia|exact E]| |lia|lia].
  intros j J [O1 O2]. apply (NO j J). split; [exact O1|]. eapply Forall2_impl'; [|exact O2]. intros a b X. now apply D.
Qed.

(** ** Corollaries *)
Lemma compare_cs_next w v1 v2 x y c d : views_next w v1 x c -> views_next w v2 y d ->
  scompare eq_cs v1 v2 w = Ok (views_order same x y c d) w.
Proof. apply compare_next. Qed.
Lemma compare_ci_next w v1 v2 x y c d : views_next w v1 x c -> views_next w v2 y d ->
  scompare eq_ci v1 v2 w = Ok (views_order same5 x y c d) w.
Proof. apply compare_next. Qed.
Lemma f2_diag x : Forall2 (fun a b => eq_cs a b = true) x x.
Proof. induction x; constructor; [apply N.eqb_refl|assumption]. Qed.
Lemma compare_same_next w v1 v2 x c d : c <> d -> views_next w v1 x c -> views_next w v2 x d ->
  exists r, scompare eq_cs v1 v2 w = Ok (ST_FALSE, r) w /\ (r = 1 \/ r = -1)%Z.
Proof.
  intros NE V1 V2. rewrite (compare_next _ _ _ _ _ _ _ _ V1 V2), (order_alike eq_cs x x c d (f2_diag x)). unfold byte_order.
  destruct (N.eqb_spec c d); [congruence|]. destruct (_ <? _)%Z; eexists; (split; [reflexivity|auto]).
Qed.
Lemma compare_cs_end w v1 v2 x : views_end w v1 x -> views_part w v2 x -> scompare eq_cs v1 v2 w = Fault OutOfBounds.
Proof. intros V1 V2. eapply compare_end; [exact V1|exact V2|apply f2_diag]. Qed.
Lemma compare_ci_end w v1 v2 x y : views_end w v1 x -> views_part w v2 y -> Forall2 (fun a b => same5 a b = true) x y ->
  scompare eq_ci v1 v2 w = Fault OutOfBounds.
Proof. apply compare_end. Qed.
Lemma cs_decides a b : eq_cs a b = true <-> a = b.
Proof. apply N.eqb_eq. Qed.
Lemma ci_decides a b : eq_ci a b = true <-> same_but_bit5 a b.
Proof. unfold eq_ci, same_but_bit5. rewrite orb_true_iff, !N.eqb_eq. reflexivity. Qed.
Lemma lpos_cs_next w hv nv n hay c z index count :
  views_next w hv hay c -> views_text w nv n z -> 1 <= n -> 1 <= nlen z -> index + count < W64 ->
  exists st r, slpos_ex eq_cs hv nv index count w = Ok (st, r) w /\
    (nlen hay < index + count -> st = ST_OUT_OF_RANGE /\ r = None) /\
    (index + count <= nlen hay -> nlen hay < n -> st = ST_FALSE /\ r = None) /\
    (index + count <= nlen hay -> n <= nlen hay -> found st r /\ first_occurrence eq hay z index (index + count) r).
Proof.
  intros VH VN N1 Z1 J. destruct (lpos_ex_next eq_cs eq w hv nv n hay c z index count cs_decides VH VN N1 Z1 J) as (st & r & E & A & B & K).
  exists st, r. split; [exact E|]. split; [exact A|]. split; [exact B|]. intros L1 L2. specialize (K L1 L2). unfold lpos_result in K.
  destruct (N.ltb_spec (nlen hay) (index + count)); [lia|]. destruct (N.eqb_spec (nlen z) 0); [lia|exact K].
Qed.
Lemma lpos_ci_next w hv nv n hay c z index count :
  views_next w hv hay c -> views_text w nv n z -> 1 <= n -> 1 <= nlen z -> index + count < W64 ->
  exists st r, slpos_ex eq_ci hv nv index count w = Ok (st, r) w /\
    (nlen hay < index + count -> st = ST_OUT_OF_RANGE /\ r = None) /\
    (index + count <= nlen hay -> nlen hay < n -> st = ST_FALSE /\ r = None) /\
    (index + count <= nlen hay -> n <= nlen hay -> found st r /\ first_occurrence same_but_bit5 hay z index (index + count) r).
Proof.
  intros VH VN N1 Z1 J. destruct (lpos_ex_next eq_ci same_but_bit5 w hv nv n hay c z index count ci_decides VH VN N1 Z1 J) as (st & r & E & A & B & K).
  exists st, r. split; [exact E|]. split; [exact A|]. split; [exact B|]. intros L1 L2. specialize (K L1 L2). unfold lpos_result in K.
  destruct (N.ltb_spec (nlen hay) (index + count)); [lia|]. destruct (N.eqb_spec (nlen z) 0); [lia|exact K].
Qed.
Lemma lpos_whole eqc hv nv hay c w : views_next w hv hay c -> slpos eqc hv nv w = slpos_ex eqc hv nv 0 (nlen hay) w.
Proof. intros (S1 & L & _). unfold slpos. rewrite S1, wsub_small by lia. now rewrite N.add_sub. Qed.
Lemma lpos_continued w hv nv y t c : views_next w hv y c -> views_text w nv (nlen y) (y ++ t) -> 1 <= nlen y -> 1 <= nlen t ->
  slpos eq_cs hv nv w = Ok (ST_FALSE, None) w.
Proof.
  intros VH VN LY LT. rewrite (lpos_whole eq_cs hv nv y c w VH). pose proof VH as (_ & LH & _).
  destruct (lpos_cs_next w hv nv (nlen y) y c (y ++ t) 0 (nlen y) VH VN) as (st & r & E & _ & _ & K); [lia|rewrite nlen_app; lia|lia|].
  destruct K as [FO FI]; [lia|lia|]. rewrite E. destruct r as [i|]; [|red in FO; now rewrite FO].
  destruct FI as (_ & X & _). rewrite nlen_app in X. lia.
Qed.
Lemma lpos_embedded w hv nv y t u c : views_next w hv (y ++ u) c -> views_text w nv (nlen (y ++ [0] ++ t)) y ->
  1 <= nlen y -> nlen t + 1 <= nlen u -> slpos eq_cs hv nv w = Ok (ST_TRUE, Some 0) w.
Proof.
  intros VH VN LY LT. rewrite (lpos_whole eq_cs hv nv (y ++ u) c w VH). pose proof VH as (_ & LH & _).
  assert (L : nlen (y ++ [0] ++ t) = nlen y + 1 + nlen t) by (rewrite !nlen_app; change (nlen [0]) with 1; lia).
  assert (L2 : nlen (y ++ u) = nlen y + nlen u) by apply nlen_app.
  destruct (lpos_cs_next w hv nv _ (y ++ u) c y 0 (nlen (y ++ u)) VH VN) as (st & r & E & _ & _ & K); [lia|lia|lia|].
  destruct K as [FO FI]; [lia|lia|]. rewrite E.
  assert (O : occurs eq (y ++ u) y 0).
  { split; [lia|]. replace (nsub 0 (nlen y) (y ++ u)) with y; [clear; induction y; constructor; auto|].
    symmetry. change (y ++ u) with ([] ++ y ++ u). now apply nsub_mid. }
  destruct r as [i|]; [red in FO; subst st|].
  - destruct (N.eq_dec i 0) as [->|]; [reflexivity|]. destruct FI as (_ & _ & _ & X). exfalso. apply (X 0); [lia|exact O].
  - exfalso. apply (FI 0); [lia|lia|exact O].
Qed.
Lemma lpos_cs_end w hv nv n hay z i :
  views_end w hv hay -> views_text w nv n z -> 1 <= n <= nlen hay ->
  i < nlen hay -> nlen hay - i < nlen z -> ends_inside same hay z i -> (forall j, j < i -> ~ occurs eq hay z j) ->
  slpos eq_cs hv nv w = Fault OutOfBounds.
Proof. apply lpos_end. apply cs_decides. Qed.

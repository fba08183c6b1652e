(** Proofs of reproducibility. *)
From Verif Require Import Base NListFacts Status Mem VectorModel VectorSpec VectorDriver StringModel StringSpec StringDriver
  BitsetModel BitsetSpec BitsetDriver BitsetProofs FormatModel FormatSpec FormatDriver FormatDigits ProgSpec ProgProofs VectorExamples ReproSpec.
From Coq Require Import ZifyBool ZifyNat ZifyN.

(** ---- the shape of a vector ---- *)
Definition vshape (s1 s2 : vstate N) : Prop :=
  nlen (s_elems s1) = nlen (s_elems s2) /\ s_cap s1 = s_cap s2 /\ nlen (s_log s1) = nlen (s_log s2).
Lemma nlen_sub_any {A} o n (l : list A) : nlen (nsub o n l) = N.min n (nlen l - o).
Proof. unfold nsub. rewrite nlen_nfirst, nlen_nskip. reflexivity. Qed.
Lemma nlen_destroyed (c : vcfg N) xs ys : nlen xs = nlen ys -> nlen (destroyed c xs) = nlen (destroyed c ys).
Proof. unfold destroyed. destruct (c_dtor c); auto. Qed.
Lemma nlen_map {A B} (f : A -> B) l : nlen (map f l) = nlen l.
Proof. unfold nlen. rewrite map_length. reflexivity. Qed.

Lemma nlen_lset i (x : list N) l : i < nlen l -> nlen (lset i x l) = nlen l.
Proof. intros H. unfold lset. rewrite !nlen_app, nlen_nfirst, nlen_nskip. change (nlen [x]) with 1. lia. Qed.
Lemma nlen_lswap i j (l : list (list N)) : i < nlen l -> j < nlen l -> nlen (lswap i j l) = nlen l.
Proof.
  intros I J. unfold lswap. destruct (nnth i l); [|reflexivity]. destruct (nnth j l); [|reflexivity].
  rewrite nlen_lset; rewrite nlen_lset; auto.
Qed.

Lemma insert_shape c i (xs xs' : list (list N)) s1 s2 r1 s1' r2 s2' :
  vshape s1 s2 -> nlen xs = nlen xs' -> spec_insert c i xs s1 r1 s1' -> spec_insert c i xs' s2 r2 s2' ->
  r1 = r2 /\ vshape s1' s2'.
Proof.
  intros (A1 & A2 & A3) X. unfold spec_insert. rewrite A1, A2, X. destruct (N.ltb_spec (nlen (s_elems s2)) i).
  - intros [-> ->] [-> ->]. repeat split; auto.
  - destruct (regrow _ _ _).
    + intros [-> ->] [-> ->]. unfold vshape. cbn. unfold linsert. rewrite !nlen_app, !nlen_nfirst, !nlen_nskip.
      repeat split; lia.
    + intros [-> ->] [-> ->]. repeat split; auto.
Qed.
Lemma emplace_shape c i ct s1 s2 r1 s1' r2 s2' :
  vshape s1 s2 -> spec_emplace c i ct s1 r1 s1' -> spec_emplace c i ct s2 r2 s2' -> r1 = r2 /\ vshape s1' s2'.
Proof.
  intros S0 (o1 & x1 & _ & _ & _ & H1) (o2 & x2 & _ & _ & _ & H2).
  eapply insert_shape; [exact S0| |exact H1|exact H2]. reflexivity.
Qed.
Lemma delete_shape (c : vcfg N) i n s1 s2 r1 s1' r2 s2' :
  vshape s1 s2 -> spec_delete c i n s1 r1 s1' -> spec_delete c i n s2 r2 s2' -> r1 = r2 /\ vshape s1' s2'.
Proof.
  intros (A1 & A2 & A3). unfold spec_delete. rewrite A1, A2. destruct (n =? 0).
  { intros [-> ->] [-> ->]. repeat split; auto. }
  destruct (N.ltb_spec (nlen (s_elems s2)) (i + n)).
  { intros [-> ->] [-> ->]. repeat split; auto. }
  intros [-> ->] [-> ->]. unfold vshape. cbn. unfold ldelete. rewrite !nlen_app, !nlen_nfirst, !nlen_nskip.
  rewrite (nlen_destroyed c (nsub i n (s_elems s1)) (nsub i n (s_elems s2))) by (rewrite !nlen_sub_any; lia).
  repeat split; lia.
Qed.
Lemma resize_shape (c : vcfg N) n new1 new2 s1 s2 r1 s1' r2 s2' :
  vshape s1 s2 -> nlen new1 = nlen new2 -> spec_resize c n new1 s1 r1 s1' -> spec_resize c n new2 s2 r2 s2' ->
  r1 = r2 /\ vshape s1' s2'.
Proof.
  intros (A1 & A2 & A3) X. unfold spec_resize. rewrite A1, A2. destruct (n =? nlen (s_elems s2)).
  { intros [-> ->] [-> ->]. repeat split; auto. }
  destruct (n <? nlen (s_elems s2)).
  { intros [-> ->] [-> ->]. unfold vshape. cbn. rewrite !nlen_app, !nlen_nfirst.
    rewrite (nlen_destroyed c (nskip n (s_elems s1)) (nskip n (s_elems s2))) by (rewrite !nlen_nskip; lia).
    repeat split; lia. }
  destruct (regrow _ _ _); intros [-> ->] [-> ->]; unfold vshape; cbn; rewrite ?nlen_app; repeat split; lia.
Qed.
Lemma vspec_shape c o s1 s2 r1 s1' r2 s2' :
  vshape s1 s2 -> vspec c o s1 r1 s1' -> vspec c o s2 r2 s2' -> r1 = r2 /\ vshape s1' s2'.
Proof.
  intros SH. pose proof SH as (A1 & A2 & A3). destruct o; cbn [vspec].
  - rewrite A1. apply insert_shape; auto.
  - apply insert_shape; auto.
  - destruct xs; [|apply insert_shape; auto]. intros [-> ->] [-> ->]. split; auto.
  - rewrite A1. apply emplace_shape; auto.
  - apply emplace_shape; auto.
  - destruct (nnth i (s_elems s1)) as [y1|] eqn:E1, (nnth i (s_elems s2)) as [y2|] eqn:E2.
    + intros [-> ->] [-> ->]. apply nnth_lt in E1, E2. split; [reflexivity|]. unfold vshape. cbn.
      rewrite !nlen_lset, !nlen_app by assumption. rewrite (nlen_destroyed c [y1] [y2]) by reflexivity. repeat split; lia.
    + apply nnth_lt in E1. destruct (nnth_exists i (s_elems s2)); [lia|congruence].
    + apply nnth_lt in E2. destruct (nnth_exists i (s_elems s1)); [lia|congruence].
    + intros [-> ->] [-> ->]. split; auto.
  - rewrite A1, A2. destruct (_ || _) eqn:B.
    { intros [-> ->] [-> ->]. split; auto. }
    destruct (_ =? _).
    { intros [-> ->] [-> ->]. split; auto. }
    intros [-> ->] [-> ->]. split; [reflexivity|]. unfold vshape. cbn.
    rewrite !nlen_lswap by lia. repeat split; lia.
  - apply delete_shape; auto.
  - apply delete_shape; auto.
  - rewrite A1. destruct (_ =? 0); [intros [-> ->] [-> ->]; split; auto|]. apply delete_shape; auto.
  - apply resize_shape; auto.
  - intros (n1 & L1 & _ & H1) (n2 & L2 & _ & H2). eapply resize_shape; [exact SH| |exact H1|exact H2]. lia.
  - apply resize_shape; auto. rewrite !nlen_repeat. lia.
  - rewrite A2. destruct (_ <=? _); [intros [-> ->] [-> ->]; split; auto|].
    destruct (c_fixed c); intros [-> ->] [-> ->]; (split; [reflexivity|]); auto. unfold vshape. cbn. auto.
  - destruct (c_fixed c); intros [-> ->] [-> ->]; (split; [reflexivity|]); auto. unfold vshape. cbn. rewrite A1. auto.
Qed.

(** ---- the shape of a string ---- *)
Lemma become_shape new1 new2 cs1 cs2 r1 c1 r2 c2 : nlen new1 = nlen new2 ->
  become None new1 cs1 r1 c1 -> become None new2 cs2 r2 c2 -> r1 = r2 /\ nlen c1 = nlen c2.
Proof. intros H. unfold become. cbn. intros [-> ->] [-> ->]. auto. Qed.
Lemma append_shape x1 x2 j n cs1 cs2 r1 c1 r2 c2 : nlen cs1 = nlen cs2 -> nlen x1 = nlen x2 ->
  sspec_append None x1 j n cs1 r1 c1 -> sspec_append None x2 j n cs2 r2 c2 -> r1 = r2 /\ nlen c1 = nlen c2.
Proof.
  intros A X. unfold sspec_append, refuse. rewrite X. destruct (_ <? _); [intros [-> ->] [-> ->]; auto|].
  apply become_shape. rewrite !nlen_app, !nlen_sub_any. lia.
Qed.
Lemma sinsert_shape i x1 x2 j n cs1 cs2 r1 c1 r2 c2 : nlen cs1 = nlen cs2 -> nlen x1 = nlen x2 ->
  sspec_insert None i x1 j n cs1 r1 c1 -> sspec_insert None i x2 j n cs2 r2 c2 -> r1 = r2 /\ nlen c1 = nlen c2.
Proof.
  intros A X. unfold sspec_insert, refuse. rewrite A, X. destruct (_ =? _); [apply append_shape; auto|].
  destruct (_ <? i); [intros [-> ->] [-> ->]; auto|].
  destruct (_ <? _); [intros [-> ->] [-> ->]; auto|].
  destruct (n =? 0); [intros [-> ->] [-> ->]; auto|].
  apply become_shape. rewrite !nlen_app, !nlen_sub_any, !nlen_nfirst, !nlen_nskip. lia.
Qed.
Lemma sdelete_shape i n cs1 cs2 r1 c1 r2 c2 : nlen cs1 = nlen cs2 ->
  sspec_delete i n cs1 r1 c1 -> sspec_delete i n cs2 r2 c2 -> r1 = r2 /\ nlen c1 = nlen c2.
Proof.
  intros A. unfold sspec_delete, refuse. rewrite A.
  destruct (_ <? _); [intros [-> ->] [-> ->]; auto|].
  destruct (n =? 0); intros [-> ->] [-> ->]; auto.
  rewrite !nlen_app, !nlen_nfirst, !nlen_nskip. split; auto; lia.
Qed.
Lemma scase_shape f i n cs1 cs2 r1 c1 r2 c2 : nlen cs1 = nlen cs2 ->
  sspec_case f i n cs1 r1 c1 -> sspec_case f i n cs2 r2 c2 -> r1 = r2 /\ nlen c1 = nlen c2.
Proof.
  intros A. unfold sspec_case, refuse, map_range. rewrite A.
  destruct (_ <? _); intros [-> ->] [-> ->]; auto.
  rewrite !nlen_app, !nlen_map, !nlen_sub_any, !nlen_nfirst, !nlen_nskip. split; auto; lia.
Qed.
Lemma sspec_shape o cs1 cs2 r1 c1 r2 c2 : nlen cs1 = nlen cs2 ->
  sspec None o cs1 r1 c1 -> sspec None o cs2 r2 c2 -> r1 = r2 /\ nlen c1 = nlen c2.
Proof.
  intros A. destruct o; cbn [sspec].
  - apply become_shape. rewrite !nlen_app. lia.
  - apply append_shape; auto.
  - apply sinsert_shape; auto.
  - apply sinsert_shape; auto.
  - apply sdelete_shape; auto.
  - unfold refuse. rewrite A. destruct (_ <? _); [intros [-> ->] [-> ->]; auto|]. apply sdelete_shape; auto.
  - intros [-> ->] [-> ->]; auto.
  - rewrite A. destruct (_ <=? _).
    + intros [-> ->] [-> ->]. rewrite !nlen_nfirst. split; auto; lia.
    + intros (n1 & L1 & H1) (n2 & L2 & H2). eapply become_shape; [|exact H1|exact H2]. rewrite !nlen_app. lia.
  - unfold refuse. rewrite A. destruct (N.leb_spec (nlen cs2) i); intros [-> ->] [-> ->]; auto.
    rewrite !nlen_app, !nlen_nfirst, !nlen_nskip. split; auto; lia.
  - intros [-> ->] [-> ->]; rewrite !nlen_map; auto.
  - apply scase_shape; auto.
  - intros [-> ->] [-> ->]; rewrite !nlen_map; auto.
  - apply scase_shape; auto.
  - unfold refuse. intros [-> ->] [-> ->]; auto.
  - unfold refuse. intros [-> ->] [-> ->]; auto.
Qed.

Lemma parts_all parts : forall cs r c, append_parts None parts cs r c -> r = ST_SUCCESS /\ c = cs ++ concat parts.
Proof.
  induction parts as [|p parts IH]; intros cs r c; cbn [append_parts concat holds_chars].
  - intros [-> ->]. now rewrite app_nil_r.
  - intros H. apply IH in H as [-> ->]. now rewrite app_assoc.
Qed.
(** A number appends the same characters, whatever the string. *)
Lemma fspec_adds o cs1 r1 c1 cs2 r2 c2 : fspec None o cs1 r1 c1 -> fspec None o cs2 r2 c2 ->
  match o with FStr _ => True | _ => exists x, r1 = ST_SUCCESS /\ r2 = ST_SUCCESS /\ c1 = cs1 ++ x /\ c2 = cs2 ++ x end.
Proof.
  destruct o; cbn [fspec]; intros H1 H2; [exact I|..]; destruct H1 as (d1 & N1 & H1), H2 as (d2 & N2 & H2);
    assert (d2 = d1) as -> by (eapply numeral_unique; [|eassumption|eassumption]; lia).
  - destruct H1 as [-> ->], H2 as [-> ->]. eauto.
  - destruct H1 as [-> ->], H2 as [-> ->]. eauto.
  - apply parts_all in H1 as [-> ->], H2 as [-> ->]. eauto.
  - apply parts_all in H1 as [-> ->], H2 as [-> ->]. eauto.
Qed.
Lemma fspec_shape o cs1 cs2 r1 c1 r2 c2 : nlen cs1 = nlen cs2 ->
  fspec None o cs1 r1 c1 -> fspec None o cs2 r2 c2 -> r1 = r2 /\ nlen c1 = nlen c2.
Proof.
  intros A H1 H2. pose proof (fspec_adds _ _ _ _ _ _ _ H1 H2) as F. destruct o as [o|v p|v p u|v p f q|v p u f q]; [eapply sspec_shape; eauto|..];
    destruct F as (x & -> & -> & -> & ->); (split; [reflexivity|]); rewrite !nlen_app; lia.
Qed.

(** ---- the shape of a bitset ---- *)
Lemma bitstep_shape o bs1 bs2 : nlen bs1 = nlen bs2 ->
  fst (bitstep None o bs1) = fst (bitstep None o bs2) /\ nlen (snd (bitstep None o bs1)) = nlen (snd (bitstep None o bs2)).
Proof.
  intros A.
  assert (CH : forall f i, fst (change_bit f i bs1) = fst (change_bit f i bs2) /\
     nlen (snd (change_bit f i bs1)) = nlen (snd (change_bit f i bs2))).
  { intros f i. unfold change_bit. rewrite A. destruct (_ <=? _); cbn; auto.
    unfold put_bit. rewrite !nlen_app, !nlen_map, !nlen_sub_any, !nlen_nfirst, !nlen_nskip. split; auto; lia. }
  destruct o; cbn [bitstep]; try apply CH; cbn [fst snd]; rewrite ?nlen_map; auto.
  - rewrite A. destruct (holds_bits _ _); cbn [fst snd]; (split; [reflexivity|]); rewrite ?nlen_app; lia.
  - rewrite A. destruct (_ =? _); cbn [fst snd]; (split; [reflexivity|]); rewrite ?nlen_nfirst; lia.
Qed.

(** ---- programs ---- *)
Lemma Forall2_len {A B} (R : A -> B -> Prop) l1 l2 : Forall2 R l1 l2 -> length l1 = length l2.
Proof. induction 1; cbn; congruence. Qed.
Lemma shape_at K1 K2 i k1 k2 : Forall2 same_shape K1 K2 -> holds K1 i k1 -> holds K2 i k2 -> same_shape (Some k1) (Some k2).
Proof.
  intros F H1 H2. unfold holds in *. apply nnth_some in H1. destruct H1 as (a & c & -> & L).
  apply Forall2_app_inv_l in F. destruct F as (a2 & c2 & F1 & F2 & ->). inversion F2; subst.
  assert (nlen a2 = nlen a). { unfold nlen. apply Forall2_len in F1. congruence. }
  rewrite nnth_mid in H2 by assumption. injection H2 as ->. assumption.
Qed.
Lemma Forall2_firstn {A} (R : A -> A -> Prop) : forall n l1 l2, Forall2 R l1 l2 -> Forall2 R (firstn n l1) (firstn n l2).
Proof. induction n; intros l1 l2 F; [constructor|]. inversion F; subst; cbn; constructor; auto. Qed.
Lemma Forall2_skipn {A} (R : A -> A -> Prop) : forall n l1 l2, Forall2 R l1 l2 -> Forall2 R (skipn n l1) (skipn n l2).
Proof. induction n; intros l1 l2 F; [exact F|]. inversion F; subst; cbn; [constructor|]; auto. Qed.
Lemma shape_put K1 K2 i x1 x2 : Forall2 same_shape K1 K2 -> same_shape x1 x2 ->
  Forall2 same_shape (put i x1 K1) (put i x2 K2).
Proof.
  intros F X. unfold put. apply Forall2_app; [apply Forall2_firstn; exact F|].
  constructor; [exact X|]. apply Forall2_skipn. exact F.
Qed.
Lemma shape_add K1 K2 x1 x2 : Forall2 same_shape K1 K2 -> same_shape x1 x2 -> Forall2 same_shape (K1 ++ [x1]) (K2 ++ [x2]).
Proof. intros F X. apply Forall2_app; auto. Qed.

Lemma pspec_shape p K1 K2 l1 l2 r1 K1' l1' r2 K2' l2' :
  Forall2 same_shape K1 K2 -> nlen l1 = nlen l2 -> pspec p K1 l1 r1 K1' l1' -> pspec p K2 l2 r2 K2' l2' ->
  r1 = r2 /\ Forall2 same_shape K1' K2' /\ nlen l1' = nlen l2'.
Proof.
  intros F L. destruct p; cbn [pspec].
  - intros (-> & -> & ->) (-> & -> & ->). split; [reflexivity|]. split; [|exact L]. apply shape_add; [exact F|].
    repeat split.
  - intros (-> & -> & ->) (-> & -> & ->). split; [reflexivity|]. split; [|exact L]. apply shape_add; [exact F|]. reflexivity.
  - intros (-> & -> & ->) (-> & -> & ->). split; [reflexivity|]. split; [|exact L]. apply shape_add; [exact F|]. reflexivity.
  - intros (c & xs & cap & xs' & cap' & H1 & S1 & ->) (d & ys & cap2 & ys' & cap2' & H2 & S2 & ->).
    destruct (shape_at _ _ _ _ _ F H1 H2) as (<- & E & <-).
    destruct (vspec_shape _ _ _ _ _ _ _ _ (conj E (conj eq_refl L) : vshape (mkst xs cap l1) (mkst ys cap l2)) S1 S2)
      as (-> & A1 & A2 & A3).
    split; [reflexivity|]. split; [apply shape_put; [exact F|]; repeat split; assumption|exact A3].
  - intros (cs & cs' & H1 & S1 & -> & ->) (ds & ds' & H2 & S2 & -> & ->).
    destruct (sspec_shape _ _ _ _ _ _ _ (shape_at _ _ _ _ _ F H1 H2) S1 S2) as (-> & E).
    split; [reflexivity|]. split; [apply shape_put; [exact F|exact E]|exact L].
  - intros (bs & H1 & -> & -> & ->) (ds & H2 & -> & -> & ->).
    destruct (bitstep_shape o _ _ (shape_at _ _ _ _ _ F H1 H2)) as (-> & E).
    split; [reflexivity|]. split; [apply shape_put; [exact F|exact E]|exact L].
  - intros (c & xs & cap & c2 & ys & cap2 & y & xs' & cap' & H1 & J1 & N1 & S1 & ->)
      (d & xs2 & dap & d2 & ys2 & dap2 & y2 & xs2' & dap' & H2 & J2 & N2 & S2 & ->).
    destruct (shape_at _ _ _ _ _ F H1 H2) as (<- & E & <-). cbn [vspec] in S1, S2.
    cbn [s_elems] in S1, S2. rewrite E in S1.
    destruct (insert_shape _ _ [y] [y2] _ _ _ _ _ _ (conj E (conj eq_refl L) : vshape (mkst xs cap l1) (mkst xs2 cap l2)) eq_refl S1 S2)
      as (-> & A1 & A2 & A3).
    split; [reflexivity|]. split; [apply shape_put; [exact F|]; repeat split; assumption|exact A3].
  - intros (cs & x & cs' & H1 & J1 & S1 & -> & ->) (ds & x2 & ds' & H2 & J2 & S2 & -> & ->).
    pose proof (shape_at _ _ _ _ _ F H1 H2) as E1. pose proof (shape_at _ _ _ _ _ F J1 J2) as E2. cbn in E1, E2.
    cbn [sspec] in S1, S2.
    destruct (become_shape (cs ++ x) (ds ++ x2) cs ds r1 cs' r2 ds') as (-> & E); auto.
    { rewrite !nlen_app. lia. }
    split; [reflexivity|]. split; [apply shape_put; [exact F|exact E]|exact L].
  - intros (cs & x & cs' & H1 & J1 & S1 & -> & ->) (ds & x2 & ds' & H2 & J2 & S2 & -> & ->).
    pose proof (shape_at _ _ _ _ _ F H1 H2) as E1. pose proof (shape_at _ _ _ _ _ F J1 J2) as E2. cbn in E1, E2.
    cbn [sspec] in S1, S2. rewrite E2 in S1.
    destruct (sinsert_shape _ _ _ _ _ _ _ _ _ _ _ E1 E2 S1 S2) as (-> & E).
    split; [reflexivity|]. split; [apply shape_put; [exact F|exact E]|exact L].
  - intros (xs & ys & zs & H1 & J1 & C1 & -> & -> & ->) (xs2 & ys2 & zs2 & H2 & J2 & C2 & -> & -> & ->).
    pose proof (shape_at _ _ _ _ _ F H1 H2) as E1. cbn in E1. apply proj1 in C1, C2.
    split; [reflexivity|]. split; [apply shape_put; [exact F|]; cbn; lia|exact L].
  - intros (c & xs & cap0 & H1 & -> & -> & ->) (d & ys & cap1 & H2 & -> & -> & ->).
    destruct (shape_at _ _ _ _ _ F H1 H2) as (<- & E & <-). split; [reflexivity|]. split; [|exact L].
    apply shape_add; [exact F|]. cbn [same_shape]. rewrite E. repeat split.
  - intros (cs & H1 & -> & -> & ->) (ds & H2 & -> & -> & ->). pose proof (shape_at _ _ _ _ _ F H1 H2) as E.
    split; [reflexivity|]. split; [|exact L]. apply shape_add; [exact F|exact E].
  - intros (x & y & H1 & J1 & -> & -> & ->) (x2 & y2 & H2 & J2 & -> & -> & ->).
    pose proof (shape_at _ _ _ _ _ F H1 H2) as E1. pose proof (shape_at _ _ _ _ _ F J1 J2) as E2. cbn in E1, E2.
    split; [reflexivity|]. split; [|exact L]. apply shape_add; [exact F|]. cbn. rewrite !nlen_app. lia.
  - intros (cs & cs' & H1 & S1 & -> & ->) (ds & ds' & H2 & S2 & -> & ->).
    destruct (fspec_shape _ _ _ _ _ _ _ (shape_at _ _ _ _ _ F H1 H2) S1 S2) as (-> & E).
    split; [reflexivity|]. split; [apply shape_put; [exact F|exact E]|exact L].
  - intros (k1 & H1 & -> & -> & ->) (k2 & H2 & -> & -> & ->).
    pose proof (shape_at _ _ _ _ _ F H1 H2) as E.
    split; [reflexivity|]. split; [apply shape_put; [exact F|exact I]|]. rewrite !nlen_app.
    destruct k1, k2; cbn in E; try contradiction; cbn; try lia.
    destruct E as (<- & E & _). rewrite (nlen_destroyed c xs xs0) by exact E. lia.
Qed.
Lemma pspecs_shape ps : forall K1 K2 l1 l2 rs1 K1' l1' rs2 K2' l2',
  Forall2 same_shape K1 K2 -> nlen l1 = nlen l2 -> pspecs ps K1 l1 rs1 K1' l1' -> pspecs ps K2 l2 rs2 K2' l2' ->
  rs1 = rs2 /\ Forall2 same_shape K1' K2' /\ nlen l1' = nlen l2'.
Proof.
  induction ps as [|p ps IH]; intros K1 K2 l1 l2 rs1 K1' l1' rs2 K2' l2' F L H1 H2.
  - inversion H1; inversion H2; subst. auto.
  - inversion H1; inversion H2; subst.
    match goal with A : pspec p K1 _ _ _ _, B : pspec p K2 _ _ _ _ |- _ => destruct (pspec_shape _ _ _ _ _ _ _ _ _ _ _ F L A B) as (-> & F' & L') end.
    match goal with A : pspecs ps _ _ _ K1' _, B : pspecs ps _ _ _ K2' _ |- _ => destruct (IH _ _ _ _ _ _ _ _ _ _ F' L' A B) as (-> & X) end.
    auto.
Qed.

(** ---- determinism ---- *)
Lemma insert_det (c : vcfg N) i x s r1 s1 r2 s2 : spec_insert c i x s r1 s1 -> spec_insert c i x s r2 s2 -> r1 = r2 /\ s1 = s2.
Proof.
  unfold spec_insert. destruct (_ <? _); [intros [-> ->] [-> ->]; auto|]. destruct (regrow _ _ _); intros [-> ->] [-> ->]; auto.
Qed.
Lemma emplace_det (c : vcfg N) i f s r1 s1 r2 s2 : fresh_ctor (c_esz c) f ->
  spec_emplace c i (Some f) s r1 s1 -> spec_emplace c i (Some f) s r2 s2 -> r1 = r2 /\ s1 = s2.
Proof.
  intros FC (o1 & x1 & L1 & _ & (k1 & E1) & H1) (o2 & x2 & L2 & _ & (k2 & E2) & H2).
  pose proof (FC o1 o2 L1 L2) as E. rewrite E1, E2 in E. cbn in E. subst x2. eapply insert_det; eauto.
Qed.
Lemma delete_det (c : vcfg N) i n s r1 s1 r2 s2 : spec_delete c i n s r1 s1 -> spec_delete c i n s r2 s2 -> r1 = r2 /\ s1 = s2.
Proof.
  unfold spec_delete. destruct (n =? 0); [intros [-> ->] [-> ->]; auto|]. destruct (_ <? _); intros [-> ->] [-> ->]; auto.
Qed.
Lemma resize_det (c : vcfg N) n new s r1 s1 r2 s2 : spec_resize c n new s r1 s1 -> spec_resize c n new s r2 s2 -> r1 = r2 /\ s1 = s2.
Proof.
  unfold spec_resize. destruct (n =? _); [intros [-> ->] [-> ->]; auto|].
  destruct (n <? _); [intros [-> ->] [-> ->]; auto|]. destruct (regrow _ _ _); intros [-> ->] [-> ->]; auto.
Qed.
Lemma vspec_det (c : vcfg N) o s r1 s1 r2 s2 :
  match o with
  | OEmplace ct | OEmplaceEx _ ct => exists f, ct = Some f /\ fresh_ctor (c_esz c) f
  | OResize n => n <= nlen (s_elems s)
  | _ => True
  end -> vspec c o s r1 s1 -> vspec c o s r2 s2 -> r1 = r2 /\ s1 = s2.
Proof.
  destruct o; cbn [vspec]; intros D.
  - apply insert_det.
  - apply insert_det.
  - destruct xs; [|apply insert_det]. intros [-> ->] [-> ->]; auto.
  - destruct D as (f & -> & D). apply emplace_det; auto.
  - destruct D as (f & -> & D). apply emplace_det; auto.
  - destruct (nnth i (s_elems s)); intros [-> ->] [-> ->]; auto.
  - destruct (_ || _); [intros [-> ->] [-> ->]; auto|]. destruct (_ =? _); intros [-> ->] [-> ->]; auto.
  - apply delete_det.
  - apply delete_det.
  - destruct (_ =? _); [intros [-> ->] [-> ->]; auto|]. apply delete_det.
  - apply resize_det.
  - intros (n1 & L1 & _ & H1) (n2 & L2 & _ & H2). rewrite (nlen_0 n1) in H1 by lia. rewrite (nlen_0 n2) in H2 by lia.
    eapply resize_det; eauto.
  - apply resize_det.
  - destruct (_ <=? _); [intros [-> ->] [-> ->]; auto|]. destruct (c_fixed c); intros [-> ->] [-> ->]; auto.
  - intros [-> ->] [-> ->]; auto.
Qed.
Lemma sspec_det o cs r1 c1 r2 c2 : match o with SResize n => n <= nlen cs | _ => True end ->
  sspec None o cs r1 c1 -> sspec None o cs r2 c2 -> r1 = r2 /\ c1 = c2.
Proof.
  assert (BD : forall new cs r1 c1 r2 c2, become None new cs r1 c1 -> become None new cs r2 c2 -> r1 = r2 /\ c1 = c2).
  { unfold become. cbn. intros new cs0 q1 d1 q2 d2 [-> ->] [-> ->]. auto. }
  assert (AD : forall x j n cs r1 c1 r2 c2, sspec_append None x j n cs r1 c1 -> sspec_append None x j n cs r2 c2 -> r1 = r2 /\ c1 = c2).
  { unfold sspec_append, refuse. intros *. destruct (_ <? _); [intros [-> ->] [-> ->]; auto|apply BD]. }
  assert (ND : forall i x j n cs r1 c1 r2 c2, sspec_insert None i x j n cs r1 c1 -> sspec_insert None i x j n cs r2 c2 -> r1 = r2 /\ c1 = c2).
  { unfold sspec_insert, refuse. intros *. destruct (_ =? _); [apply AD|].
    destruct (_ <? i); [intros [-> ->] [-> ->]; auto|].
    destruct (_ <? _); [intros [-> ->] [-> ->]; auto|].
    destruct (n =? 0); [intros [-> ->] [-> ->]; auto|]. apply BD. }
  assert (DD : forall i n cs r1 c1 r2 c2, sspec_delete i n cs r1 c1 -> sspec_delete i n cs r2 c2 -> r1 = r2 /\ c1 = c2).
  { unfold sspec_delete, refuse. intros *.
    destruct (_ <? _); [intros [-> ->] [-> ->]; auto|].
    destruct (n =? 0); intros [-> ->] [-> ->]; auto. }
  assert (CD : forall f i n cs r1 c1 r2 c2, sspec_case f i n cs r1 c1 -> sspec_case f i n cs r2 c2 -> r1 = r2 /\ c1 = c2).
  { unfold sspec_case, refuse. intros *. destruct (_ <? _); intros [-> ->] [-> ->]; auto. }
  destruct o; cbn [sspec]; unfold refuse; intros D.
  - apply BD.
  - apply AD.
  - apply ND.
  - apply ND.
  - apply DD.
  - destruct (_ <? _); [intros [-> ->] [-> ->]; auto|apply DD].
  - intros [-> ->] [-> ->]; auto.
  - destruct (N.leb_spec n (nlen cs)); [|lia]. intros [-> ->] [-> ->]; auto.
  - destruct (_ <=? _); intros [-> ->] [-> ->]; auto.
  - intros [-> ->] [-> ->]; auto.
  - apply CD.
  - intros [-> ->] [-> ->]; auto.
  - apply CD.
  - intros [-> ->] [-> ->]; auto.
  - intros [-> ->] [-> ->]; auto.
Qed.
Lemma combined_det f xs ys zs1 zs2 : nlen ys mod 8 = 0 \/ nlen xs <= nlen ys ->
  combined f xs ys zs1 -> combined f xs ys zs2 -> zs1 = zs2.
Proof.
  intros D (L1 & A1 & B1) (L2 & A2 & B2). apply bits_ext; [congruence|]. intros i Hi.
  destruct (N.lt_ge_cases i (nlen ys)).
  - destruct (nnth_exists i xs) as [x X]; [lia|]. destruct (nnth_exists i ys) as [y Y]; [lia|].
    rewrite (A1 i x y X Y), (A2 i x y X Y). reflexivity.
  - rewrite B1, B2; auto; lia.
Qed.
Lemma holds_inj K i k1 k2 : holds K i k1 -> holds K i k2 -> k1 = k2.
Proof. unfold holds. congruence. Qed.
Lemma pspec_det p K l r1 K1 l1 r2 K2 l2 : determined p K ->
  pspec p K l r1 K1 l1 -> pspec p K l r2 K2 l2 -> r1 = r2 /\ K1 = K2 /\ l1 = l2.
Proof.
  destruct p; cbn [pspec]; intros D.
  - intros (-> & -> & ->) (-> & -> & ->). auto.
  - intros (-> & -> & ->) (-> & -> & ->). auto.
  - intros (-> & -> & ->) (-> & -> & ->). auto.
  - intros (c & xs & cap & xs' & cap' & H1 & S1 & ->) (d & ys & cap2 & ys' & cap2' & H2 & S2 & ->). injection (holds_inj _ _ _ _ H1 H2) as <- <- <-.
    destruct (vspec_det c o (mkst xs cap l) r1 (mkst xs' cap' l1) r2 (mkst ys' cap2' l2)) as (-> & E); auto.
    + destruct o; cbn [determined] in D; auto.
      * apply (D _ _ _ H1).
      * apply (D _ _ _ H1).
      * cbn. apply (D _ _ _ H1).
    + injection E as -> -> ->. auto.
  - intros (cs & cs' & H1 & S1 & -> & ->) (ds & ds' & H2 & S2 & -> & ->). injection (holds_inj _ _ _ _ H1 H2) as <-.
    destruct (sspec_det o cs r1 cs' r2 ds') as (-> & ->); auto.
    destruct o; auto.
  - intros (bs & H1 & -> & -> & ->) (ds & H2 & -> & -> & ->). injection (holds_inj _ _ _ _ H1 H2) as <-. auto.
  - intros (c & xs & cap & c2 & ys & cap2 & y & xs' & cap' & H1 & J1 & N1 & S1 & ->)
      (d & xs2 & dap & d2 & ys2 & dap2 & y2 & xs2' & dap' & H2 & J2 & N2 & S2 & ->). injection (holds_inj _ _ _ _ H1 H2) as <- <- <-. injection (holds_inj _ _ _ _ J1 J2) as <- <- <-.
    assert (y2 = y) as -> by congruence.
    destruct (vspec_det _ (OPushBack y) _ _ _ _ _ I S1 S2) as (-> & E). injection E as -> -> ->. auto.
  - intros (cs & x & cs' & H1 & J1 & S1 & -> & ->) (ds & x2 & ds' & H2 & J2 & S2 & -> & ->). injection (holds_inj _ _ _ _ H1 H2) as <-. injection (holds_inj _ _ _ _ J1 J2) as <-.
    destruct (sspec_det (SAppend x) _ _ _ _ _ I S1 S2) as (-> & ->). auto.
  - intros (cs & x & cs' & H1 & J1 & S1 & -> & ->) (ds & x2 & ds' & H2 & J2 & S2 & -> & ->). injection (holds_inj _ _ _ _ H1 H2) as <-. injection (holds_inj _ _ _ _ J1 J2) as <-.
    destruct (sspec_det (SInsert k x) _ _ _ _ _ I S1 S2) as (-> & ->). auto.
  - intros (xs & ys & zs & H1 & J1 & C1 & -> & -> & ->) (xs2 & ys2 & zs2 & H2 & J2 & C2 & -> & -> & ->). injection (holds_inj _ _ _ _ H1 H2) as <-. injection (holds_inj _ _ _ _ J1 J2) as <-.
    rewrite (combined_det _ _ _ _ _ (D _ _ H1 J1) C1 C2). auto.
  - intros (c & xs & cap0 & H1 & -> & -> & ->) (d & ys & cap1 & H2 & -> & -> & ->).
    injection (holds_inj _ _ _ _ H1 H2) as <- <- <-. auto.
  - intros (cs & H1 & -> & -> & ->) (ds & H2 & -> & -> & ->). injection (holds_inj _ _ _ _ H1 H2) as <-. auto.
  - intros (x & y & H1 & J1 & -> & -> & ->) (x2 & y2 & H2 & J2 & -> & -> & ->).
    injection (holds_inj _ _ _ _ H1 H2) as <-. injection (holds_inj _ _ _ _ J1 J2) as <-. auto.
  - intros (cs & cs' & H1 & S1 & -> & ->) (ds & ds' & H2 & S2 & -> & ->). injection (holds_inj _ _ _ _ H1 H2) as <-.
    pose proof (fspec_adds _ _ _ _ _ _ _ S1 S2) as A. destruct o as [o|v q|v q u|v q f x|v q u f x];
      [|destruct A as (z & -> & -> & -> & ->); auto..].
    destruct (sspec_det o cs r1 cs' r2 ds') as (-> & ->); auto. destruct o; auto.
  - intros (k1 & H1 & -> & -> & ->) (k2 & H2 & -> & -> & ->).
    pose proof (holds_inj _ _ _ _ H1 H2). subst. auto.
Qed.
Lemma pspecs_det ps : forall K l rs1 K1 l1 rs2 K2 l2, determineds ps K l ->
  pspecs ps K l rs1 K1 l1 -> pspecs ps K l rs2 K2 l2 -> rs1 = rs2 /\ K1 = K2 /\ l1 = l2.
Proof.
  induction ps as [|p ps IH]; intros K l rs1 K1 l1 rs2 K2 l2 D H1 H2.
  - inversion H1; inversion H2; subst. auto.
  - destruct D as [D DS]. inversion H1 as [|? ? ? ? ? ? ? ? ? ? A1 B1]; inversion H2 as [|? ? ? ? ? ? ? ? ? ? A2 B2]; subst.
    destruct (pspec_det _ _ _ _ _ _ _ _ _ D A1 A2) as (-> & -> & ->).
    destruct (IH _ _ _ _ _ _ _ _ (DS _ _ _ A2) B1 B2) as (-> & X). auto.
Qed.

Lemma same_results (w1 w2 : world) ps :
  world_ok w1 -> allocator_ok w1 -> world_ok w2 -> allocator_ok w2 -> dlog w1 = dlog w2 ->
  plegals ps [] (dlog w1) -> determineds ps [] (dlog w1) ->
  exists rs K os1 os2 w1' w2', run_prog [] ps w1 = Ok (rs, os1) w1' /\ run_prog [] ps w2 = Ok (rs, os2) w2' /\
    Forall2 (obj_shows w1') os1 K /\ Forall2 (obj_shows w2') os2 K /\ dlog w1' = dlog w2'.
Proof.
  intros W1 A1 W2 A2 DL LG DT.
  destruct (program_ok w1 ps W1 A1 LG) as (rs1 & os1 & w1' & K1 & E1 & S1 & O1 & _).
  rewrite DL in LG. destruct (program_ok w2 ps W2 A2 LG) as (rs2 & os2 & w2' & K2 & E2 & S2 & O2 & _).
  rewrite <- DL in S2. destruct (pspecs_det _ _ _ _ _ _ _ _ _ DT S1 S2) as (-> & -> & L).
  exists rs2, K2, os1, os2, w1', w2'. auto 10.
Qed.
Lemma same_statuses (w1 w2 : world) ps :
  world_ok w1 -> allocator_ok w1 -> world_ok w2 -> allocator_ok w2 -> dlog w1 = dlog w2 ->
  plegals ps [] (dlog w1) ->
  exists rs K1 K2 os1 os2 w1' w2', run_prog [] ps w1 = Ok (rs, os1) w1' /\ run_prog [] ps w2 = Ok (rs, os2) w2' /\
    Forall2 (obj_shows w1') os1 K1 /\ Forall2 (obj_shows w2') os2 K2 /\ Forall2 same_shape K1 K2 /\
    nlen (dlog w1') = nlen (dlog w2').
Proof.
  intros W1 A1 W2 A2 DL LG.
  destruct (program_ok w1 ps W1 A1 LG) as (rs1 & os1 & w1' & K1 & E1 & S1 & O1 & _).
  rewrite DL in LG. destruct (program_ok w2 ps W2 A2 LG) as (rs2 & os2 & w2' & K2 & E2 & S2 & O2 & _).
  rewrite DL in S1.
  destruct (pspecs_shape _ _ _ _ _ _ _ _ _ _ _ (Forall2_nil _) eq_refl S1 S2) as (-> & F & L).
  exists rs2, K1, K2, os1, os2, w1', w2'. auto 10.
Qed.

Lemma settled_next p ps K log r K' log' : plegal p K -> determined p K -> pspec p K log r K' log' ->
  plegals ps K' log' /\ determineds ps K' log' -> plegals (p :: ps) K log /\ determineds (p :: ps) K log.
Proof.
  intros L D P [LS DS]. split; (split; [assumption|]); intros r2 K2 log2 P2;
    destruct (pspec_det _ _ _ _ _ _ _ _ _ D P P2) as (<- & <- & <-); assumption.
Qed.
Lemma settled_program_ok : plegals settled_program [] [] /\ determineds settled_program [] [].
Proof.
  unfold settled_program.
  eapply settled_next; [vm_compute; repeat split; congruence|exact I|repeat split|].
  eapply settled_next; [vm_compute; repeat split; congruence|exact I|repeat split|]. cbn [app].
  eapply settled_next; [eexists; split; [reflexivity|split; [exact I|reflexivity]]|exact I|
    eexists; split; [reflexivity|repeat split]|].
  match goal with |- plegals _ ?K _ /\ _ => let K' := eval vm_compute in K in change K with K' end.
  eapply settled_next; [split; [discriminate|]; eexists _, _; split; reflexivity|
    intros xs ys _ H; injection H as <-; left; reflexivity|
    eexists _, _, [false;false;false;true;false;false;false;false]; split; [reflexivity|]; split; [reflexivity|]; split; [|repeat split]|].
  { split; [reflexivity|]. split.
    - intros i x y X Y. pose proof (nnth_lt _ _ _ X) as L.
      match type of L with _ < ?n => change n with 8 in L end.
      assert (i = 0 \/ i = 1 \/ i = 2 \/ i = 3 \/ i = 4 \/ i = 5 \/ i = 6 \/ i = 7) as D by lia.
      destruct D as [->|[->|[->|[->|[->|[->|[->| ->]]]]]]]; injection X as <-; injection Y as <-; reflexivity.
    - intros i L. match type of L with ?n <= _ => change n with 8 in L end. rewrite !nnth_ge by exact L. reflexivity. }
  match goal with |- plegals _ ?K _ /\ _ => let K' := eval vm_compute in K in change K with K' end.
  eapply settled_next; [repeat split; try lia|exact I|repeat split|]. cbn [app].
  eapply settled_next.
  { eexists _, _, _. split; [reflexivity|]. split; [|reflexivity]. cbn [arg_ok c_esz]. unfold fives. intros old L. auto. }
  { intros cf xs cap H. injection H as <- <- <-. exists fives. split; [reflexivity|]. intros a b _ _. reflexivity. }
  { eexists _, _, _, _, _. split; [reflexivity|]. split; [|reflexivity]. exists [0;0], [5;5].
    split; [reflexivity|]. split; [reflexivity|]. split; [exists ST_SUCCESS; reflexivity|]. vm_compute. split; reflexivity. }
  match goal with |- plegals _ ?K _ /\ _ => let K' := eval vm_compute in K in change K with K' end.
  eapply settled_next; [eexists _, _, _; split; [reflexivity|split; [reflexivity|reflexivity]]|exact I|
    eexists _, _, _, _, _; split; [reflexivity|split; [vm_compute; split; reflexivity|reflexivity]]|].
  match goal with |- plegals _ ?K _ /\ _ => let K' := eval vm_compute in K in change K with K' end.
  eapply settled_next; [eexists _, _, _; split; [reflexivity|split; [exact I|reflexivity]]|
    intros cf xs cap H; injection H as <- <- <-; vm_compute; congruence|
    eexists _, _, _, _, _; split; [reflexivity|split; [exists []; split; [reflexivity|split; [constructor|vm_compute; split; reflexivity]]|reflexivity]]|].
  match goal with |- plegals _ ?K _ /\ _ => let K' := eval vm_compute in K in change K with K' end.
  eapply settled_next; [vm_compute; repeat split; congruence|exact I|repeat split|]. cbn [app].
  eapply settled_next; [eexists; split; [reflexivity|split; [exact I|reflexivity]]|exact I|
    eexists _, _; split; [reflexivity|split; [vm_compute; split; reflexivity|split; reflexivity]]|].
  match goal with |- plegals _ ?K _ /\ _ => let K' := eval vm_compute in K in change K with K' end.
  eapply settled_next; [eexists; split; [reflexivity|split; [exact I|reflexivity]]|
    intros cs H; injection H as <-; vm_compute; congruence|
    eexists _, _; split; [reflexivity|split; [vm_compute; split; reflexivity|split; reflexivity]]|].
  match goal with |- plegals _ ?K _ /\ _ => let K' := eval vm_compute in K in change K with K' end.
  eapply settled_next; [eexists; split; [reflexivity|split; [split; lia|reflexivity]]|exact I|
    eexists _, [72;45;48;120;48;70;70]; split; [reflexivity|split; [|split; reflexivity]]|].
  { exists [70;70]. split; [|vm_compute; split; reflexivity]. exists [15;15]. split; [reflexivity|].
    split; [repeat constructor|]. split; [reflexivity|discriminate]. }
  match goal with |- plegals _ ?K _ /\ _ => let K' := eval vm_compute in K in change K with K' end.
  eapply settled_next; [split; [lia|split; [lia|eexists _, _; split; [reflexivity|split; [reflexivity|reflexivity]]]]|exact I|
    eexists _, _; split; [reflexivity|split; [reflexivity|repeat split]]|]. cbn [app].
  eapply settled_next; [split; [lia|split; [lia|eexists _, _, _; split; [reflexivity|reflexivity]]]|exact I|
    eexists _, _, _; split; [reflexivity|repeat split]|]. cbn [app].
  eapply settled_next; [split; [lia|split; [lia|eexists; split; [reflexivity|reflexivity]]]|exact I|
    eexists; split; [reflexivity|repeat split]|].
  split; exact I.
Qed.

Lemma open_contents :
  exists os1 os2 w1 w2 v1 v2,
    run_prog [] open_program world0 = Ok ([ST_SUCCESS; ST_SUCCESS], os1) w1 /\
    run_prog [] open_program other_world = Ok ([ST_SUCCESS; ST_SUCCESS], os2) w2 /\
    os1 = [Some (OV v1)] /\ os2 = [Some (OV v2)] /\ plegals open_program [] [] /\
    read_elem v1 0 w1 = Ok (Some [170;170]) w1 /\ read_elem v2 0 w2 = Ok (Some [0;1]) w2.
Proof.
  eexists _, _, _, _, _, _. split; [vm_compute; reflexivity|]. split; [vm_compute; reflexivity|].
  split; [reflexivity|]. split; [reflexivity|]. split; [|split; vm_compute; reflexivity].
  split; [vm_compute; repeat split; congruence|]. intros r K log (-> & -> & ->).
  split; [|intros; exact I]. eexists _, _, _. split; [reflexivity|]. split; [exact I|reflexivity].
Qed.

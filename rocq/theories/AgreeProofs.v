(** Searches that agree, and loops over them. *)
From Verif Require Import Base NListFacts Status MemFacts VectorModel VectorSpec VectorDriver
  VectorRep VectorProofs VectorProofs2 VectorProofs3 VectorRefine VectorSearch VectorFail VectorMore
  VectorFinal VectorFinal2 StringModel StringSpec StringDriver StringSearch StringProps AgreeDriver Mem.
From Coq Require Import ZifyBool ZifyNat ZifyN Sorting.Sorted.

Lemma sorted_same (l m : list N) : StronglySorted N.lt l -> StronglySorted N.lt m -> (forall i, In i l <-> In i m) -> l = m.
Proof.
  revert m. induction l as [|a l IH]; intros [|b m] L M H.
  - reflexivity.
  - destruct (proj2 (H b)). now left.
  - destruct (proj1 (H a)). now left.
  - apply StronglySorted_inv in L as [L LA], M as [M MB]. rewrite Forall_forall in LA, MB.
    assert (a = b) as <-.
    { destruct (proj1 (H a) (or_introl eq_refl)) as [E|E]; [auto|]. apply MB in E.
      destruct (proj2 (H b) (or_introl eq_refl)) as [F|F]; [auto|]. apply LA in F. lia. }
    f_equal. apply IH; auto. intros i. split; intros I.
    + destruct (proj1 (H i) (or_intror I)) as [->|E]; [|exact E]. apply LA in I. lia.
    + destruct (proj2 (H i) (or_intror I)) as [->|E]; [|exact E]. apply MB in I. lia.
Qed.
Lemma sorted_rev (l : list N) : StronglySorted (fun a b => b < a) l -> StronglySorted N.lt (rev l).
Proof.
  induction 1 as [|a l S IH F]; cbn [rev]; [constructor|].
  assert (G : forall m, StronglySorted N.lt m -> Forall (fun x => x < a) m -> StronglySorted N.lt (m ++ [a])).
  { induction m as [|x m IHm]; intros SM FM; cbn [app]; [repeat constructor|].
    apply StronglySorted_inv in SM as [SM FX]. inv FM. constructor; [auto|]. apply Forall_app. split; [exact FX|]. constructor; auto. }
  apply G; [exact IH|]. now apply Forall_rev.
Qed.

Section Loops.
  Context {C : Type} (w : world C) (P : N -> Prop) (search : N -> M C (status * option N)).

  (** From left to right. *)
  Lemma each_left size last :
    (forall from, from <= size -> exists st r, search from w = Ok (st, r) w /\
       match r with
       | Some i => st = ST_TRUE /\ from <= i < size /\ P i /\ forall j, from <= j < i -> ~ P j
       | None => st <> ST_TRUE /\ last from st /\ forall j, from <= j -> ~ P j
       end) -> size < W64 ->
    forall fuel from, from <= size -> size - from < N.of_nat fuel ->
    exists l st, each_match search (fun i => wadd i 1) from fuel w = Ok (l, st) w /\ StronglySorted N.lt l /\
      (forall i, In i l <-> from <= i /\ P i) /\
      (exists e, last e st /\ (l = [] /\ e = from \/ exists k m, l = m ++ [k] /\ e = k + 1)).
  Proof.
    intros S SW. induction fuel as [|fuel IH]; intros from L F; [lia|]. cbn [each_match].
    destruct (S from L) as (st & r & E & Q). rewrite (bind_ok _ _ _ _ _ E). destruct r as [i|].
    - destruct Q as (-> & B & PI & NP). rewrite N.eqb_refl. rewrite wadd_small by lia.
      destruct (IH (i + 1)) as (l & st & E2 & SO & AL & LA); [lia|lia|]. rewrite (bind_ok _ _ _ _ _ E2).
      exists (i :: l), st. split; [reflexivity|]. split; [|split].
      + constructor; [exact SO|]. apply Forall_forall. intros j J. apply AL in J. lia.
      + intros j. cbn [In]. rewrite AL. split; [intros [<-|J]; [split; [lia|exact PI]|split; [lia|tauto]]|].
        intros [J1 J2]. destruct (N.lt_trichotomy j i) as [J|[->|J]]; [|now left|right; split; [lia|exact J2]].
        destruct (NP j); [lia|exact J2].
      + destruct LA as (e & LA & [[-> ->]|(k & m & -> & ->)]).
        * exists (i + 1). split; [exact LA|]. right. exists i, []. auto.
        * exists (k + 1). split; [exact LA|]. right. exists k, (i :: m). auto.
    - destruct Q as (NT & LA & NP). replace (st =? ST_TRUE) with false by (symmetry; now apply N.eqb_neq).
      exists [], st. split; [reflexivity|]. split; [constructor|]. split; [|exists from; auto].
      intros j. split; [intros []|]. intros [J1 J2]. destruct (NP j J1 J2).
  Qed.
  (** From right to left: matches are [len] long and end before the position [till]. *)
  Lemma each_right size len : 1 <= len ->
    (forall till, till <= size -> exists st r, search till w = Ok (st, r) w /\
       match r with
       | Some i => st = ST_TRUE /\ i + len <= till /\ P i /\ forall j, i < j -> j + len <= till -> ~ P j
       | None => st = ST_FALSE /\ forall j, j + len <= till -> ~ P j
       end) -> size < W64 ->
    forall fuel till, till <= size -> till < N.of_nat fuel ->
    exists l, each_match search (fun i => wsub (wadd i len) 1) till fuel w = Ok (l, ST_FALSE) w /\
      StronglySorted (fun a b => b < a) l /\ (forall i, In i l <-> i + len <= till /\ P i).
  Proof.
    intros LP S SW. induction fuel as [|fuel IH]; intros till L F; [lia|]. cbn [each_match].
    destruct (S till L) as (st & r & E & Q). rewrite (bind_ok _ _ _ _ _ E). destruct r as [i|].
    - destruct Q as (-> & B & PI & NP). rewrite N.eqb_refl. rewrite wadd_small by lia. rewrite wsub_small by lia.
      destruct (IH (i + len - 1)) as (l & E2 & SO & AL); [lia|lia|]. rewrite (bind_ok _ _ _ _ _ E2).
      exists (i :: l). split; [reflexivity|]. split.
      + constructor; [exact SO|]. apply Forall_forall. intros j J. apply AL in J. lia.
      + intros j. cbn [In]. rewrite AL. split; [intros [<-|J]; [split; [lia|exact PI]|split; [lia|tauto]]|].
        intros [J1 J2]. destruct (N.lt_trichotomy j i) as [J|[->|J]]; [right; split; [lia|exact J2]|now left|].
        destruct (NP j J J1 J2).
    - destruct Q as (-> & NP). change (ST_FALSE =? ST_TRUE) with false.
      exists []. split; [reflexivity|]. split; [constructor|]. intros j. split; [intros []|]. intros [J1 J2]. destruct (NP j J1 J2).
  Qed.
End Loops.

Lemma f2_nl {A B} {R : A -> B -> Prop} {l m} : Forall2 R l m -> nlen l = nlen m.
Proof. induction 1; [reflexivity|]. rewrite !nlen_cons. congruence. Qed.
Lemma f2_eq {A} (l m : list A) : Forall2 eq l m <-> l = m.
Proof. split; [induction 1; congruence|intros <-; induction l; constructor; auto]. Qed.
Lemma lpos_any i (w : world N) hv nv hay needle index count :
  views w hv hay -> views w nv needle -> ~ In 0 needle -> index + count < W64 ->
  exists st r, slpos_ex (variant i) hv nv index count w = Ok (st, r) w /\ lpos_result (alike i) hay needle index count st r.
Proof. destruct i; [apply c19_lpos_ex_bit5_partial|apply c17_lpos_ex]. Qed.
Lemma lpos_full i (w : world N) hv nv hay needle : views w hv hay -> views w nv needle -> ~ In 0 needle ->
  exists st r, slpos (variant i) hv nv w = Ok (st, r) w /\ lpos_result (alike i) hay needle 0 (nlen hay) st r.
Proof.
  intros V1 V2 NZ. destruct V1 as (A & B & E). unfold slpos. rewrite A, wsub_small by lia. rewrite N.add_sub.
  apply lpos_any; auto; [split; auto|lia].
Qed.
Lemma rpos_any i (w : world N) hv nv hay needle index count :
  views_part w hv hay -> views_part w nv needle ->
  exists st r, srpos_ex (variant i) hv nv index count w = Ok (st, r) w /\ rpos_result (alike i) hay needle index count st r.
Proof. destruct i; [apply c19_rpos_ex_bit5_partial|apply c18_rpos_ex]. Qed.
Lemma rpos_full i (w : world N) hv nv hay needle : views_part w hv hay -> views_part w nv needle ->
  exists st r, srpos (variant i) hv nv w = Ok (st, r) w /\ rpos_result (alike i) hay needle (nlen hay) (nlen hay) st r.
Proof.
  intros V1 V2. destruct V1 as (A & B & E). unfold srpos. rewrite A, wsub_small by lia. rewrite N.add_sub.
  apply rpos_any; auto. split; auto.
Qed.
Lemma needle_size (needle : list N) : needle <> [] -> 1 <= nlen needle.
Proof. destruct needle; [easy|]. rewrite nlen_cons. lia. Qed.

Lemma lpos_rpos i (w : world N) hv nv hay needle :
  views w hv hay -> views w nv needle -> ~ In 0 needle ->
  exists st l r, slpos (variant i) hv nv w = Ok (st, l) w /\ srpos (variant i) hv nv w = Ok (st, r) w /\
    match l, r with
    | Some l, Some r => st = ST_TRUE /\ occurs (alike i) hay needle l /\ occurs (alike i) hay needle r /\
        (forall j, occurs (alike i) hay needle j -> l <= j <= r)
    | None, None => st = ST_FALSE
    | _, _ => False
    end.
Proof.
  intros V1 V2 NZ. destruct (lpos_full i w hv nv hay needle V1 V2 NZ) as (st & l & E1 & R1).
  destruct (rpos_full i w hv nv hay needle (views_views_part _ _ _ V1) (views_views_part _ _ _ V2)) as (st' & r & E2 & R2).
  unfold lpos_result in R1. unfold rpos_result in R2.
  replace (nlen hay <? 0 + nlen hay) with false in R1 by lia. rewrite !N.ltb_irrefl in R2. cbn [orb] in R2.
  rewrite N.add_0_l, N.sub_diag in *.
  destruct (nlen needle =? 0) eqn:Z.
  - destruct R1 as [-> ->], R2 as [-> ->]. exists ST_FALSE, None, None. auto.
  - destruct R1 as [F1 O1], R2 as [F2 O2].
    destruct l as [l|], r as [r|]; cbn [found first_occurrence last_occurrence] in *; subst.
    + exists ST_TRUE, (Some l), (Some r). split; [exact E1|]. split; [exact E2|]. destruct O1 as (_ & L1 & L2 & L3), O2 as (_ & Q1 & Q2 & Q3).
      split; [reflexivity|]. split; [exact L2|]. split; [exact Q2|]. intros j J. split.
      * destruct (N.le_gt_cases l j) as [K|K]; [exact K|]. destruct (L3 j); [lia|exact J].
      * destruct (N.le_gt_cases j r) as [K|K]; [exact K|]. destruct (Q3 j); [lia|apply J|exact J].
    + destruct O1 as (_ & L1 & L2 & _). destruct (O2 l); [lia|apply L2|exact L2].
    + destruct O2 as (_ & L1 & L2 & _). destruct (O1 r); [lia|apply L2|exact L2].
    + exists ST_FALSE, None, None. auto.
Qed.

Lemma collect i (w : world N) hv nv hay needle :
  views w hv hay -> views w nv needle -> needle <> [] -> ~ In 0 needle ->
  exists l, all_from_left i hv nv (nlen hay) w = Ok (l, ST_FALSE) w /\
    all_from_right i hv nv (nlen hay) (nlen needle) w = Ok (rev l, ST_FALSE) w /\
    lists_all (occurs (alike i) hay needle) l.
Proof.
  intros V1 V2 NE NZ. pose proof (needle_size _ NE) as NS. assert (HW : nlen hay + 1 < W64) by apply V1.
  destruct (each_left w (occurs (alike i) hay needle)
    (fun from => slpos_ex (variant i) hv nv from (wsub (nlen hay) from)) (nlen hay) (fun _ st => st = ST_FALSE)) with
    (fuel := (N.to_nat (nlen hay) + 1)%nat) (from := 0) as (l & st & E & SO & AL & e & -> & _); [|lia|lia|lia|].
  { intros from F. rewrite wsub_small by lia.
    destruct (lpos_any i w hv nv hay needle from (nlen hay - from) V1 V2 NZ) as (st & r & E & R); [lia|].
    exists st, r. split; [exact E|]. unfold lpos_result in R.
    replace (nlen hay <? from + (nlen hay - from)) with false in R by lia. replace (nlen needle =? 0) with false in R by lia.
    replace (from + (nlen hay - from)) with (nlen hay) in R by lia.
    destruct R as [F1 R]. destruct r as [k|]; cbn [found first_occurrence] in *; subst st.
    - destruct R as (R1 & R2 & R3 & R4). split; [reflexivity|]. split; [lia|]. split; [exact R3|exact R4].
    - split; [discriminate|]. split; [reflexivity|]. intros j J O. exact (R j J (proj1 O) O). }
  destruct (each_right w (occurs (alike i) hay needle)
    (fun till => srpos_ex (variant i) hv nv till till) (nlen hay) (nlen needle) NS) with
    (fuel := (N.to_nat (nlen hay) + 1)%nat) (till := nlen hay) as (m & E' & SO' & AL'); [|lia|lia|lia|].
  { intros till F.
    destruct (rpos_any i w hv nv hay needle till till (views_views_part _ _ _ V1) (views_views_part _ _ _ V2)) as (st & r & E' & R).
    exists st, r. split; [exact E'|]. unfold rpos_result in R.
    replace (nlen hay <? till) with false in R by lia. rewrite N.ltb_irrefl in R. cbn [orb] in R.
    replace (nlen needle =? 0) with false in R by lia. rewrite N.sub_diag in R.
    destruct R as [F1 R]. destruct r as [k|]; cbn [found last_occurrence] in *; subst st.
    - destruct R as (R1 & R2 & R3 & R4). auto.
    - split; [reflexivity|]. intros j. apply R. lia. }
  assert (rev m = l) as Q.
  { apply sorted_same; [now apply sorted_rev|exact SO|]. intros j. rewrite <- in_rev, AL, AL'. split; intros [J1 J2]; split; auto; [lia|].
    apply J2. }
  exists l. split; [exact E|]. split; [|split; [exact SO|]].
  - rewrite <- Q, rev_involutive. exact E'.
  - intros j. rewrite AL. split; [tauto|]. intros J. split; [lia|exact J].
Qed.

(** What the sensitive functions find the insensitive ones find too. *)
Lemma occurs_more hay needle i : occurs eq hay needle i -> occurs same_but_bit5 hay needle i.
Proof.
  intros [A B]. split; [exact A|]. clear A. revert B. generalize (nsub i (nlen needle) hay) as h. clear.
  intros h B. induction B; constructor; [now left|auto].
Qed.
Lemma sensitive_insensitive (w : world N) hv nv hay needle l :
  views w hv hay -> views w nv needle -> ~ In 0 needle ->
  slpos eq_cs hv nv w = Ok (ST_TRUE, Some l) w ->
  exists l' r r', slpos eq_ci hv nv w = Ok (ST_TRUE, Some l') w /\ srpos eq_cs hv nv w = Ok (ST_TRUE, Some r) w /\
    srpos eq_ci hv nv w = Ok (ST_TRUE, Some r') w /\ l' <= l /\ l <= r /\ r <= r'.
Proof.
  intros V1 V2 NZ E.
  destruct (lpos_rpos false w hv nv hay needle V1 V2 NZ) as (st & l0 & r & E1 & E2 & Q). cbn [variant alike] in *.
  rewrite E in E1. injection E1 as <- <-. destruct r as [r|]; [|destruct Q]. destruct Q as (_ & O1 & O2 & Q).
  destruct (lpos_rpos true w hv nv hay needle V1 V2 NZ) as (st & l' & r' & E3 & E4 & P). cbn [variant alike] in *.
  apply occurs_more in O1 as O1', O2 as O2'.
  destruct l' as [l'|], r' as [r'|]; try easy.
  - destruct P as (-> & _ & _ & P). exists l', r, r'. repeat (split; [assumption|]).
    pose proof (P _ O1'). pose proof (P _ O2'). pose proof (Q _ O1). lia.
  - exfalso. subst st. unfold lpos_result in *.
    destruct (lpos_full true w hv nv hay needle V1 V2 NZ) as (st & q & F & R). cbn [variant alike] in *. rewrite E3 in F. injection F as <- <-.
    unfold lpos_result in R. replace (nlen hay <? 0 + nlen hay) with false in R by lia.
    destruct (nlen needle =? 0) eqn:Z.
    + destruct (lpos_full false w hv nv hay needle V1 V2 NZ) as (st & q & F & R'). cbn [variant alike] in *. rewrite E in F. injection F as <- <-.
      unfold lpos_result in R'. replace (nlen hay <? 0 + nlen hay) with false in R' by lia. rewrite Z in R'. destruct R'. discriminate.
    + destruct R as [_ R]. apply (R l); [lia|apply O1'|exact O1'].
Qed.
(** Compare says equal exactly if the sizes agree and the one text is found in the other. *)
Lemma compare_find i (w : world N) v1 v2 a b :
  views w v1 a -> views w v2 b -> ~ In 0 b -> b <> [] ->
  exists st r, scompare (variant i) v1 v2 w = Ok (st, r) w /\
    (st = ST_TRUE <-> nlen a = nlen b /\ slpos (variant i) v1 v2 w = Ok (ST_TRUE, Some 0) w).
Proof.
  intros V1 V2 NZ NE. pose proof (needle_size _ NE) as NS.
  assert (exists st r, scompare (variant i) v1 v2 w = Ok (st, r) w /\ (st = ST_TRUE <-> Forall2 (alike i) a b)) as (st & r & E & Q).
  { destruct i; cbn [variant alike].
    - destruct (c19_compare_bit5_partial w v1 v2 a b V1 V2) as (st & r & E & Q). exists st, r. split; [exact E|].
      destruct Q as [(Q & -> & _)|(Q & -> & _)]; split; intros; auto; try discriminate. easy.
    - destruct (c20_compare w v1 v2 a b V1 V2) as (st & r & E & Q). exists st, r. split; [exact E|].
      rewrite f2_eq. destruct Q as [(Q & -> & _)|(Q & -> & _)]; split; intros; auto; try discriminate. easy. }
  exists st, r. split; [exact E|]. rewrite Q. clear Q E.
  destruct (lpos_full i w v1 v2 a b V1 V2 NZ) as (st' & l & E & R). rewrite E. unfold lpos_result in R.
  replace (nlen a <? 0 + nlen a) with false in R by lia. replace (nlen b =? 0) with false in R by lia.
  destruct R as [F R]. split.
  - intros A. assert (L : nlen a = nlen b) by (eapply f2_nl; exact A). split; [exact L|].
    assert (O : occurs (alike i) a b 0).
    { split; [lia|]. unfold nsub. rewrite nskip_0, <- L, nfirst_all by lia. exact A. }
    destruct l as [l|]; cbn [found first_occurrence] in *; subst st'.
    + destruct R as (_ & _ & _ & R). destruct (N.eq_dec l 0) as [->|NL]; [reflexivity|]. destruct (R 0); [lia|exact O].
    + destruct (R 0); [lia|lia|exact O].
  - intros [L X]. injection X as -> ->. cbn [first_occurrence] in R. destruct R as (_ & _ & [_ O] & _).
    unfold nsub in O. rewrite nskip_0, <- L, nfirst_all in O by lia. exact O.
Qed.

(** Vectors. *)
Section Elems.
  Context {C : Type}.
  Lemma all_elems (w : world C) v xs y cmp :
    reached w v xs -> nlen y = v_esz v ->
    exists l st w', all_elements v y cmp (nlen xs) w = Ok (l, st) w' /\
      lists_all (fun i => exists x, nnth i xs = Some x /\ cmp x y = true) l /\
      st = (if (nlen xs =? 0) || existsb (fun i => i + 1 =? nlen xs) l then ST_OUT_OF_RANGE else ST_FALSE) /\
      (forall b, heap w' b = heap w b) /\ dlog w' = dlog w.
  Proof.
    intros R L. destruct (reached_rep _ _ _ R) as (pre & post & RR & _).
    assert (XW : nlen xs < W64) by (pose proof (r_le _ _ _ _ _ RR); pose proof (r_esz _ _ _ _ _ RR); pose proof (r_mem _ _ _ _ _ RR); nia).
    destruct (argw_rep w v pre xs post y RR) as (RA & SA & _).
    set (P := fun i => exists x, nnth i xs = Some x /\ cmp x y = true).
    destruct (each_left (argw w y) P (fun from => vfind_ex v (Some (mkptr (nextb w) 0)) cmp from (wsub (nlen xs) from)) (nlen xs)
      (fun e st => st = if e =? nlen xs then ST_OUT_OF_RANGE else ST_FALSE)) with
      (fuel := (N.to_nat (nlen xs) + 1)%nat) (from := 0) as (l & st & E & SO & AL & e & SE & Q); [|lia|lia|lia|].
    { intros from F. rewrite wsub_small by lia.
      destruct (find_ok (argw w y) v pre xs post (mkptr (nextb w) 0) y cmp from (nlen xs - from) RA SA L) as (r & f & E & Q); [lia|].
      exists r, f. split; [exact E|]. unfold find_result in Q.
      replace (nlen xs <? from + (nlen xs - from)) with false in Q by lia. cbn [orb] in Q.
      replace (from + (nlen xs - from)) with (nlen xs) in Q by lia.
      destruct (N.eqb_spec from (nlen xs)) as [->|NE].
      - destruct Q as [-> ->]. split; [discriminate|]. split; [reflexivity|]. intros j J (x & X & _).
        apply nnth_some in X as (? & ? & X & ?). subst xs. rewrite nlen_app, nlen_cons in *. lia.
      - destruct Q as [Q ->]. destruct f as [k|]; cbn [first_match] in Q.
        + destruct Q as (Q1 & Q2 & Q3). split; [reflexivity|]. split; [lia|]. split; [exact Q2|].
          intros j J (x & X & T). rewrite (Q3 _ _ J X) in T. discriminate.
        + split; [discriminate|]. split; [reflexivity|]. intros j J (x & X & T). rewrite (Q j x) in T; [discriminate| |exact X].
          apply nnth_some in X as (? & ? & X & ?). subst xs. rewrite nlen_app, nlen_cons in *. lia. }
    destruct (with_arg_pure w v pre xs post y
      (fun p => each_match (fun from => vfind_ex v p cmp from (wsub (nlen xs) from)) (fun i => wadd i 1) 0 (N.to_nat (nlen xs) + 1)) _ RR E) as (w' & E' & H & D & _).
    exists l, st, w'. split; [exact E'|]. split; [split; [exact SO|]|split; [|auto]].
    - intros i. rewrite AL. split; [tauto|]. intros I. split; [lia|exact I].
    - rewrite SE. clear SE E E'. destruct Q as [[-> ->]|(k & m & -> & ->)].
      + cbn [existsb]. rewrite Bool.orb_false_r, N.eqb_sym. reflexivity.
      + assert (PK : P k) by (apply AL, in_app_iff; right; now left). destruct PK as (x & X & _).
        apply nnth_some in X as (? & ? & X & ?). assert (k < nlen xs) by (subst xs; rewrite nlen_app, nlen_cons; lia).
        replace (nlen xs =? 0) with false by lia. cbn [orb]. rewrite existsb_app. cbn [existsb]. rewrite Bool.orb_false_r.
        destruct (k + 1 =? nlen xs) eqn:K; [now rewrite Bool.orb_true_r|]. rewrite Bool.orb_false_r.
        destruct (existsb _ m) eqn:M; [|reflexivity]. apply existsb_exists in M as (j & J & JM). exfalso.
        assert (j < k); [|lia]. clear - SO J. induction m as [|a m IH]; [destruct J|]. cbn [app] in SO.
        apply StronglySorted_inv in SO as [SO F]. destruct J as [<-|J]; [|auto]. rewrite Forall_forall in F. apply F, in_app_iff. right. now left.
  Qed.
  (** On sorted vectors the binary search answers what the linear one answers. *)
  Lemma binary_linear (w : world C) v xs y cmp :
    reached w v xs -> nlen y = v_esz v -> xs <> [] -> cmp_order (v_esz v) cmp -> sorted_range cmp xs 0 (nlen xs) ->
    exists st k f w1 w2, with_arg y (fun p => vbinary_search v p cmp) w = Ok (st, Some k) w1 /\
      with_arg y (fun p => vfind v p (fun a b => Z.eqb (cmp a b) 0)) w = Ok (st, f) w2 /\
      (st = ST_TRUE /\ f = Some k \/ st = ST_FALSE /\ f = None).
  Proof.
    intros R L NE CO SR. destruct (bsearch_all_reached w v xs y cmp R L CO SR) as (r & k & w1 & E1 & (B1 & B2 & B3) & Q & _).
    destruct (find_all_reached w v xs y (fun a b => Z.eqb (cmp a b) 0) R L NE) as (r2 & f & w2 & E2 & FM & S2 & _).
    assert (LE : forall i x, nnth i xs = Some x -> i < nlen xs /\ nlen x = v_esz v).
    { intros i x X. destruct (reached_rep _ _ _ R) as (pre & post & RR & _). split.
      - apply nnth_some in X as (? & ? & X & ?). subst xs. rewrite nlen_app, nlen_cons in *. lia.
      - apply r_chunk in RR. unfold chunked in RR. rewrite Forall_forall in RR. apply RR. apply nnth_some in X as (? & ? & -> & _). apply in_elt. }
    destruct Q as [(-> & j & x & J & Z)|(-> & Q)].
    - destruct (LE _ _ J) as [J1 J2].
      assert (KJ : k <= j). { destruct (N.le_gt_cases k j) as [K|K]; [exact K|]. specialize (B2 j x ltac:(lia) J). lia. }
      assert (exists z, nnth k xs = Some z /\ cmp z y = 0%Z) as (z & ZK & ZZ).
      { destruct (N.eq_dec k j) as [->|NK]; [eauto|]. destruct (nnth k xs) as [z|] eqn:ZK.
        - exists z. split; [reflexivity|]. destruct (LE _ _ ZK) as [Z1 Z2]. specialize (B3 k z ltac:(lia) ZK).
          destruct CO as [_ TR]. specialize (TR z x y Z2 J2 L (SR k j z x ltac:(lia) ltac:(lia) J1 ZK J)). lia.
        - destruct (nnth_exists k xs) as (u & U); [lia|congruence]. }
      destruct (LE _ _ ZK) as [Z1 _].
      destruct f as [i|]; cbn [first_match] in FM.
      + destruct FM as (I & (u & U & T) & FM). apply Z.eqb_eq in T. subst r2.
        assert (i = k) as ->.
        { destruct (N.lt_trichotomy i k) as [K|[K|K]]; [specialize (B2 i u ltac:(lia) U); lia|exact K|].
          specialize (FM k z ltac:(lia) ZK). rewrite ZZ in FM. discriminate. }
        exists ST_TRUE, k, (Some k), w1, w2. auto.
      + specialize (FM k z ltac:(lia) ZK). rewrite ZZ in FM. discriminate.
    - destruct f as [i|]; cbn [first_match] in FM.
      + destruct FM as (I & (u & U & T) & FM). apply Z.eqb_eq in T. destruct (Q i u U T).
      + subst r2. exists ST_FALSE, k, None, w1, w2. auto.
  Qed.
  (** ... but for the empty vector they disagree. *)
  Lemma binary_linear_empty (w : world C) v y cmp f :
    reached w v [] -> nlen y = v_esz v -> cmp_order (v_esz v) cmp ->
    exists w1 w2, with_arg y (fun p => vbinary_search v p cmp) w = Ok (ST_FALSE, Some 0) w1 /\
      with_arg y (fun p => vfind v p f) w = Ok (ST_OUT_OF_RANGE, None) w2.
  Proof.
    intros R L CO. destruct (bsearch_all_reached w v [] y cmp R L CO) as (r & k & w1 & E1 & (B1 & _) & Q & _).
    { intros i j x z _ _ J. change (nlen (@nil (list C))) with 0 in J. lia. }
    destruct Q as [(_ & j & x & J & _)|(-> & _)]; [rewrite nnth_ge in J by (change (nlen (@nil (list C))) with 0; lia); discriminate|].
    assert (k = 0) as -> by (change (nlen (@nil (list C))) with 0 in B1; lia).
    destruct (reached_rep _ _ _ R) as (pre & post & RR & _).
    destruct (argw_rep w v pre [] post y RR) as (RA & SA & _).
    destruct (with_arg_pure w v pre [] post y (fun p => vfind v p f) (ST_OUT_OF_RANGE, None) RR) as (w2 & E2 & _).
    { unfold vfind. rewrite (r_size _ _ _ _ _ RR).
      destruct (find_ok (argw w y) v pre [] post (mkptr (nextb w) 0) y f 0 (nlen (@nil (list C))) RA SA L) as (r & q & E & Q); [reflexivity|].
      rewrite E. cbn in Q. destruct Q as [-> ->]. reflexivity. }
    eauto.
  Qed.
End Elems.

(** A vector kept in order by BinarySearch is an ordered set. *)
From Verif Require Import Base NListFacts Status Mem MemFacts VectorModel VectorSpec VectorDriver
  VectorRep VectorProofs VectorProofs2 VectorProofs3 VectorRefine VectorSearch VectorFail VectorMore VectorFinal VectorFinal2 SortedSpec.
From Coq Require Import ZifyBool ZifyNat ZifyN Permutation Sorted.

Section Lists.
  Context {A : Type}.
  Implicit Types (l : list A).
  Lemma Forall_nnth (P : A -> Prop) l : Forall P l <-> forall i x, nnth i l = Some x -> P x.
  Proof.
    split.
    - intros F i x N. destruct (nnth_some _ _ _ N) as (a & c & -> & _). apply Forall_app in F as [_ F]. now inversion F.
    - intros H. rewrite Forall_forall. intros x I. apply in_split in I as (a & c & ->). apply (H (nlen a)). now apply nnth_mid.
  Qed.
  Lemma ssorted_app (R : A -> A -> Prop) l1 l2 : StronglySorted R (l1 ++ l2) <-> StronglySorted R l1 /\ StronglySorted R l2 /\ Forall (fun x => Forall (R x) l2) l1.
  Proof.
    induction l1 as [|x l1 IH]; cbn [app].
    - split; [intros H; repeat split; auto; constructor|tauto].
    - split.
      + intros H. inversion H as [|? ? H1 H2]; subst. apply IH in H1 as (H1 & H3 & H4). apply Forall_app in H2 as [H2 H5].
        repeat split; auto; now constructor.
      + intros (H1 & H2 & H3). inversion_clear H1 as [|? ? H4 H5]. inversion_clear H3 as [|? ? H6 H7]. constructor; [apply IH; auto|apply Forall_app; auto].
  Qed.
  Lemma ssorted_nnth (R : A -> A -> Prop) l : StronglySorted R l <-> forall i j x y, i < j -> nnth i l = Some x -> nnth j l = Some y -> R x y.
  Proof.
    induction l as [|z l IH].
    - split; [intros _ i j x y _ N|constructor]. apply nnth_lt in N. change (i < 0) in N. lia.
    - split.
      + intros H i j x y LT NX NY. inversion_clear H as [|? ? H1 H2]. pose proof (nnth_lt _ _ _ NX) as LX. rewrite nlen_cons in LX.
        change (z :: l) with ([z] ++ l) in NX, NY. change (nlen [z]) with 1 in *.
        rewrite nnth_app2 in NY by (change (nlen [z]) with 1; lia). change (nlen [z]) with 1 in NY.
        destruct (N.eq_dec i 0) as [->|NZ].
        * injection NX as <-. rewrite Forall_nnth in H2. eapply H2; eauto.
        * rewrite nnth_app2 in NX by (change (nlen [z]) with 1; lia). change (nlen [z]) with 1 in NX. rewrite IH in H1. eapply (H1 (i - 1) (j - 1)); eauto. lia.
      + intros H. constructor.
        * apply IH. intros i j x y LT NX NY. apply (H (1 + i) (1 + j)); [lia| |]; change (z :: l) with ([z] ++ l);
            (rewrite nnth_app2 by (change (nlen [z]) with 1; lia)); change (nlen [z]) with 1; [replace (1 + i - 1) with i by lia|replace (1 + j - 1) with j by lia]; assumption.
        * apply Forall_nnth. intros j y NY. apply (H 0 (1 + j)); [lia|reflexivity|]. change (z :: l) with ([z] ++ l).
          rewrite nnth_app2 by (change (nlen [z]) with 1; lia). change (nlen [z]) with 1. now replace (1 + j - 1) with j by lia.
  Qed.
End Lists.

Section Sorted.
  Context {C : Type} (cmp : list C -> list C -> Z) (e : N) (CO : cmp_order e cmp).
  Notation elt := (list C).
  Implicit Types (w : world C) (v : vector C).
  Notation sized := (fun x : elt => nlen x = e).
  Notation lt := (fun x y : elt => (cmp x y < 0)%Z).
  Notation le := (fun x y : elt => (cmp x y <= 0)%Z).

  Lemma lt_iff (a b : elt) : nlen a = e -> nlen b = e -> ((cmp a b < 0)%Z <-> (0 < cmp b a)%Z).
  Proof. intros LA LB. destruct CO as [C1 _]. pose proof (C1 a b LA LB). pose proof (C1 b a LB LA). lia. Qed.
  Lemma le_lt (a b c : elt) : nlen a = e -> nlen b = e -> nlen c = e -> (cmp a b <= 0)%Z -> (cmp b c < 0)%Z -> (cmp a c < 0)%Z.
  Proof.
    intros LA LB LC H1 H2. destruct (Z.lt_ge_cases (cmp a c) 0) as [|G]; [assumption|]. exfalso. destruct CO as [C1 C2].
    assert (cmp c a <= 0)%Z by (apply C1; auto; lia). assert (cmp c b <= 0)%Z by (eapply C2 with a; eauto). apply C1 in H0; auto. lia.
  Qed.

  (** What a search gives: the elements before the index are smaller, those from there on are not. *)
  Lemma search_split xs y k : lower_bound cmp xs 0 (nlen xs) y k ->
    exists l r, xs = l ++ r /\ nlen l = k /\ Forall (fun x => (cmp x y < 0)%Z) l /\ Forall (fun x => (0 <= cmp x y)%Z) r.
  Proof.
    intros ([_ K] & L1 & L2). exists (nfirst k xs), (nskip k xs). assert (LN : nlen (nfirst k xs) = k) by (rewrite nlen_nfirst; lia). split; [now rewrite nfirst_skip|]. split; [exact LN|].
    split; apply Forall_nnth; intros i x NX; pose proof (nnth_lt _ _ _ NX) as LT.
    - apply (L1 i x); [lia|]. rewrite <- (nfirst_skip k xs). now rewrite nnth_app1.
    - apply (L2 (k + i) x).
      + rewrite nlen_nskip in LT. lia.
      + rewrite <- (nfirst_skip k xs), nnth_app2 by lia. rewrite LN. now replace (k + i - k) with i by lia.
  Qed.

  Lemma with_arg_pure' {A} w v pre xs post y (k : option ptr -> Mem.M C A) x :
    vrep w v pre xs post -> k (Some (mkptr (nextb w) 0)) (argw w y) = Ok x (argw w y) ->
    exists w', with_arg y k w = Ok x w' /\ orc w' = orc w /\ dlog w' = dlog w /\ vrep w' v pre xs post.
  Proof.
    intros R E. destruct (with_arg_pure w v pre xs post y k x R E) as (w' & E' & _ & D & R').
    exists w'. split; [exact E'|]. split; [|auto]. unfold with_arg in E'. fold (argw w y) in E'.
    change (mkbuild (hset (heap w) (nextb w) (Some y)) (nextb w + 1) (orc w) (tick w) (dlog w) (checked w)) with (argw w y) in E'.
    rewrite E in E'. injection E' as <-. reflexivity.
  Qed.
  Lemma search_ok w v pre xs post y : vrep w v pre xs post -> v_esz v = e -> nlen y = e -> fits (nlen xs) e -> StronglySorted le xs ->
    exists r k w', with_arg y (fun p => vbinary_search v p cmp) w = Ok (r, Some k) w' /\ orc w' = orc w /\ dlog w' = dlog w /\ vrep w' v pre xs post /\
      lower_bound cmp xs 0 (nlen xs) y k /\
      (r = ST_TRUE /\ (exists x, In x xs /\ cmp x y = 0%Z) \/ r = ST_FALSE /\ forall x, In x xs -> cmp x y <> 0%Z).
  Proof.
    intros R ES LY F SO. pose proof (rep_len_lt _ _ _ _ _ R). pose proof (r_esz _ _ _ _ _ R). destruct (argw_rep _ _ _ _ _ y R) as (R1 & S1 & N1).
    destruct (bsearch_ok _ _ _ _ _ _ _ cmp 0 (nlen xs) R1 S1) as (r & f & E & FR); auto; try (rewrite ES; auto); try lia.
    { unfold fits, W64 in *. nia. }
    { intros i j x z _ LT _ NX NY. rewrite ssorted_nnth in SO. eapply SO; eauto. }
    unfold bsearch_result in FR. replace (nlen xs <? 0 + nlen xs) with false in FR by lia. destruct FR as (k & -> & LB & T).
    destruct (with_arg_pure' w v pre xs post y (fun p => vbinary_search v p cmp) (r, Some k) R) as (w' & E' & O & D & R').
    { unfold vbinary_search. rewrite (r_size _ _ _ _ _ R). exact E. }
    exists r, k, w'. split; [exact E'|]. split; [exact O|]. split; [exact D|]. split; [exact R'|]. split; [exact LB|].
    destruct T as [(-> & j & x & _ & NX & Z)|[-> T]]; [left|right]; split; auto.
    - exists x. split; [|exact Z]. destruct (nnth_some _ _ _ NX) as (a & c & -> & _). apply in_or_app. right. now left.
    - intros x I. apply in_split in I as (a & c & EX). apply (T (nlen a)); [rewrite EX, nlen_app, nlen_cons; lia|]. rewrite EX. now apply nnth_mid.
  Qed.

  Lemma lt_le_sorted xs : StronglySorted lt xs -> StronglySorted le xs.
  Proof. rewrite !ssorted_nnth. intros H i j x y L1 L2 L3. specialize (H i j x y L1 L2 L3). cbn in *. lia. Qed.
  Lemma insert_lt l r y : nlen y = e -> Forall sized (l ++ r) -> StronglySorted lt (l ++ r) -> Forall (fun x => (cmp x y < 0)%Z) l -> Forall (fun x => (0 < cmp x y)%Z) r ->
    StronglySorted lt (l ++ y :: r).
  Proof.
    intros LY SZ S FL FR. apply ssorted_app in S as (S1 & S2 & S3). apply Forall_app in SZ as [Z1 Z2]. apply ssorted_app. split; [exact S1|]. split.
    - constructor; [exact S2|]. rewrite Forall_forall in *. intros x I. apply lt_iff; auto.
    - rewrite Forall_forall in *. intros x I. constructor; [now apply FL|]. now apply S3.
  Qed.
  Lemma insert_le l r y : nlen y = e -> Forall sized (l ++ r) -> StronglySorted le (l ++ r) -> Forall (fun x => (cmp x y < 0)%Z) l -> Forall (fun x => (0 <= cmp x y)%Z) r ->
    StronglySorted le (l ++ y :: r).
  Proof.
    intros LY SZ S FL FR. apply ssorted_app in S as (S1 & S2 & S3). apply Forall_app in SZ as [Z1 Z2]. apply ssorted_app. split; [exact S1|]. split.
    - constructor; [exact S2|]. rewrite Forall_forall in *. intros x I. destruct CO as [C1 _]. apply C1; auto.
    - rewrite Forall_forall in *. intros x I. constructor; [specialize (FL x I); cbn in *; lia|]. now apply S3.
  Qed.

  (** The invariant. *)
  Definition ok w v xs : Prop := vrep w v [] xs [] /\ v_esz v = e /\ v_alloc v = true /\ nofail w v.
  Lemma ok_sized w v xs : ok w v xs -> Forall sized xs.
  Proof. intros (R & ES & _). pose proof (r_chunk _ _ _ _ _ R) as H. rewrite ES in H. exact H. Qed.

  Lemma do_insert w v xs k y : ok w v xs -> nlen y = e -> fits (nlen xs + 1) e -> k <= nlen xs ->
    exists w' v', run_op v (OInsert k y) w = Ok (ST_SUCCESS, v') w' /\ ok w' v' (linsert k [y] xs).
  Proof.
    intros (R & ES & AL & NF) LY F K. destruct (run_op_ok w v [] xs [] (OInsert k y) R (nofail_grants _ _ NF)) as (r & w' & v' & xs' & E & [GR GC GF] & SP).
    { cbn. now rewrite ES. } { rewrite ES. exact F. }
    cbn [vspec] in SP. unfold spec_insert in SP. cbn [s_elems s_cap s_log] in SP. replace (nlen xs <? k) with false in SP by lia.
    destruct (regrow _ _ _) as [cap|] eqn:RG; [|unfold regrow, cfg_of in RG; cbn in RG; rewrite AL in RG; cbn in RG; match type of RG with (if ?c then _ else _) = _ => destruct c; discriminate RG end].
    destruct SP as [-> SP]. injection SP as -> _ _. exists w', v'. split; [exact E|]. destruct GC as (GC1 & _ & _ & GC4 & _), GF. split; [exact GR|]. split; [congruence|]. split; [congruence|].
    intros A t. rewrite fr_orc. apply NF. congruence.
  Qed.
  Lemma do_delete w v xs k : ok w v xs -> fits (nlen xs) e -> k + 1 <= nlen xs ->
    exists w' v', run_op v (ODelete k) w = Ok (ST_SUCCESS, v') w' /\ ok w' v' (ldelete k 1 xs).
  Proof.
    intros (R & ES & AL & NF) F K. destruct (run_op_ok w v [] xs [] (ODelete k) R (nofail_grants _ _ NF)) as (r & w' & v' & xs' & E & [GR GC GF] & SP).
    { cbn. pose proof (rep_len_lt _ _ _ _ _ R). lia. } { rewrite ES. cbn [demand]. rewrite N.add_0_r. exact F. }
    cbn [vspec] in SP. unfold spec_delete in SP. cbn [s_elems s_cap s_log] in SP. change (1 =? 0) with false in SP. replace (nlen xs <? k + 1) with false in SP by lia.
    destruct SP as [-> SP]. injection SP as -> _ _. exists w', v'. split; [exact E|]. destruct GC as (GC1 & _ & _ & GC4 & _), GF. split; [exact GR|]. split; [congruence|]. split; [congruence|].
    intros A t. rewrite fr_orc. apply NF. congruence.
  Qed.
  Lemma ok_search w v xs y : ok w v xs -> nlen y = e -> fits (nlen xs) e -> StronglySorted le xs ->
    exists r k w', with_arg y (fun p => vbinary_search v p cmp) w = Ok (r, Some k) w' /\ ok w' v xs /\
      lower_bound cmp xs 0 (nlen xs) y k /\
      (r = ST_TRUE /\ (exists x, In x xs /\ cmp x y = 0%Z) \/ r = ST_FALSE /\ forall x, In x xs -> cmp x y <> 0%Z).
  Proof.
    intros (R & ES & AL & NF) LY F SO. destruct (search_ok w v [] xs [] y R ES LY F SO) as (r & k & w' & E & O & D & R' & LB & T).
    exists r, k, w'. split; [exact E|]. split; [|auto]. split; [exact R'|]. split; [exact ES|]. split; [exact AL|]. intros A t. rewrite O. now apply NF.
  Qed.

  Lemma set_call_ok w v xs (c : set_call C) : ok w v xs -> nlen (key c) = e -> fits (nlen xs + 1) e -> StronglySorted lt xs ->
    exists b v' w' xs', set_call_run cmp v c w = Ok (b, v') w' /\ ok w' v' xs' /\ StronglySorted lt xs' /\ nlen xs' <= nlen xs + 1 /\
      set_step cmp c (fun x => In x xs) b (fun x => In x xs').
  Proof.
    intros OK LY F SO. assert (F0 : fits (nlen xs) e) by (eapply fits_le; [|exact F]; lia).
    destruct (ok_search w v xs (key c) OK LY F0 (lt_le_sorted _ SO)) as (r & k & w1 & E & OK1 & LB & T).
    destruct (search_split _ _ _ LB) as (l & rr & EX & LK & FL & FR). pose proof (ok_sized _ _ _ OK) as SZ.
    unfold set_call_run. rewrite (bind_ok _ _ _ _ _ E). destruct c as [y|y|y]; cbn [key] in *.
    - destruct T as [[-> T]|[-> T]].
      + exists false, v, w1, xs. split; [reflexivity|]. split; [exact OK1|]. split; [exact SO|]. split; [lia|]. split.
        * split; [discriminate|]. intros H. exfalso. now apply H.
        * intros x. split; [tauto|]. intros [H|[H _]]; [exact H|]. exfalso. now apply H.
      + change (ST_FALSE =? ST_FALSE) with true. cbn iota.
        destruct (do_insert w1 v xs k y OK1 LY F) as (w2 & v2 & E2 & OK2). { apply LB. }
        rewrite (bind_ok _ _ _ _ _ E2). exists true, v2, w2, (linsert k [y] xs). split; [reflexivity|]. split; [exact OK2|].
        assert (EL : linsert k [y] xs = l ++ y :: rr).
        { unfold linsert. rewrite EX, (nfirst_app_l k l rr), (nskip_app_l k l rr) by exact LK. reflexivity. }
        rewrite EL. rewrite EX in SO, SZ, T |- *. split; [|split].
        * apply insert_lt; auto. rewrite Forall_forall in *. intros x I. specialize (FR x I). cbn in FR. assert (cmp x y <> 0)%Z by (apply T, in_or_app; now right). lia.
        * rewrite !nlen_app, nlen_cons. lia.
        * assert (NFD : ~ found cmp (fun x => In x (l ++ rr)) y) by (intros (x & I & Z); now apply (T x I)). split; [tauto|].
          intros x. rewrite !in_app_iff. cbn [In]. split; [intros [H|[<-|H]]; auto|intros [[H|H]|[_ ->]]; auto].
    - destruct T as [[-> T]|[-> T]].
      + change (ST_TRUE =? ST_TRUE) with true. cbn iota. destruct T as (x0 & I0 & Z0).
        assert (HR : exists x1 r1, rr = x1 :: r1 /\ cmp x1 y = 0%Z /\ forall x, In x (l ++ r1) -> cmp x y <> 0%Z).
        { rewrite EX in I0. apply in_app_or in I0 as [I0|I0]; [rewrite Forall_forall in FL; specialize (FL _ I0); cbn in FL; lia|].
          destruct rr as [|x1 r1]; [contradiction|]. exists x1, r1. split; [reflexivity|].
          rewrite EX in SO, SZ. apply ssorted_app in SO as (S1 & S2 & S3). apply Forall_app in SZ as [Z1 Z2]. inversion_clear S2 as [|? ? S4 S5]. inversion_clear Z2 as [|? ? Z3 Z4].
          inversion_clear FR as [|? ? FR1 FR2]. rewrite Forall_forall in *.
          assert (ZX : cmp x1 y = 0%Z).
          { destruct I0 as [<-|I0]; [exact Z0|]. specialize (S5 _ I0). cbn in S5. exfalso. pose proof (Z4 _ I0) as Z5. cbn in Z5.
            assert (cmp y x1 <= 0)%Z by (destruct CO as [C1 _]; apply C1; auto). pose proof (le_lt y x1 x0 LY Z3 Z5 H S5). apply lt_iff in H0; auto. lia. }
          split; [exact ZX|]. intros x I. apply in_app_or in I as [I|I].
          - specialize (FL _ I). cbn in FL. lia.
          - specialize (S5 _ I). cbn in S5. pose proof (Z4 _ I) as Z5. cbn in Z5. assert (cmp y x1 <= 0)%Z by (destruct CO as [C1 _]; apply C1; auto; lia).
            pose proof (le_lt y x1 x LY Z3 Z5 H S5). apply lt_iff in H0; auto. lia. }
        destruct HR as (x1 & r1 & -> & ZX & OTH).
        destruct (do_delete w1 v xs k OK1 F0) as (w2 & v2 & E2 & OK2). { rewrite EX, nlen_app, nlen_cons. lia. }
        rewrite (bind_ok _ _ _ _ _ E2). exists true, v2, w2, (ldelete k 1 xs). split; [reflexivity|]. split; [exact OK2|].
        assert (EL : ldelete k 1 xs = l ++ r1).
        { unfold ldelete. rewrite EX, (nfirst_app_l k l _) by exact LK. f_equal. change (l ++ x1 :: r1) with (l ++ [x1] ++ r1). rewrite app_assoc. apply nskip_app_l. rewrite nlen_app. change (nlen [x1]) with 1. lia. }
        rewrite EL. rewrite EX in SO |- *. split; [|split].
        * apply ssorted_app in SO as (S1 & S2 & S3). apply ssorted_app. inversion_clear S2 as [|? ? S4 S5]. split; [exact S1|]. split; [exact S4|].
          rewrite Forall_forall in *. intros x I. specialize (S3 x I). cbn in S3. now inversion S3.
        * rewrite !nlen_app, nlen_cons. lia.
        * split; [split; [intros _|reflexivity]; exists x1; split; [apply in_or_app; right; now left|exact ZX]|].
          intros x. split.
          -- intros I. split; [|now apply OTH]. rewrite in_app_iff in *. cbn [In]. tauto.
          -- intros [I NZ]. rewrite in_app_iff in *. cbn [In] in I. destruct I as [I|[<-|I]]; auto. now destruct NZ.
      + exists false, v, w1, xs. split; [reflexivity|]. split; [exact OK1|]. split; [exact SO|]. split; [lia|]. split.
        * split; [discriminate|]. intros (x & I & Z). exfalso. now apply (T x I).
        * intros x. split; [intros I; split; auto|tauto].
    - exists (r =? ST_TRUE), v, w1, xs. split; [reflexivity|]. split; [exact OK1|]. split; [exact SO|]. split; [lia|]. split; [|tauto].
      destruct T as [[-> T]|[-> T]].
      + split; [intros _; destruct T as (x & I & Z); now exists x|reflexivity].
      + split; [discriminate|]. intros (x & I & Z). exfalso. now apply (T x I).
  Qed.
  Lemma set_run_ok : forall cs w v xs, ok w v xs -> Forall (fun c => nlen (key c) = e) cs -> fits (nlen xs + nlen cs) e -> StronglySorted lt xs ->
    exists bs v' w' xs', set_run cmp v cs w = Ok (bs, v') w' /\ ok w' v' xs' /\ StronglySorted lt xs' /\ set_steps cmp cs (fun x => In x xs) bs (fun x => In x xs').
  Proof.
    induction cs as [|c cs IH]; intros w v xs OK LY F SO.
    - exists [], v, w, xs. split; [reflexivity|]. split; [exact OK|]. split; [exact SO|constructor].
    - inversion_clear LY as [|? ? L1 L2]. rewrite nlen_cons in F.
      destruct (set_call_ok w v xs c OK L1) as (b & v1 & w1 & xs1 & E1 & OK1 & SO1 & LE1 & ST1); auto. { eapply fits_le; [|exact F]. lia. }
      destruct (IH w1 v1 xs1 OK1 L2) as (bs & v2 & w2 & xs2 & E2 & OK2 & SO2 & ST2); auto. { eapply fits_le; [|exact F]. lia. }
      exists (b :: bs), v2, w2, xs2. split; [|split; [exact OK2|split; [exact SO2|econstructor; eauto]]].
      cbn [set_run]. rewrite (bind_ok _ _ _ _ _ E1), (bind_ok _ _ _ _ _ E2). reflexivity.
  Qed.
  Lemma puts_run_ok : forall ys w v xs, ok w v xs -> Forall sized ys -> fits (nlen xs + nlen ys) e -> StronglySorted le xs ->
    exists v' w' xs', puts_run cmp v ys w = Ok (map (fun _ => ST_SUCCESS) ys, v') w' /\ ok w' v' xs' /\ StronglySorted le xs' /\ Permutation (ys ++ xs) xs'.
  Proof.
    induction ys as [|y ys IH]; intros w v xs OK LY F SO.
    - exists v, w, xs. auto.
    - inversion_clear LY as [|? ? L1 L2]. rewrite nlen_cons in F.
      destruct (ok_search w v xs y OK L1) as (r & k & w1 & E & OK1 & LB & T); auto. { eapply fits_le; [|exact F]. lia. }
      destruct (search_split _ _ _ LB) as (l & rr & EX & LK & FL & FR). pose proof (ok_sized _ _ _ OK) as SZ.
      destruct (do_insert w1 v xs k y OK1 L1) as (w2 & v2 & E2 & OK2). { eapply fits_le; [|exact F]. lia. } { apply LB. }
      assert (EL : linsert k [y] xs = l ++ y :: rr).
      { unfold linsert. rewrite EX, (nfirst_app_l k l rr), (nskip_app_l k l rr) by exact LK. reflexivity. }
      rewrite EL in OK2. destruct (IH w2 v2 _ OK2 L2) as (v3 & w3 & xs3 & E3 & OK3 & SO3 & P3).
      { eapply fits_le; [|exact F]. rewrite EX, !nlen_app, nlen_cons. lia. } { rewrite EX in SO, SZ. now apply insert_le. }
      exists v3, w3, xs3. split; [|split; [exact OK3|split; [exact SO3|]]].
      + assert (E1 : put_run cmp v y w = Ok (ST_SUCCESS, v2) w2) by (unfold put_run; rewrite (bind_ok _ _ _ _ _ E); exact E2).
        cbn [puts_run map]. rewrite (bind_ok _ _ _ _ _ E1), (bind_ok _ _ _ _ _ E3). reflexivity.
      + rewrite <- P3. cbn [app]. rewrite EX. rewrite <- (Permutation_middle l rr y). rewrite <- Permutation_middle. reflexivity.
  Qed.
End Sorted.

Section Top.
  Context {C : Type}.
  Implicit Types (w : world C).
  Lemma fresh_ok w0 e cap d g s : init_args_ok w0 e cap d g s ->
    exists v0 w1, vinit_ex e cap d true g s w0 = Ok (ST_SUCCESS, Some v0) w1 /\ ok e w1 v0 [] /\ fits 0 e.
  Proof.
    intros I. destruct (own_run w0 e cap d g s [] I (Forall_nil _)) as (v0 & w1 & rs & v & w & xs & E & ER & SP & R & F & CF & OR & _).
    { unfold room. cbn. reflexivity. }
    cbn in ER. injection ER as <- <- <-. inversion SP; subst. exists v0, w1. split; [exact E|]. unfold cfg_of in CF. injection CF as CA _ _ CE _.
    split; [|exact F]. split; [exact R|]. split; [exact CE|]. split; [now destruct (v_alloc v0)|]. intros _. exact OR.
  Qed.
  Theorem ordered_set w0 e cap d g s cmp cs :
    init_args_ok w0 e cap d g s -> cmp_order e cmp -> Forall (fun c => nlen (key c) = e) cs -> room (nlen cs) e ->
    exists v0 w1 bs v w xs, vinit_ex e cap d true g s w0 = Ok (ST_SUCCESS, Some v0) w1 /\
      set_run cmp v0 cs w1 = Ok (bs, v) w /\ shows w v xs /\ ascending cmp xs /\
      set_steps cmp cs (fun _ => False) bs (fun x => In x xs).
  Proof.
    intros I CO LY RM. destruct (fresh_ok w0 e cap d g s I) as (v0 & w1 & E & OK & _).
    destruct (set_run_ok cmp e CO cs w1 v0 [] OK LY) as (bs & v & w & xs & E2 & OK2 & SO2 & ST2). { exact RM. } { constructor. }
    exists v0, w1, bs, v, w, xs. split; [exact E|]. split; [exact E2|]. split; [eapply rep_shows; apply OK2|]. split; [|exact ST2].
    intros i j x y. rewrite ssorted_nnth in SO2. apply SO2.
  Qed.
  Theorem insertion_sort w0 e cap d g s cmp ys :
    init_args_ok w0 e cap d g s -> cmp_order e cmp -> Forall (fun y => nlen y = e) ys -> room (nlen ys) e ->
    exists v0 w1 v w xs, vinit_ex e cap d true g s w0 = Ok (ST_SUCCESS, Some v0) w1 /\
      puts_run cmp v0 ys w1 = Ok (map (fun _ => ST_SUCCESS) ys, v) w /\ shows w v xs /\ Permutation ys xs /\ sorted_range cmp xs 0 (nlen xs).
  Proof.
    intros I CO LY RM. destruct (fresh_ok w0 e cap d g s I) as (v0 & w1 & E & OK & _).
    destruct (puts_run_ok cmp e CO ys w1 v0 [] OK LY) as (v & w & xs & E2 & OK2 & SO2 & P2). { exact RM. } { constructor. }
    exists v0, w1, v, w, xs. split; [exact E|]. split; [exact E2|]. split; [eapply rep_shows; apply OK2|]. rewrite app_nil_r in P2. split; [exact P2|].
    intros i j x y _ LT _. rewrite ssorted_nnth in SO2. now apply SO2.
  Qed.
End Top.

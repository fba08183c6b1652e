(** More lemmas that the vector property theorems are closed with. *)
From Verif Require Import Base NListFacts Status Mem MemFacts VectorModel VectorSpec VectorDriver
  VectorRep VectorProofs VectorProofs2 VectorProofs3 VectorRefine VectorSearch VectorFail VectorMore
  VectorFinal.
From Coq Require Import ZifyBool ZifyNat ZifyN.

Section VectorFinal2.
  Context {C : Type}.
  Notation vec := (vector C).
  Implicit Types (w : world C) (v : vec).

  Lemma rep_len_lt w v pre xs post : vrep w v pre xs post -> nlen xs < W64.
  Proof. intros R. pose proof (r_le _ _ _ _ _ R). pose proof (rep_cap_lt _ _ _ _ _ R). lia. Qed.

  (** ---- C07 ---- *)
  Lemma find_reached w v xs y cmp i n :
    reached w v xs -> nlen y = v_esz v -> i + n <= nlen xs -> i < nlen xs ->
    exists r f w', with_arg y (fun p => vfind_ex v p cmp i n) w = Ok (r, f) w' /\
      first_match (fun x => cmp x y) xs i (i + n) f /\
      r = (match f with Some _ => ST_TRUE | None => ST_FALSE end) /\
      (forall b, heap w' b = heap w b) /\ dlog w' = dlog w.
  Proof.
    intros H L B1 B2. destruct (reached_rep _ _ _ H) as (pre & post & R & F & NF).
    pose proof (rep_len_lt _ _ _ _ _ R).
    destruct (argw_rep _ _ _ _ _ y R) as (R1 & S1 & N1).
    destruct (find_ok _ _ _ _ _ _ _ cmp i n R1 S1 L ltac:(lia)) as (r & f & E & FR).
    unfold find_result in FR. replace ((nlen xs <? i + n) || (i =? nlen xs)) with false in FR by lia.
    destruct FR as [FM ->].
    destruct (with_arg_pure w v pre xs post y (fun p => vfind_ex v p cmp i n) _ R E) as (w' & E' & HH & D & _).
    eexists _, _, w'. eauto 10.
  Qed.
  Lemma find_all_reached w v xs y cmp :
    reached w v xs -> nlen y = v_esz v -> xs <> [] ->
    exists r f w', with_arg y (fun p => vfind v p cmp) w = Ok (r, f) w' /\
      first_match (fun x => cmp x y) xs 0 (nlen xs) f /\
      r = (match f with Some _ => ST_TRUE | None => ST_FALSE end) /\
      (forall b, heap w' b = heap w b) /\ dlog w' = dlog w.
  Proof.
    intros H L NE. assert (0 < nlen xs). { destruct xs; [congruence|]. rewrite nlen_cons. lia. }
    destruct (reached_rep _ _ _ H) as (pre & post & R & _).
    destruct (find_reached w v xs y cmp 0 (nlen xs) H L ltac:(lia) ltac:(lia)) as (r & f & w' & E & X).
    exists r, f, w'. split; [|exact X]. unfold vfind. rewrite (r_size _ _ _ _ _ R). exact E.
  Qed.

  (** ---- C08 ---- *)
  Lemma bsearch_reached w v xs y cmp i n :
    reached w v xs -> nlen y = v_esz v -> i + n <= nlen xs ->
    cmp_order (v_esz v) cmp -> sorted_range cmp xs i (i + n) ->
    exists r k w', with_arg y (fun p => vbinary_search_ex v p cmp i n) w = Ok (r, Some k) w' /\
      lower_bound cmp xs i (i + n) y k /\
      (r = ST_TRUE /\ (exists j x, i <= j < i + n /\ nnth j xs = Some x /\ cmp x y = 0%Z) \/
       r = ST_FALSE /\ forall j x, i <= j < i + n -> nnth j xs = Some x -> cmp x y <> 0%Z) /\
      (forall b, heap w' b = heap w b) /\ dlog w' = dlog w.
  Proof.
    intros H L B1 CO SO. destruct (reached_rep _ _ _ H) as (pre & post & R & F & NF).
    pose proof (rep_len_lt _ _ _ _ _ R). pose proof (r_esz _ _ _ _ _ R).
    destruct (argw_rep _ _ _ _ _ y R) as (R1 & S1 & N1).
    destruct (bsearch_ok _ _ _ _ _ _ _ cmp i n R1 S1 L ltac:(lia)) as (r & f & E & FR); auto.
    { unfold fits, W64 in *. nia. }
    unfold bsearch_result in FR. replace (nlen xs <? i + n) with false in FR by lia.
    destruct FR as (k & -> & LB & T).
    destruct (with_arg_pure w v pre xs post y (fun p => vbinary_search_ex v p cmp i n) _ R E) as (w' & E' & HH & D & _).
    exists r, k, w'. auto 10.
  Qed.
  Lemma bsearch_all_reached w v xs y cmp :
    reached w v xs -> nlen y = v_esz v ->
    cmp_order (v_esz v) cmp -> sorted_range cmp xs 0 (nlen xs) ->
    exists r k w', with_arg y (fun p => vbinary_search v p cmp) w = Ok (r, Some k) w' /\
      lower_bound cmp xs 0 (nlen xs) y k /\
      (r = ST_TRUE /\ (exists j x, nnth j xs = Some x /\ cmp x y = 0%Z) \/
       r = ST_FALSE /\ forall j x, nnth j xs = Some x -> cmp x y <> 0%Z) /\
      (forall b, heap w' b = heap w b) /\ dlog w' = dlog w.
  Proof.
    intros H L CO SO. destruct (reached_rep _ _ _ H) as (pre & post & R & _).
    destruct (bsearch_reached w v xs y cmp 0 (nlen xs) H L ltac:(lia) CO SO) as (r & k & w' & E & LB & T & X).
    exists r, k, w'. split; [|split; [exact LB|split; [|exact X]]].
    - unfold vbinary_search. rewrite (r_size _ _ _ _ _ R). exact E.
    - destruct T as [(-> & j & x & _ & T)|[-> T]]; [left; eauto|right]. split; [reflexivity|].
      intros j x NX. apply (T j x); auto. apply nnth_lt in NX. lia.
  Qed.

  (** ---- C09 ---- *)
  Lemma other_untouched w v pre xs post u upre ys upost ops :
    vrep w v pre xs post -> vrep w u upre ys upost -> blk u <> blk v -> nofail w u ->
    Forall (arg_ok (v_esz u)) ops -> room (nlen ys + demands ops) (v_esz u) ->
    exists rs u' w' ys', run_ops u ops w = Ok (rs, u') w' /\ shows w' u' ys' /\
      vspecs (cfg_of u) ops (mkst ys (v_cap u) (dlog w)) rs (mkst ys' (v_cap u') (dlog w')) /\
      shows w' v xs.
  Proof.
    intros R U B NF A RM. destruct (run_ops_ok ops w u upre ys upost U NF A RM) as (rs & w' & u' & ys' & E & G & SP).
    destruct (rep_other w w' u u' v pre xs post R) as [R' _]; [apply G|apply G|exact B|].
    exists rs, u', w', ys'. split; [exact E|]. split; [eapply rep_shows; apply G|].
    split; [exact SP|]. eapply rep_shows; eauto.
  Qed.

  Lemma duplicate_reached w v xs cap g s :
    reached w v xs -> allocator_ok w -> N.max 1 (N.max cap (nlen xs)) * v_esz v < W64 ->
    1 <= g < 256 -> s < 256 ->
    exists d w', vduplicate_ex v cap true g s w = Ok (ST_SUCCESS, Some d) w' /\
      shows w' d xs /\ shows w' v xs /\
      vget_capacity d = (ST_SUCCESS, N.max 1 (N.max cap (nlen xs))) /\
      (exists b, v_data d = Some (mkptr b 0) /\ heap w b = None /\
         forall b', b' <> b -> heap w' b' = heap w b') /\ dlog w' = dlog w /\
      forall ops, Forall (arg_ok (v_esz v)) ops -> room (nlen xs + demands ops) (v_esz v) ->
        (exists rs d2 w2 ys, run_ops d ops w' = Ok (rs, d2) w2 /\ shows w2 d2 ys /\
           vspecs (mkcfg false g s (v_esz v) (v_dtor v)) ops
             (mkst xs (N.max 1 (N.max cap (nlen xs))) (dlog w)) rs
             (mkst ys (snd (vget_capacity d2)) (dlog w2)) /\ shows w2 v xs) /\
        (exists rs v2 w2, run_ops v ops w' = Ok (rs, v2) w2 /\ shows w2 d xs).
  Proof.
    intros H AO MM GB SB. destruct (reached_rep _ _ _ H) as (pre & post & R & F & NF).
    destruct (AO (tick w)) as [fill O].
    destruct (duplicate_ok w v pre xs post cap g s fill R O MM GB SB) as
      (w' & d & E & D & V & B & CP & CF & DL & OR & HN & HO).
    assert (AO' : forall t, exists fl, orc w' t = AOk fl) by (intros t; rewrite OR; apply AO).
    assert (DE : v_esz d = v_esz v) by (unfold cfg_of in CF; congruence).
    exists d, w'. split; [exact E|]. split; [eapply rep_shows; eauto|]. split; [eapply rep_shows; eauto|].
    split; [unfold vget_capacity; now rewrite CP|]. split.
    { exists (blk d). split; [rewrite (r_data _ _ _ _ _ D); reflexivity|]. auto. }
    split; [exact DL|]. intros ops A RM. split.
    - destruct (other_untouched w' v pre xs post d [] xs [] ops V D B) as (rs & d2 & w2 & ys & E2 & S2 & SP & SV).
      { intros _. exact AO'. } { now rewrite DE. } { now rewrite DE. }
      rewrite CF, CP, DL in SP. exists rs, d2, w2, ys. auto.
    - destruct (other_untouched w' d [] xs [] v pre xs post ops D V ltac:(congruence)) as
        (rs & d2 & w2 & ys & E2 & S2 & SP & SV); auto.
      { intros _. exact AO'. }
      exists rs, d2, w2. auto.
  Qed.

  Lemma duplicate_custom_reached w v xs b bpre buf bpost cap :
    reached w v xs -> heap w b = Some (bpre ++ buf ++ bpost) ->
    (forall p, v_data v = Some p -> pb p <> b) ->
    nlen buf = cap * v_esz v -> cap * v_esz v < W64 -> 1 <= cap ->
    if cap <? nlen xs
    then vduplicate_custom v (Some (mkptr b (nlen bpre))) cap w = Ok (ST_INSUFFICIENT_BUFFER_SIZE, None) w
    else exists d w' buf', vduplicate_custom v (Some (mkptr b (nlen bpre))) cap w = Ok (ST_SUCCESS, Some d) w' /\
      shows w' d xs /\ shows w' v xs /\ vget_capacity d = (ST_SUCCESS, cap) /\ dlog w' = dlog w /\
      heap w' b = Some (bpre ++ buf' ++ bpost) /\ (forall b', b' <> b -> heap w' b' = heap w b') /\
      forall ops, Forall (arg_ok (v_esz v)) ops -> room (nlen xs + demands ops) (v_esz v) ->
        (exists rs d2 w2 ys, run_ops d ops w' = Ok (rs, d2) w2 /\ shows w2 d2 ys /\
           vspecs (mkcfg true 1 0 (v_esz v) (v_dtor v)) ops (mkst xs cap (dlog w)) rs
             (mkst ys (snd (vget_capacity d2)) (dlog w2)) /\ shows w2 v xs) /\
        (exists rs v2 w2, run_ops v ops w' = Ok (rs, v2) w2 /\ shows w2 d xs).
  Proof.
    intros H HB NB LB MM C1. destruct (reached_rep _ _ _ H) as (pre & post & R & F & NF).
    destruct (N.ltb_spec cap (nlen xs)) as [L|L].
    { unfold vduplicate_custom. rewrite (r_size _ _ _ _ _ R).
      destruct (N.ltb_spec cap (nlen xs)); [reflexivity|lia]. }
    specialize (NB _ (r_data _ _ _ _ _ R)). cbn [pb] in NB.
    destruct (duplicate_custom_ok w v pre xs post b bpre buf bpost cap R HB ltac:(congruence) LB MM C1 L) as
      (w' & d & E & D & V & B & CP & CF & DL & OR & HO).
    assert (DE : v_esz d = v_esz v) by (unfold cfg_of in CF; congruence).
    assert (DA : v_alloc d = false) by (unfold cfg_of in CF; destruct (v_alloc d); [discriminate|reflexivity]).
    destruct (r_heap _ _ _ _ _ D) as (sl & _ & HD). rewrite B in HD.
    exists d, w', (concat xs ++ sl). split; [exact E|]. split; [eapply rep_shows; eauto|]. split; [eapply rep_shows; eauto|].
    split; [unfold vget_capacity; now rewrite CP|].
    split; [exact DL|]. split; [rewrite HD, <- app_assoc; reflexivity|]. split; [exact HO|]. intros ops A RM. split.
    - destruct (other_untouched w' v pre xs post d bpre xs bpost ops V D ltac:(congruence)) as (rs & d2 & w2 & ys & E2 & S2 & SP & SV).
      { intros DX. congruence. } { now rewrite DE. } { now rewrite DE. }
      rewrite CF, CP, DL in SP. exists rs, d2, w2, ys. auto.
    - destruct (other_untouched w' d bpre xs bpost v pre xs post ops D V ltac:(congruence)) as
        (rs & d2 & w2 & ys & E2 & S2 & SP & SV); auto.
      { intros AV t. destruct (NF AV t) as [fl X]. exists fl. now rewrite OR. }
      exists rs, d2, w2. auto.
  Qed.

  (** ---- C10 ---- *)
  Lemma bad_range_rejected w v xs o :
    reached w v xs -> bad_range o (nlen xs) = true -> arg_ok (v_esz v) o ->
    exists r w', run_op v o w = Ok (r, v) w' /\ (r = ST_OUT_OF_RANGE \/ r = ST_INVALID_ARGUMENT) /\
      (forall b, heap w' b = heap w b) /\ dlog w' = dlog w /\ shows w' v xs.
  Proof.
    intros H B A. destruct (reached_rep _ _ _ H) as (pre & post & R & F & NF).
    pose proof (r_size _ _ _ _ _ R) as SZ. pose proof (rep_len_lt _ _ _ _ _ R) as LT.
    assert (PURE : forall r, (r = ST_OUT_OF_RANGE \/ r = ST_INVALID_ARGUMENT) -> run_op v o w = Ok (r, v) w ->
      exists r w', run_op v o w = Ok (r, v) w' /\ (r = ST_OUT_OF_RANGE \/ r = ST_INVALID_ARGUMENT) /\
      (forall b, heap w' b = heap w b) /\ dlog w' = dlog w /\ shows w' v xs).
    { intros r D E. exists r, w. eauto 10 using rep_shows. }
    assert (ARG : forall r x k, (r = ST_OUT_OF_RANGE \/ r = ST_INVALID_ARGUMENT) ->
      run_op v o = with_arg x k -> k (Some (mkptr (nextb w) 0)) (argw w x) = Ok (r, v) (argw w x) ->
      exists r w', run_op v o w = Ok (r, v) w' /\ (r = ST_OUT_OF_RANGE \/ r = ST_INVALID_ARGUMENT) /\
      (forall b, heap w' b = heap w b) /\ dlog w' = dlog w /\ shows w' v xs).
    { intros r x k D -> E. destruct (with_arg_pure _ _ _ _ _ _ _ _ R E) as (w' & E' & HH & DL & R').
      exists r, w'. eauto 10 using rep_shows. }
    destruct o; cbn [bad_range arg_ok] in *; try discriminate.
    - eapply (ARG ST_OUT_OF_RANGE); [auto|reflexivity|]. unfold vinsert, vinsert_range, ret.
      cbn [nonnull negb orb]. replace (1 =? 0) with false by reflexivity. rewrite SZ, B. reflexivity.
    - destruct (N.eqb_spec (nlen xs0) 0) as [Z|Z].
      + eapply (ARG ST_INVALID_ARGUMENT); [auto|reflexivity|]. unfold vinsert_range, ret. rewrite Z. reflexivity.
      + eapply (ARG ST_OUT_OF_RANGE); [auto|reflexivity|]. unfold vinsert_range, ret.
        cbn [nonnull negb orb]. apply N.eqb_neq in Z. rewrite Z, SZ, B. reflexivity.
    - apply (PURE ST_OUT_OF_RANGE); auto. cbn [run_op]. unfold vemplace_ex, bind, ret. rewrite SZ, B. reflexivity.
    - eapply (ARG ST_OUT_OF_RANGE); [auto|reflexivity|]. unfold vset, ret.
      cbn [nonnull negb]. rewrite SZ, B. reflexivity.
    - apply (PURE ST_OUT_OF_RANGE); auto. cbn [run_op]. unfold vswap, ret. rewrite SZ, B. reflexivity.
    - apply (PURE ST_OUT_OF_RANGE); auto. cbn [run_op]. unfold vdelete, vdelete_range, ret.
      replace (1 =? 0) with false by reflexivity. rewrite SZ, wadd_small by lia.
      replace (nlen xs <? i + 1) with true by lia. reflexivity.
    - destruct (N.eqb_spec n 0) as [->|Z].
      + apply (PURE ST_INVALID_ARGUMENT); auto.
      + apply (PURE ST_OUT_OF_RANGE); auto. cbn [run_op]. unfold vdelete_range, ret.
        replace (n =? 0) with false by lia. rewrite SZ, wadd_small by lia.
        replace (nlen xs <? i + n) with true by lia. reflexivity.
    - apply (PURE ST_OUT_OF_RANGE); auto. cbn [run_op]. unfold vpop_back, ret. rewrite SZ, B. reflexivity.
  Qed.

  Lemma get_any_index w v xs i : reached w v xs ->
    match nnth i xs with
    | None => vget v i w = Ok None w /\ vget_pointer v i w = Ok (ST_OUT_OF_RANGE, None) w
    | Some x => exists p, vget v i w = Ok (Some p) w /\ vget_pointer v i w = Ok (ST_SUCCESS, Some p) w /\
                  mread (Some p) (v_esz v) w = Ok x w
    end.
  Proof.
    intros H. destruct (reached_rep _ _ _ H) as (pre & post & R & F & NF).
    pose proof (r_size _ _ _ _ _ R) as SZ. unfold vget, vget_pointer. rewrite SZ.
    destruct (nnth i xs) as [x|] eqn:NX.
    - pose proof (nnth_lt _ _ _ NX). replace (nlen xs <=? i) with false by lia.
      pose proof (r_le _ _ _ _ _ R).
      exists (mkptr (blk v) (nlen pre + i * v_esz v)).
      rewrite !(bind_ok _ _ _ _ _ (rep_assert_valid _ _ _ _ _ R)).
      rewrite (rep_offset _ _ _ _ _ _ R) by lia. split; [reflexivity|]. split; [reflexivity|].
      pose proof (elem_read _ _ _ _ _ _ _ R NX) as E. now rewrite (rep_offset _ _ _ _ _ _ R) in E by lia.
    - assert (nlen xs <= i).
      { destruct (N.le_gt_cases (nlen xs) i) as [|G]; [assumption|].
        destruct (nnth_exists _ _ G). congruence. }
      replace (nlen xs <=? i) with true by lia. auto.
  Qed.

  (** ---- C11 ---- *)
  Lemma emplace_failure w v xs f :
    reached w v xs -> (nlen xs < snd (vget_capacity v) \/ reached_own w v xs) ->
    room (nlen xs + 1) (v_esz v) ->
    (forall x, nlen x = v_esz v -> st_success (fst (f x)) = false /\ nlen (snd (f x)) = v_esz v) ->
    (forall x y, fst (f x) = fst (f y)) ->
    exists v' w' p x, vemplace v (Some f) w = Ok (fst (f x), v', p) w' /\ shows w' v' xs /\
      dlog w' = dlog w.
  Proof.
    intros H RC RM FX FC. destruct (reached_rep _ _ _ H) as (pre & post & R & F & NF).
    destruct (growth_bounds _ _ _ _ _ R) as [GB _].
    destruct (rep_cell _ _ _ _ _ R) as (l & LL).
    destruct (emplace_end_fail w v pre xs post f (fst (f l)) (fun x => snd (f x)) R NF) as (w' & v' & p & E & G & D).
    - now apply growth_le.
    - unfold regrow. cbn [vget_capacity snd] in RC. destruct RC as [RC|RC].
      + replace (nlen xs + 1 <=? v_cap v) with true by lia. discriminate.
      + destruct (reached_own_rep _ _ _ RC) as (_ & _ & AL & _).
        destruct (_ <=? _); [discriminate|]. cbn [cfg_of c_fixed]. rewrite AL. discriminate.
    - intros x LX. destruct (FX x LX) as [F1 F2]. split; [|exact F2].
      rewrite (FC l x). apply surjective_pairing.
    - apply FX. exact LL.
    - exists v', w', p, l. split; [exact E|]. split; [eapply rep_shows; apply G|exact D].
  Qed.

  (** ---- C12 ---- *)
  Lemma nnth_lswap i j k (l : list (list C)) : i < nlen l -> j < nlen l ->
    nnth k (lswap i j l) = if k =? i then nnth j l else if k =? j then nnth i l else nnth k l.
  Proof.
    intros LI LJ. unfold lswap. destruct (nnth_exists _ _ LI) as [x EI]. destruct (nnth_exists _ _ LJ) as [y EJ].
    rewrite EI, EJ. assert (LL : nlen (lset i y l) = nlen l) by now apply nlen_lset.
    destruct (N.eqb_spec k i) as [->|KI].
    - destruct (N.eq_dec i j) as [->|NE].
      + rewrite nnth_lset_same by lia. congruence.
      + rewrite nnth_lset_other by lia. now apply nnth_lset_same.
    - destruct (N.eqb_spec k j) as [->|KJ].
      + apply nnth_lset_same. lia.
      + rewrite !nnth_lset_other; auto; lia.
  Qed.

  Lemma swap_reached w v xs i j :
    reached w v xs -> i <> j ->
    (i < nlen xs -> j < nlen xs -> nlen xs < snd (vget_capacity v) ->
     exists v' w' ys, vswap v i j w = Ok (ST_SUCCESS, v') w' /\ shows w' v' ys /\ dlog w' = dlog w /\
       (forall k, nnth k ys = if k =? i then nnth j xs else if k =? j then nnth i xs else nnth k xs) /\
       exists v2 w2, vswap v' i j w' = Ok (ST_SUCCESS, v2) w2 /\ shows w2 v2 xs) /\
    (nlen xs <= i \/ nlen xs <= j -> vswap v i j w = Ok (ST_OUT_OF_RANGE, v) w) /\
    (i < nlen xs -> j < nlen xs -> nlen xs = snd (vget_capacity v) ->
     vswap v i j w = Ok (ST_INSUFFICIENT_BUFFER_SIZE, v) w).
  Proof.
    intros H NE. destruct (reached_rep _ _ _ H) as (pre & post & R & F & NF). cbn [vget_capacity snd].
    pose proof (r_size _ _ _ _ _ R) as SZ. split; [|split].
    - intros LI LJ LC.
      destruct (swap_ok w v pre xs post i j R NE) as (r & w1 & v1 & xs1 & E & G & SP).
      cbn [vspec s_elems s_cap s_log] in SP.
      replace ((nlen xs <=? i) || (nlen xs <=? j)) with false in SP by lia.
      replace (nlen xs =? v_cap v) with false in SP by lia. destruct SP as [-> SP]. inv SP.
      pose proof (g_rep _ _ _ _ _ _ _ G) as R1.
      destruct (swap_ok w1 v1 pre _ post i j R1 NE) as (r & w2 & v2 & xs2 & E2 & G2 & SP).
      cbn [vspec s_elems s_cap s_log] in SP.
      assert (LS : nlen (lswap i j xs) = nlen xs).
      { unfold lswap. destruct (nnth_exists _ _ LI) as [x EI]. destruct (nnth_exists _ _ LJ) as [y EJ].
        rewrite EI, EJ. rewrite !nlen_lset; auto. now rewrite nlen_lset. }
      rewrite LS in SP.
      replace ((nlen xs <=? i) || (nlen xs <=? j)) with false in SP by lia.
      replace (nlen xs =? v_cap v1) with false in SP by lia. destruct SP as [-> SP]. inv SP.
      exists v1, w1, (lswap i j xs). split; [exact E|]. split; [eapply rep_shows; eauto|].
      split; [congruence|]. split; [intros k; now apply nnth_lswap|].
      exists v2, w2. split; [exact E2|]. pose proof (g_rep _ _ _ _ _ _ _ G2) as R2.
      rewrite lswap_twice in R2. eapply rep_shows; eauto.
    - intros B. unfold vswap, ret. rewrite SZ.
      replace ((nlen xs <=? i) || (nlen xs <=? j)) with true by lia. reflexivity.
    - intros LI LJ LC. unfold vswap, ret. rewrite SZ.
      replace ((nlen xs <=? i) || (nlen xs <=? j)) with false by lia.
      replace (nlen xs =? v_cap v) with true by lia. reflexivity.
  Qed.

  (** ---- C54 ---- *)
  Lemma push_back_own_element w v xs i x :
    reached w v xs -> nnth i xs = Some x -> nlen xs < snd (vget_capacity v) ->
    exists p v' w', vget v i w = Ok (Some p) w /\ vpush_back v (Some p) w = Ok (ST_SUCCESS, v') w' /\
      shows w' v' (xs ++ [x]) /\ tick w' = tick w.
  Proof.
    intros H NX LC. pose proof (get_any_index w v xs i H) as GI. rewrite NX in GI.
    destruct GI as (p & EG & _ & RD). exists p.
    destruct (reached_rep _ _ _ H) as (pre & post & R & F & NF). cbn [vget_capacity snd] in LC.
    pose proof (r_size _ _ _ _ _ R) as SZ. pose proof (rep_cap_lt _ _ _ _ _ R) as CL.
    pose proof (nnth_lt _ _ _ NX) as LI. pose proof (chunked_nnth _ _ _ _ (r_chunk _ _ _ _ _ R) NX) as LX.
    assert (PP : p = mkptr (blk v) (nlen pre + i * v_esz v)).
    { unfold vget in EG. rewrite SZ in EG. replace (nlen xs <=? i) with false in EG by lia.
      rewrite (bind_ok _ _ _ _ _ (rep_assert_valid _ _ _ _ _ R)) in EG.
      rewrite (rep_offset _ _ _ _ _ _ R) in EG by lia. unfold ret in EG. congruence. }
    unfold vpush_back. cbn [nonnull negb].
    rewrite (bind_ok _ _ _ _ _ (rep_assert_valid _ _ _ _ _ R)).
    unfold vgrow, should_grow. rewrite SZ, wadd_small by lia.
    destruct (N.ltb_spec (v_cap v) (nlen xs + 1)); [lia|].
    unfold bind at 1, ret at 1. okst. cbv iota. rewrite SZ.
    pose proof (shift_core w v pre xs [] post 1) as SC. rewrite app_nil_r in SC.
    destruct (SC R ltac:(lia) ltac:(lia)) as (w1 & c & s2 & E1 & Lp & H1 & F1 & D1 & OF & FIN).
    rewrite SZ in E1. rewrite N.ltb_irrefl in E1. unfold ret in E1. inv E1.
    rewrite (bind_ok _ _ w1 tt (upd w1 (blk v) ((pre ++ concat xs) ++ x ++ concat [] ++ s2 ++ post))).
    - rewrite wadd_small by lia. unfold ret. eexists _, _. split; [exact EG|]. split; [reflexivity|].
      split; [|reflexivity].
      specialize (FIN [x]). cbn [concat app] in FIN. rewrite app_nil_r in FIN.
      replace (nlen xs + 1) with (nlen (xs ++ [x])) by (nl; reflexivity).
      eapply rep_shows. apply FIN; [|reflexivity]. apply chunked_cons. split; [assumption|apply chunked_nil].
    - rewrite OF. 
      eapply memcpy_mid; [exact RD|exact LX|exact H1|reflexivity| |].
      + lia.
      + apply overlap_disj. cbn [po].
        rewrite nlen_app, (nlen_concat _ _ (r_chunk _ _ _ _ _ R)).
        right. replace (nlen pre + i * v_esz v + v_esz v) with (nlen pre + (i + 1) * v_esz v) by lia.
        assert ((i + 1) * v_esz v <= nlen xs * v_esz v) by (apply mul_le; lia). lia.
  Qed.

  (** ---- failing initialisation, NULL arguments ---- *)
  Lemma init_failure w e cap d g s st :
    1 <= e -> 1 <= g -> orc w (tick w) = AFail st ->
    exists ov w', vinit_ex e cap d true g s w = Ok (err_status st, ov) w' /\
      (forall b, heap w' b = heap w b) /\ dlog w' = dlog w.
  Proof.
    intros E1 G1 O. unfold vinit_ex. replace ((e =? 0) || negb true || (g <? 1)) with false by lia.
    unfold VECTOR_MIN_CAPACITY, bind, alloc. cbn [v_esz v_cap].
    replace ((e =? 0) || (N.max 1 cap =? 0)) with false by lia.
    rewrite O. unfold ret. eexists _, _. split; [reflexivity|]. auto.
  Qed.
  Lemma null_arguments w v i n :
    vpush_back v None w = Ok (ST_INVALID_ARGUMENT, v) w /\
    vinsert v i None w = Ok (ST_INVALID_ARGUMENT, v) w /\
    vinsert_range v i None n w = Ok (ST_INVALID_ARGUMENT, v) w /\
    vset v i None w = Ok (ST_INVALID_ARGUMENT, v) w.
  Proof. repeat split. Qed.
End VectorFinal2.

(** Calls whose argument points to an element of the same vector. *)
From Verif Require Import Base NListFacts Status Mem MemFacts VectorModel VectorSpec VectorDriver
  VectorRep VectorProofs VectorProofs2 VectorProofs3 VectorRefine VectorSearch VectorFail VectorMore
  VectorFinal VectorFinal2 AliasSpec.
From Coq Require Import ZifyBool ZifyNat ZifyN.

Section VectorAlias.
  Context {C : Type}.
  Notation vec := (vector C).
  Implicit Types (w : world C) (v : vec).

  Lemma own_pointer w v pre xs post i : vrep w v pre xs post -> i < nlen xs ->
    vget v i w = Ok (Some (mkptr (blk v) (nlen pre + i * v_esz v))) w.
  Proof.
    intros R L. unfold vget. rewrite (r_size _ _ _ _ _ R). replace (nlen xs <=? i) with false by lia.
    rewrite (bind_ok _ _ _ _ _ (rep_assert_valid _ _ _ _ _ R)).
    pose proof (r_le _ _ _ _ _ R). rewrite (rep_offset _ _ _ _ _ _ R) by lia. reflexivity.
  Qed.

  (** Growing moves the elements, and the old block is gone. *)
  Lemma vgrow_moves w v pre xs post n :
    vrep w v pre xs post -> grants w v -> v_alloc v = true -> 1 <= n -> fits (nlen xs + n) (v_esz v) ->
    v_cap v < nlen xs + n ->
    exists w' v', vgrow v n w = Ok (ST_SUCCESS, v') w' /\ good w v w' v' pre xs post /\
      nlen xs + n <= v_cap v' /\ blk v' <> blk v /\ heap w' (blk v) = None.
  Proof.
    intros R G A N1 F L. destruct (growth_bounds _ _ _ _ _ R) as [GB _].
    pose proof (vgrow_ok w v pre xs post n R G N1 ltac:(eapply growth_le; eauto)) as V.
    unfold regrow in V. replace (nlen xs + n <=? v_cap v) with false in V by lia.
    cbn [cfg_of c_fixed c_growth] in V. rewrite A in V. cbn [negb] in V.
    destruct V as (w' & v' & E & GD & CC & RM & DD). exists w', v'. split; [exact E|]. split; [exact GD|].
    split; [lia|].
    assert (B : blk v' <> blk v).
    { pose proof (r_size _ _ _ _ _ R) as SZ. pose proof (r_esz _ _ _ _ _ R).
      assert (FN : nlen xs + n < W64) by (unfold fits in F; nia).
      unfold vgrow, should_grow in E. rewrite SZ, wadd_small in E by assumption.
      replace (v_cap v <? nlen xs + n) with true in E by lia.
      unfold vreallocate in E.
      pose proof (r_cap _ _ _ _ _ R) as CP.
      replace (VECTOR_MIN_CAPACITY <=? v_cap v) with true in E by (unfold VECTOR_MIN_CAPACITY; lia).
      unfold assert at 1 in E. rewrite (bind_ok _ _ w tt w eq_refl) in E.
      rewrite (bind_ok _ _ _ _ _ (rep_assert_valid _ _ _ _ _ R)) in E. rewrite A in E. cbn [negb] in E.
      rewrite wmul_small in E by (unfold fits in F; nia).
      replace (N.max 1 ((nlen xs + n) * v_growth v) <? VECTOR_MIN_CAPACITY) with false in E
        by (unfold VECTOR_MIN_CAPACITY; lia).
      destruct (G A) as [fill O]. pose proof (r_alloc _ _ _ _ _ R) as RA. rewrite A in RA. destruct RA as (-> & -> & _).
      destruct (r_heap _ _ _ _ _ R) as (sl & _ & HH). pose proof (r_data _ _ _ _ _ R) as RD.
      unfold vreallocate_to, realloc, bind in E. cbn [set_cap v_data v_esz v_cap] in E. rewrite RD in E. cbn [pb po] in E.
      replace ((v_esz v =? 0) || (N.max 1 ((nlen xs + n) * v_growth v) =? 0)) with false in E by lia.
      cbn [andb] in E. rewrite HH in E. rewrite nlen_nil in E. cbn [N.eqb negb] in E. rewrite O in E.
      unfold ret in E. injection E as <- <-. unfold blk at 1. cbn [set_data v_data set_cap pb].
      pose proof (rep_blk_lt _ _ _ _ _ R). lia. }
    split; [exact B|]. apply (fr_old _ _ _ _ (g_frame _ _ _ _ _ _ _ GD) B).
  Qed.

  Lemma memcpy_dangling w d p n b o : heap w (pb p) = None -> d = Some (mkptr b o) -> b <> pb p ->
    memcpy d (Some p) n w = Fault UseAfterFree.
  Proof.
    intros H -> D. unfold memcpy. rewrite overlap_other by exact D. unfold memmove, bind, mread. now rewrite H.
  Qed.
  Lemma bind_fault {A B} (m : M C A) (k : A -> M C B) w f : m w = Fault f -> bind m k w = Fault f.
  Proof. unfold bind. now intros ->. Qed.

  Lemma insert_own_grow w v pre xs post i j n :
    vrep w v pre xs post -> grants w v -> v_alloc v = true -> 1 <= n -> fits (nlen xs + n) (v_esz v) ->
    v_cap v < nlen xs + n -> j <= nlen xs ->
    vinsert_range v j (Some (mkptr (blk v) i)) n w = Fault UseAfterFree.
  Proof.
    intros R G A N1 F L J. unfold vinsert_range. cbn [nonnull negb]. replace (n =? 0) with false by lia. cbn [orb].
    rewrite (r_size _ _ _ _ _ R). replace (nlen xs <? j) with false by lia.
    rewrite (bind_ok _ _ _ _ _ (rep_assert_valid _ _ _ _ _ R)).
    destruct (vgrow_moves w v pre xs post n) as (w1 & v1 & E1 & GD & RM & B & HN); auto.
    rewrite (bind_ok _ _ _ _ _ E1). change (negb (st_success ST_SUCCESS)) with false. cbv iota.
    destruct (nsplit j xs J) as (a & b & -> & Ha). subst j.
    pose proof (g_rep _ _ _ _ _ _ _ GD) as R1.
    destruct (shift_core w1 v1 pre a b post n) as (w2 & p & s2 & E2 & Lp & H2 & F2 & D2 & OF & FIN); auto.
    rewrite (bind_ok _ _ _ _ _ E2). change (negb (st_success ST_SUCCESS)) with false. cbv iota.
    apply bind_fault. eapply memcpy_dangling; [|exact OF|exact B]. cbn [pb]. rewrite F2 by congruence. exact HN.
  Qed.
  Lemma push_own_grow w v pre xs post i :
    vrep w v pre xs post -> grants w v -> v_alloc v = true -> fits (nlen xs + 1) (v_esz v) -> v_cap v < nlen xs + 1 ->
    vpush_back v (Some (mkptr (blk v) i)) w = Fault UseAfterFree.
  Proof.
    intros R G A F L. unfold vpush_back. cbn [nonnull negb].
    rewrite (bind_ok _ _ _ _ _ (rep_assert_valid _ _ _ _ _ R)).
    destruct (vgrow_moves w v pre xs post 1) as (w1 & v1 & E1 & GD & RM & B & HN); auto; [lia|].
    rewrite (bind_ok _ _ _ _ _ E1). change (negb (st_success ST_SUCCESS)) with false. cbv iota.
    pose proof (g_rep _ _ _ _ _ _ _ GD) as R1. rewrite (r_size _ _ _ _ _ R1).
    apply bind_fault. eapply memcpy_dangling; [exact HN|apply (rep_offset _ _ _ _ _ _ R1); lia|exact B].
  Qed.

  (** Insertion without growth: what is copied is what the slots hold after the shift. *)
  Lemma insert_own w v pre xs post i j n :
    vrep w v pre xs post -> 1 <= n -> i + n <= nlen xs -> j <= nlen xs -> nlen xs + n <= v_cap v ->
    if (i + n <=? j) || (j + n <=? i)
    then exists v' w', vinsert_range v j (Some (mkptr (blk v) (nlen pre + i * v_esz v))) n w = Ok (ST_SUCCESS, v') w' /\
      good w v w' v' pre (linsert j (nsub (if i + n <=? j then i else i - n) n xs) xs) post /\ dlog w' = dlog w
    else vinsert_range v j (Some (mkptr (blk v) (nlen pre + i * v_esz v))) n w = Fault Overlapping.
  Proof.
    intros R N1 I J L.
    pose proof (r_size _ _ _ _ _ R) as SZ. pose proof (rep_cap_lt _ _ _ _ _ R) as CL. pose proof (r_esz _ _ _ _ _ R) as EP.
    pose proof (r_mem _ _ _ _ _ R) as RM.
    destruct (nsplit j xs J) as (a & b & E & Ha). pose proof R as R'. rewrite E in R'.
    destruct (shift_core w v pre a b post n R' N1) as (w2 & p & s2 & E2 & Lp & H2 & F2 & D2 & OF & FIN).
    { rewrite <- E. exact L. }
    destruct (proj1 (chunked_app _ _ _) (r_chunk _ _ _ _ _ R')) as [Ka Kb].
    pose proof (nlen_concat _ _ Ka) as La. pose proof (nlen_concat _ _ Kb) as Lb.
    assert (LX : nlen xs = nlen a + nlen b) by (rewrite E; nl; lia).
    assert (UN : forall m, memcpy (offset v (nlen a)) (Some (mkptr (blk v) (nlen pre + i * v_esz v))) (n * v_esz v) w2 = m ->
      vinsert_range v j (Some (mkptr (blk v) (nlen pre + i * v_esz v))) n w =
        match m with Ok _ w3 => Ok (ST_SUCCESS, set_size v (nlen xs + n)) w3 | Fault f => Fault f end).
    { intros m <-. unfold vinsert_range. cbn [nonnull negb]. replace (n =? 0) with false by lia. cbn [orb].
      rewrite SZ. replace (nlen xs <? j) with false by lia.
      rewrite (bind_ok _ _ _ _ _ (rep_assert_valid _ _ _ _ _ R)).
      unfold vgrow, should_grow. rewrite SZ, wadd_small by lia. replace (v_cap v <? nlen xs + n) with false by lia.
      rewrite (bind_ok _ _ w (ST_SUCCESS, v) w eq_refl). change (negb (st_success ST_SUCCESS)) with false. cbv iota.
      subst j. rewrite (bind_ok _ _ _ _ _ E2). change (negb (st_success ST_SUCCESS)) with false. cbv iota.
      rewrite wmul_small. 2:{ eapply N.le_lt_trans; [|exact RM]. apply mul_le. lia. }
      rewrite SZ, wadd_small by lia. unfold bind.
      destruct (memcpy _ _ _ w2) as [[] w3|f]; reflexivity. }
    assert (SRC : forall ys, nlen ys = n -> chunked (v_esz v) ys ->
      mread (Some (mkptr (blk v) (nlen pre + i * v_esz v))) (n * v_esz v) w2 = Ok (concat ys) w2 ->
      overlap (Some (mkptr (blk v) (nlen (pre ++ concat a)))) (Some (mkptr (blk v) (nlen pre + i * v_esz v))) (n * v_esz v) = false ->
      exists v' w', vinsert_range v j (Some (mkptr (blk v) (nlen pre + i * v_esz v))) n w = Ok (ST_SUCCESS, v') w' /\
        good w v w' v' pre (linsert j ys xs) post /\ dlog w' = dlog w).
    { intros ys Ly Ky RD OV.
      assert (Lc : nlen (concat ys) = n * v_esz v) by (rewrite (nlen_concat _ _ Ky); lia).
      eexists _, _. split; [|split].
      - rewrite (UN (Ok tt (upd w2 (blk v) ((pre ++ concat a) ++ concat ys ++ concat b ++ s2 ++ post)))); [reflexivity|].
        rewrite OF. eapply memcpy_mid; [exact RD|exact Lc|exact H2|reflexivity|exact Lp|exact OV].
      - rewrite E, (linsert_split _ _ _ _ Ha).
        replace (nlen (a ++ b) + n) with (nlen (a ++ ys ++ b)) by (nl; lia). now apply FIN.
      - cbn [upd dlog]. exact D2. }
    destruct (N.leb_spec (i + n) j) as [C1|C1]; cbn [orb].
    - (* source before the gap *)
      destruct (nsplit3 i n a) as (a1 & ys & a3 & Ea & L1 & Ly); [lia|].
      assert (YS : nsub i n xs = ys) by (rewrite E, Ea, <- !app_assoc; now rewrite nsub_mid).
      rewrite YS. subst a. apply chunked_app in Ka as [K1 Ka]. apply chunked_app in Ka as [Ky K3].
      pose proof (nlen_concat _ _ K1) as Lc1. pose proof (nlen_concat _ _ Ky) as Lcy. pose proof (nlen_concat _ _ K3) as Lc3.
      apply SRC; auto.
      + eapply (mread_mid w2 _ _ _ (pre ++ concat a1) (concat ys) (concat a3 ++ p ++ concat b ++ s2 ++ post)).
        * rewrite H2, !concat_app. now napp.
        * nl. lia.
        * lia.
      + apply overlap_disj. cbn [po]. right. rewrite !concat_app. nl.
        assert (i * v_esz v + n * v_esz v = (nlen a1 + nlen ys) * v_esz v) by (rewrite N.mul_add_distr_r; congruence). lia.
    - destruct (N.leb_spec (j + n) i) as [C2|C2].
      + (* source behind the gap *)
        destruct (nsplit3 (i - n - j) n b) as (b1 & ys & b3 & Eb & L1 & Ly); [lia|].
        assert (YS : nsub (i - n) n xs = ys).
        { rewrite E, Eb. replace (a ++ b1 ++ ys ++ b3) with ((a ++ b1) ++ ys ++ b3) by now napp.
          apply nsub_mid; nl; lia. }
        rewrite YS. subst b. apply chunked_app in Kb as [K1 Kb]. apply chunked_app in Kb as [Ky K3].
        pose proof (nlen_concat _ _ K1) as Lc1. pose proof (nlen_concat _ _ Ky) as Lcy.
        apply SRC; auto.
        * eapply (mread_mid w2 _ _ _ (pre ++ concat a ++ p ++ concat b1) (concat ys) (concat b3 ++ s2 ++ post)).
          -- rewrite H2, !concat_app. now napp.
          -- nl. rewrite La, Lp, Lc1. rewrite Ha, L1. rewrite <- !N.mul_add_distr_r, <- ?N.add_assoc, <- ?N.mul_add_distr_r.
             f_equal. f_equal. lia.
          -- lia.
        * apply overlap_disj. cbn [po]. left. nl. rewrite La, Ha.
          assert (j * v_esz v + n * v_esz v <= i * v_esz v) by (rewrite <- N.mul_add_distr_r; apply mul_le; lia). lia.
      + rewrite (UN (Fault Overlapping)); [reflexivity|].
        rewrite OF. unfold memcpy. replace (overlap _ _ _) with true; [reflexivity|].
        symmetry. unfold overlap. cbn [pb po]. nl. rewrite N.eqb_refl, La, Ha. cbn [andb].
        assert (j * v_esz v < i * v_esz v + n * v_esz v) by (rewrite <- N.mul_add_distr_r; apply N.mul_lt_mono_pos_r; lia).
        assert (i * v_esz v < j * v_esz v + n * v_esz v) by (rewrite <- N.mul_add_distr_r; apply N.mul_lt_mono_pos_r; lia).
        assert (0 < n * v_esz v) by nia. lia.
  Qed.

  (** Set *)
  Lemma set_own w v pre xs post i j x y :
    vrep w v pre xs post -> nnth i xs = Some y -> nnth j xs = Some x ->
    if i =? j then vset v i (Some (mkptr (blk v) (nlen pre + j * v_esz v))) w = Fault Overlapping
    else exists w', vset v i (Some (mkptr (blk v) (nlen pre + j * v_esz v))) w = Ok (ST_SUCCESS, v) w' /\
      good w v w' v pre (lset i x xs) post /\ dlog w' = dlog w ++ destroyed (cfg_of v) [y].
  Proof.
    intros R NY NX. pose proof (nnth_lt _ _ _ NY) as LI. pose proof (nnth_lt _ _ _ NX) as LJ.
    pose proof (r_le _ _ _ _ _ R) as LE. pose proof (r_esz _ _ _ _ _ R) as EP.
    assert (ST : exists w1 y', (match v_dtor v with
       | Some f => call_dtor f (offset v i) (v_esz v)
       | None => ret tt end) w = Ok tt w1 /\
       good w v w1 v pre (lset i y' xs) post /\ dlog w1 = dlog w ++ destroyed (cfg_of v) [y]).
    { unfold destroyed. cbn [cfg_of c_dtor]. destruct (v_dtor v) as [f|] eqn:DF.
      - destruct (elem_dtor w v pre _ post i y f R) as (w1 & E1 & G1 & D1); auto.
        exists w1, (f y). auto.
      - exists w, y. split; [reflexivity|]. split; [|now rewrite app_nil_r].
        replace (lset i y xs) with xs; [now apply good_refl|].
        apply nnth_some in NY as (a & c & -> & A). now rewrite lset_split. }
    destruct ST as (w1 & y' & E1 & G1 & D1).
    assert (UN : vset v i (Some (mkptr (blk v) (nlen pre + j * v_esz v))) w =
      (memcpy (offset v i) (offset v j) (v_esz v) ;;; ret (ST_SUCCESS, v)) w1).
    { unfold vset. cbn [nonnull negb]. rewrite (r_size _ _ _ _ _ R). replace (nlen xs <=? i) with false by lia.
      rewrite (bind_ok _ _ _ _ _ (rep_assert_valid _ _ _ _ _ R)). rewrite (bind_ok _ _ _ _ _ E1).
      rewrite (rep_offset _ _ _ _ _ j R) by lia. reflexivity. }
    rewrite UN. pose proof (g_rep _ _ _ _ _ _ _ G1) as R1. destruct (N.eqb_spec i j) as [EQ|NE].
    - subst j. apply bind_fault. unfold memcpy. replace (overlap _ _ _) with true; [reflexivity|].
      rewrite (rep_offset _ _ _ _ _ i R) by lia. unfold overlap. rewrite N.eqb_refl. lia.
    - destruct (elem_copy w1 v pre _ post i j x R1) as (w2 & E2 & G2 & D2); auto.
      { now rewrite nlen_lset. }
      { now rewrite nnth_lset_other. }
      exists w2. rewrite (bind_ok _ _ _ _ _ E2). split; [reflexivity|]. split; [|congruence].
      replace (lset i x xs) with (lset i x (lset i y' xs)).
      + eapply good_trans; [exact G1|apply R|exact G2].
      + apply nnth_some in NY as (a & c & -> & A). now rewrite !lset_split.
  Qed.

  (** SwapElements with one index *)
  Lemma swap_same w v pre xs post i :
    vrep w v pre xs post -> i < nlen xs ->
    vswap v i i w = if nlen xs =? v_cap v then Ok (ST_INSUFFICIENT_BUFFER_SIZE, v) w else Fault Overlapping.
  Proof.
    intros R LI. pose proof (r_le _ _ _ _ _ R) as LE. pose proof (r_esz _ _ _ _ _ R) as EP.
    pose proof (r_size _ _ _ _ _ R) as SZ.
    unfold vswap. rewrite SZ. replace (nlen xs <=? i) with false by lia. cbn [orb].
    destruct (N.eqb_spec (nlen xs) (v_cap v)); [reflexivity|].
    rewrite (bind_ok _ _ _ _ _ (rep_assert_valid _ _ _ _ _ R)).
    destruct (nnth_exists _ _ LI) as [x NX].
    destruct (rep_extend w v (nlen xs) pre xs post 1 (rep_self _ _ _ _ _ R)) as (ts & Lt & Kt & R1).
    { lia. }
    destruct ts as [|t [|? ?]]; [discriminate| |rewrite !nlen_cons in Lt; lia].
    set (v1 := set_size v (nlen xs + 1)) in *.
    assert (OE : forall k, offset v k = offset v1 k) by reflexivity.
    rewrite !OE. change (v_esz v) with (v_esz v1).
    destruct (elem_copy w v1 pre _ post (nlen xs) i x R1) as (w1 & E1 & G1 & D1).
    { nl. lia. } { now rewrite nnth_app1. } { lia. }
    rewrite (bind_ok _ _ _ _ _ E1). apply bind_fault. unfold memcpy. replace (overlap _ _ _) with true; [reflexivity|].
    rewrite (rep_offset _ _ _ _ _ i R1) by (cbn; lia). unfold overlap. rewrite N.eqb_refl. cbn. lia.
  Qed.

  (** Resize with an element of the vector as initializer *)
  Lemma init_loop_own x i : forall k w v pre xs post,
    vrep w (set_size v (nlen xs)) pre xs post -> nlen xs + N.of_nat k <= v_cap v -> nnth i xs = Some x ->
    exists w', init_loop v (nlen xs) (offset v i) k w = Ok tt w' /\
      good w (set_size v (nlen xs)) w' (set_size v (nlen xs + N.of_nat k)) pre (xs ++ repeat x k) post /\
      dlog w' = dlog w.
  Proof.
    induction k as [|k IH]; intros w v pre xs post R L NX; cbn [init_loop repeat].
    - exists w. split; [reflexivity|]. rewrite app_nil_r. split; [|reflexivity].
      replace (nlen xs + N.of_nat 0) with (nlen xs) by lia. now apply good_refl.
    - pose proof (nnth_lt _ _ _ NX) as LI.
      destruct (rep_extend w v (nlen xs) pre xs post 1 R) as (ts & Lt & Kt & R1); [lia|].
      destruct ts as [|t [|? ?]]; [discriminate| |rewrite !nlen_cons in Lt; lia].
      destruct (elem_copy w (set_size v (nlen xs + 1)) pre (xs ++ [t]) post (nlen xs) i x R1)
        as (w1 & E1 & G1 & D1).
      { nl. lia. } { now rewrite nnth_app1. } { lia. }
      rewrite lset_last in G1.
      change (offset (set_size v (nlen xs + 1)) (nlen xs)) with (offset v (nlen xs)) in E1.
      change (offset (set_size v (nlen xs + 1)) i) with (offset v i) in E1.
      change (v_esz (set_size v (nlen xs + 1))) with (v_esz v) in E1.
      rewrite (bind_ok _ _ _ _ _ E1).
      pose proof (rep_cap_lt _ _ _ _ _ R) as CW. cbn in CW.
      rewrite wadd_small by lia.
      assert (LL : nlen (xs ++ [x]) = nlen xs + 1) by (nl; lia).
      destruct (IH w1 v pre (xs ++ [x]) post) as (w2 & E2 & G2 & D2).
      { rewrite LL. apply G1. }
      { lia. }
      { now rewrite nnth_app1. }
      rewrite LL in *. exists w2. split; [exact E2|]. split; [|congruence].
      rewrite <- app_assoc in G2. cbn [app] in G2.
      replace (nlen xs + N.of_nat (S k)) with (nlen xs + 1 + N.of_nat k) by lia.
      destruct G1 as [Ga Gb Gc]. destruct G2 as [Gd Ge Gf]. split; [exact Gd|now repeat split|].
      eapply frame_trans; [apply R| |exact Gf]. destruct Gc. now split.
  Qed.

  Lemma reallocated_blk w v pre xs post c v' w' :
    vrep w v pre xs post -> grants w v -> v_alloc v = true -> 1 <= c ->
    vreallocate v c w = Ok (ST_SUCCESS, v') w' -> blk v' <> blk v.
  Proof.
    intros R G A L E. unfold vreallocate in E. pose proof (r_cap _ _ _ _ _ R) as CP. pose proof (r_esz _ _ _ _ _ R).
    replace (VECTOR_MIN_CAPACITY <=? v_cap v) with true in E by (unfold VECTOR_MIN_CAPACITY; lia).
    unfold assert at 1 in E. rewrite (bind_ok _ _ w tt w eq_refl) in E.
    rewrite (bind_ok _ _ _ _ _ (rep_assert_valid _ _ _ _ _ R)) in E. rewrite A in E. cbn [negb] in E.
    replace (c <? VECTOR_MIN_CAPACITY) with false in E by (unfold VECTOR_MIN_CAPACITY; lia).
    destruct (G A) as [fill O]. pose proof (r_alloc _ _ _ _ _ R) as RA. rewrite A in RA. destruct RA as (-> & -> & _).
    destruct (r_heap _ _ _ _ _ R) as (sl & _ & HH). pose proof (r_data _ _ _ _ _ R) as RD.
    unfold vreallocate_to, realloc, bind in E. cbn [set_cap v_data v_esz v_cap] in E. rewrite RD in E. cbn [pb po] in E.
    replace ((v_esz v =? 0) || (c =? 0)) with false in E by lia.
    cbn [andb] in E. rewrite HH in E. rewrite nlen_nil in E. cbn [N.eqb negb] in E. rewrite O in E.
    unfold ret in E. injection E as <- <-. unfold blk at 1. cbn [set_data v_data set_cap pb].
    pose proof (rep_blk_lt _ _ _ _ _ R). lia.
  Qed.

  Lemma resize_moves_eq v n : resize_moves v n =
    (v_cap v <? n) || negb ((v_shrink v =? 0) || (v_cap v <=? n * v_shrink v)).
  Proof. unfold resize_moves. f_equal. rewrite negb_orb. f_equal; [|apply N.ltb_antisym]. lia. Qed.
  Lemma resize_own w v pre xs post i x n :
    vrep w v pre xs post -> grants w v -> fits n (v_esz v) -> nlen xs < n -> nnth i xs = Some x ->
    if v_alloc v && resize_moves v n
    then vresize_ex v n (Some (mkptr (blk v) (nlen pre + i * v_esz v))) w = Fault UseAfterFree
    else if v_cap v <? n
    then vresize_ex v n (Some (mkptr (blk v) (nlen pre + i * v_esz v))) w = Ok (ST_INSUFFICIENT_BUFFER_SIZE, v) w
    else exists w', vresize_ex v n (Some (mkptr (blk v) (nlen pre + i * v_esz v))) w = Ok (ST_SUCCESS, set_size v n) w' /\
      good w v w' (set_size v n) pre (xs ++ nrepeat x (n - nlen xs)) post /\ dlog w' = dlog w.
  Proof.
    intros R G F L NX. pose proof (nnth_lt _ _ _ NX) as LI. pose proof (r_le _ _ _ _ _ R) as LE.
    pose proof (r_size _ _ _ _ _ R) as SZ.
    unfold vresize_ex. rewrite SZ. replace (n =? nlen xs) with false by lia. replace (n <? nlen xs) with false by lia.
    rewrite (bind_ok (ret tt) _ w tt w eq_refl).
    pose proof (resize_step_ok w v pre xs post n R G ltac:(lia) F) as RS. unfold resize_step in RS.
    assert (SP : should_grow n (v_cap v) || should_shrink n (v_cap v) (v_shrink v) =
                 (v_cap v <? n) || negb (negb (v_alloc v) || (v_shrink v =? 0) || (v_cap v <=? n * v_shrink v))).
    { unfold should_grow. now rewrite (should_shrink_spec _ _ _ _ _ _ R F). }
    assert (NONE : should_grow n (v_cap v) || should_shrink n (v_cap v) (v_shrink v) = false ->
      exists w', (let* (st, v0) := (if should_grow n (v_cap v) || should_shrink n (v_cap v) (v_shrink v)
         then assert (1 <=? v_growth v) ;;; vreallocate v (wmul n (v_growth v)) else ret (ST_SUCCESS, v)) in
       if negb (st_success st) then ret (st, v0) else
       (if nonnull (Some (mkptr (blk v) (nlen pre + i * v_esz v))) && (v_size v0 <? n)
        then init_loop v0 (v_size v0) (Some (mkptr (blk v) (nlen pre + i * v_esz v))) (N.to_nat (n - v_size v0)) else ret tt) ;;;
       ret (ST_SUCCESS, set_size v0 n)) w = Ok (ST_SUCCESS, set_size v n) w' /\
      good w v w' (set_size v n) pre (xs ++ nrepeat x (n - nlen xs)) post /\ dlog w' = dlog w).
    { intros N0. rewrite N0. rewrite (bind_ok _ _ w (ST_SUCCESS, v) w eq_refl).
      change (negb (st_success ST_SUCCESS)) with false. cbv iota. cbn [nonnull andb]. rewrite SZ.
      replace (nlen xs <? n) with true by lia.
      assert (n <= v_cap v).
      { unfold should_grow in N0. apply orb_false_iff in N0 as [N0 _]. lia. }
      destruct (init_loop_own x i (N.to_nat (n - nlen xs)) w v pre xs post) as (w' & E & GD & D).
      { now apply rep_self. } { lia. } { exact NX. }
      rewrite (rep_offset _ _ _ _ _ _ R) in E by lia. exists w'. rewrite (bind_ok _ _ _ _ _ E). split; [reflexivity|].
      split; [|exact D]. replace (nlen xs + N.of_nat (N.to_nat (n - nlen xs))) with n in GD by lia.
      rewrite set_size_self in GD by exact SZ. exact GD. }
    rewrite resize_moves_eq. destruct (v_alloc v) eqn:A; cbn [negb orb andb] in *.
    - destruct ((v_cap v <? n) || negb ((v_shrink v =? 0) || (v_cap v <=? n * v_shrink v))) eqn:MV; cbn [andb].
      + rewrite SP in *. destruct (growth_bounds _ _ _ _ _ R) as [GB _].
        pose proof (r_esz _ _ _ _ _ R).
        destruct (regrow (cfg_of v) (v_cap v) n) as [cap|] eqn:RG.
        2:{ unfold regrow in RG. cbn [cfg_of c_fixed c_growth] in RG. rewrite A in RG. cbn [negb] in RG.
            destruct (n <=? v_cap v); discriminate. }
        destruct RS as (w1 & v1 & E1 & GD & _ & L1 & _). rewrite (bind_ok _ _ _ _ _ E1).
        change (negb (st_success ST_SUCCESS)) with false. cbv iota. cbn [nonnull andb].
        pose proof (g_rep _ _ _ _ _ _ _ GD) as R1. rewrite (r_size _ _ _ _ _ R1). replace (nlen xs <? n) with true by lia.
        replace (1 <=? v_growth v) with true in E1 by lia. unfold assert at 1 in E1.
        rewrite (bind_ok _ _ w tt w eq_refl) in E1.
        assert (FN : n * v_growth v < W64) by (unfold fits in F; nia).
        rewrite wmul_small in E1 by exact FN.
        assert (N1 : 1 <= n * v_growth v) by (pose proof (N.mul_le_mono 1 n 1 (v_growth v)); lia).
        pose proof (reallocated_blk _ _ _ _ _ _ _ _ R G A N1 E1) as B.
        destruct (fr_old _ _ _ _ (g_frame _ _ _ _ _ _ _ GD) B) as (_ & HN & _).
        apply bind_fault. destruct (N.to_nat (n - nlen xs)) as [|k] eqn:K; [lia|]. cbn [init_loop].
        apply bind_fault. eapply memcpy_dangling; [exact HN|apply (rep_offset _ _ _ _ _ _ R1); lia|exact B].
      + replace (v_cap v <? n) with false by lia. apply NONE. now rewrite SP.
    - destruct (N.ltb_spec (v_cap v) n) as [LC|LC].
      + unfold regrow in RS. cbn [cfg_of c_fixed] in RS. rewrite A in RS. cbn [negb] in RS.
        replace (n <=? v_cap v) with false in RS by lia. rewrite (bind_ok _ _ _ _ _ RS). reflexivity.
      + apply NONE. rewrite SP. reflexivity.
  Qed.

  (** Resize without initializer *)
  Lemma resize_move w v pre xs post n :
    vrep w v pre xs post -> grants w v -> fits n (v_esz v) -> nlen xs < n ->
    if v_alloc v && resize_moves v n
    then exists w' v', vresize v n w = Ok (ST_SUCCESS, v') w' /\ blk v' <> blk v /\ heap w' (blk v) = None /\
      v_data v' = Some (mkptr (blk v') (nlen pre)) /\ v_size v' = n
    else if v_cap v <? n then vresize v n w = Ok (ST_INSUFFICIENT_BUFFER_SIZE, v) w
    else vresize v n w = Ok (ST_SUCCESS, set_size v n) w.
  Proof.
    intros R G F L. pose proof (r_size _ _ _ _ _ R) as SZ.
    unfold vresize, vresize_ex. rewrite SZ. replace (n =? nlen xs) with false by lia.
    replace (n <? nlen xs) with false by lia.
    rewrite (bind_ok (ret tt) _ w tt w eq_refl). cbn [nonnull andb].
    pose proof (resize_step_ok w v pre xs post n R G ltac:(lia) F) as RS. unfold resize_step in RS.
    assert (SP : should_grow n (v_cap v) || should_shrink n (v_cap v) (v_shrink v) =
                 (v_cap v <? n) || negb (negb (v_alloc v) || (v_shrink v =? 0) || (v_cap v <=? n * v_shrink v))).
    { unfold should_grow. now rewrite (should_shrink_spec _ _ _ _ _ _ R F). }
    rewrite SP in *. rewrite resize_moves_eq. destruct (v_alloc v) eqn:A; cbn [negb orb andb] in *.
    - destruct ((v_cap v <? n) || negb ((v_shrink v =? 0) || (v_cap v <=? n * v_shrink v))) eqn:MV; cbn [andb].
      + destruct (growth_bounds _ _ _ _ _ R) as [GB _]. pose proof (r_esz _ _ _ _ _ R).
        destruct (regrow (cfg_of v) (v_cap v) n) as [cap|] eqn:RG.
        2:{ unfold regrow in RG. cbn [cfg_of c_fixed c_growth] in RG. rewrite A in RG. cbn [negb] in RG.
            destruct (n <=? v_cap v); discriminate. }
        destruct RS as (w1 & v1 & E1 & GD & _ & L1 & _). rewrite (bind_ok _ _ _ _ _ E1).
        change (negb (st_success ST_SUCCESS)) with false. cbv iota.
        replace (1 <=? v_growth v) with true in E1 by lia. unfold assert at 1 in E1.
        rewrite (bind_ok _ _ w tt w eq_refl) in E1.
        assert (FN : n * v_growth v < W64) by (unfold fits in F; nia).
        rewrite wmul_small in E1 by exact FN.
        assert (N1 : 1 <= n * v_growth v) by (pose proof (N.mul_le_mono 1 n 1 (v_growth v)); lia).
        pose proof (reallocated_blk _ _ _ _ _ _ _ _ R G A N1 E1) as B.
        destruct (fr_old _ _ _ _ (g_frame _ _ _ _ _ _ _ GD) B) as (_ & HN & _).
        exists w1, (set_size v1 n). rewrite (bind_ok (ret tt) _ w1 tt w1 eq_refl). split; [reflexivity|].
        split; [exact B|]. split; [exact HN|]. split; [|reflexivity].
        exact (r_data _ _ _ _ _ (g_rep _ _ _ _ _ _ _ GD)).
      + replace (v_cap v <? n) with false by lia. reflexivity.
    - destruct (N.ltb_spec (v_cap v) n) as [LC|LC].
      + unfold regrow in RS. cbn [cfg_of c_fixed] in RS. rewrite A in RS. cbn [negb] in RS.
        replace (n <=? v_cap v) with false in RS by lia. rewrite (bind_ok _ _ _ _ _ RS). reflexivity.
      + cbn [orb]. reflexivity.
  Qed.
End VectorAlias.

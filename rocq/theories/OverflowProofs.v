(** Vectors whose byte size does not fit into [size_t]. *)
From Verif Require Import Base NListFacts Status Mem MemFacts VectorModel VectorSpec VectorDriver
  VectorRep VectorProofs VectorProofs2 VectorProofs3 VectorRefine VectorSearch VectorFail VectorMore
  VectorFinal VectorFinal2 OverflowSpec.
From Coq Require Import ZifyBool ZifyNat ZifyN.

Section Overflow.
  Context {C : Type}.
  Notation vec := (vector C).
  Implicit Types (w : Mem.world C) (v : vec).

  (** The data of [v] is a block of its own of [m] cells. *)
  Definition block w v (b m : N) : Prop :=
    wfw w /\ v_data v = Some (mkptr b 0) /\ 1 <= v_esz v /\ m < W64 /\ exists buf, heap w b = Some buf /\ nlen buf = m.
  (** It begins with the elements [xs]. *)
  Definition holds w v xs b m : Prop :=
    block w v b m /\ v_size v = nlen xs /\ chunked (v_esz v) xs /\ exists rest, heap w b = Some (concat xs ++ rest).

  Lemma block_valid w v b m : block w v b m -> assert_valid v w = Ok tt w.
  Proof.
    intros (_ & D & E & _). unfold assert_valid, assert. replace (negb (v_esz v =? 0)) with true by lia.
    rewrite (bind_ok (ret tt) _ w tt w eq_refl). now rewrite D.
  Qed.
  Lemma block_offset w v b m i : block w v b m -> i * v_esz v < W64 -> offset v i = Some (mkptr b (i * v_esz v)).
  Proof. intros (_ & D & _) L. unfold offset. rewrite D, wmul_small by assumption. reflexivity. Qed.
  Lemma block_read_out w v b m i : block w v b m -> i * v_esz v < W64 -> m < (i + 1) * v_esz v ->
    i < v_size v -> read_elem v i w = Fault OutOfBounds.
  Proof.
    intros B L O S. unfold read_elem, vget. replace (v_size v <=? i) with false by lia.
    rewrite (bind_ok _ _ w (offset v i) w) by (rewrite (bind_ok _ _ _ _ _ (block_valid _ _ _ _ B)); reflexivity).
    rewrite (block_offset _ _ _ _ _ B L). destruct B as (_ & _ & _ & _ & buf & H & LB).
    unfold bind, mread. cbn [pb po]. rewrite H. replace (i * v_esz v + v_esz v <=? nlen buf) with false by lia. reflexivity.
  Qed.

  Lemma memcpy_out w b o b' n x buf : heap w b = Some buf -> nlen buf < o + n -> heap w b' = Some x -> nlen x = n -> b <> b' ->
    memcpy (Some (mkptr b o)) (Some (mkptr b' 0)) n w = Fault OutOfBounds.
  Proof.
    intros H L H' LX NE. unfold memcpy. rewrite overlap_other by assumption. unfold memmove, bind, mread, mwrite. cbn [pb po].
    rewrite H'. replace (0 + n <=? nlen x) with true by lia. unfold nsub. rewrite nskip_0, nfirst_all by lia.
    rewrite H, LX. replace (o + n <=? nlen buf) with false by lia. reflexivity.
  Qed.
  Lemma block_arg w v b m x : block w v b m -> block (argw w x) v b m /\ b <> nextb w.
  Proof.
    intros (W & D & E & M & buf & H & L).
    assert (NB : b <> nextb w). { intros ->. rewrite W in H by lia. discriminate. }
    split; [|exact NB]. repeat split; auto.
    - intros b' L'. cbn in *. unfold hset. destruct (N.eqb_spec b' (nextb w)); [lia|]. apply W. lia.
    - exists buf. split; [|exact L]. unfold argw. cbn. unfold hset. now destruct (N.eqb_spec b (nextb w)).
  Qed.
  (** PushBack without room in the block. *)
  Lemma push_out w v b m y : block w v b m -> nlen y = v_esz v -> v_size v * v_esz v < W64 ->
    v_size v + 1 < W64 -> v_size v < v_cap v -> m < (v_size v + 1) * v_esz v ->
    run_op v (OPushBack y) w = Fault OutOfBounds.
  Proof.
    intros B LY L SW CP O. cbn [run_op]. unfold with_arg. fold (argw w y).
    destruct (block_arg w v b m y B) as [B' NB].
    assert (E : vpush_back v (Some (mkptr (nextb w) 0)) (argw w y) = Fault OutOfBounds); [|now rewrite E].
    unfold vpush_back. cbn [nonnull negb]. rewrite (bind_ok _ _ _ _ _ (block_valid _ _ _ _ B')).
    unfold vgrow, should_grow. rewrite wadd_small by assumption. replace (v_cap v <? v_size v + 1) with false by lia.
    rewrite (bind_ok (ret _) _ _ _ _ eq_refl). change (negb (st_success ST_SUCCESS)) with false. cbv iota.
    rewrite (block_offset _ _ _ _ _ B' L). destruct B' as (_ & _ & _ & _ & buf & H & LB).
    unfold bind. rewrite (memcpy_out _ _ _ _ _ y buf H); auto; [lia|]. unfold argw. cbn. unfold hset. now rewrite N.eqb_refl.
  Qed.
  (** PushBack with room in the block. *)
  Lemma push_in w v xs b m y : holds w v xs b m -> nlen y = v_esz v -> v_size v < v_cap v -> (v_size v + 1) * v_esz v <= m ->
    exists w', run_op v (OPushBack y) w = Ok (ST_SUCCESS, set_size v (v_size v + 1)) w' /\
      holds w' (set_size v (v_size v + 1)) (xs ++ [y]) b m.
  Proof.
    intros (B & SZ & CH & rest & HH) LY CP O. cbn [run_op]. unfold with_arg. fold (argw w y).
    destruct (block_arg w v b m y B) as [B' NB]. pose proof B as (W & D & E1 & MW & buf & HB & LB).
    assert (SW : v_size v + 1 < W64) by nia. rewrite HH in HB. injection HB as <-.
    pose proof (nlen_concat _ _ CH) as LC.
    assert (LR : v_esz v <= nlen rest) by (rewrite nlen_app, LC in LB; lia).
    assert (HA : heap (argw w y) b = Some (concat xs ++ nfirst (v_esz v) rest ++ nskip (v_esz v) rest)).
    { rewrite nfirst_skip, <- HH. cbn. unfold hset. now destruct (N.eqb_spec b (nextb w)). }
    set (w1 := upd (argw w y) b (concat xs ++ y ++ nskip (v_esz v) rest)).
    assert (MC : memcpy (Some (mkptr b (v_size v * v_esz v))) (Some (mkptr (nextb w) 0)) (v_esz v) (argw w y) = Ok tt w1).
    { apply (memcpy_mid (argw w y) _ (v_esz v) b (v_size v * v_esz v) (concat xs) (nfirst (v_esz v) rest)); auto.
      - apply (mread_mid _ _ _ _ [] y []); auto. cbn. unfold hset. now rewrite N.eqb_refl, app_nil_r.
      - rewrite LC. now rewrite SZ.
      - rewrite nlen_nfirst. lia.
      - now apply overlap_other. }
    assert (E : vpush_back v (Some (mkptr (nextb w) 0)) (argw w y) = Ok (ST_SUCCESS, set_size v (v_size v + 1)) w1).
    { unfold vpush_back. cbn [nonnull negb]. rewrite (bind_ok _ _ _ _ _ (block_valid _ _ _ _ B')).
      unfold vgrow, should_grow. rewrite wadd_small by assumption. replace (v_cap v <? v_size v + 1) with false by lia.
      rewrite (bind_ok (ret _) _ _ _ _ eq_refl). change (negb (st_success ST_SUCCESS)) with false. cbv iota.
      rewrite (block_offset _ _ _ _ _ B') by lia. rewrite (bind_ok _ _ _ _ _ MC). rewrite wadd_small by assumption. reflexivity. }
    rewrite E. eexists. split; [reflexivity|].
    assert (HW : heap (dropw w1 (nextb w)) b = Some (concat (xs ++ [y]) ++ nskip (v_esz v) rest)).
    { cbn. unfold hset. destruct (N.eqb_spec b (nextb w)); [contradiction|]. rewrite N.eqb_refl.
      rewrite concat_app. cbn [concat]. now rewrite app_nil_r, <- app_assoc. }
    split; [|split; [|split]].
    - split; [|split; [exact D|split; [exact E1|split; [exact MW|]]]].
      + intros b' L'. cbn in *. unfold hset. destruct (N.eqb_spec b' (nextb w)); [reflexivity|].
        destruct (N.eqb_spec b' b); [|apply W; lia]. subst b'. rewrite W in HH by lia. discriminate.
      + eexists. split; [exact HW|]. rewrite concat_app. cbn [concat]. rewrite app_nil_r, <- app_assoc, !nlen_app, nlen_nskip.
        rewrite nlen_app in LB. lia.
    - cbn [v_size set_size]. rewrite nlen_app, SZ. reflexivity.
    - apply Forall_app. split; [exact CH|]. constructor; [exact LY|constructor].
    - eexists. exact HW.
  Qed.
  Lemma pushes_out : forall ys w v xs b m, holds w v xs b m -> Forall (fun y => nlen y = v_esz v) ys ->
    nlen xs + nlen ys <= v_cap v -> v_cap v < W64 -> m < (nlen xs + nlen ys) * v_esz v ->
    run_ops v (map OPushBack ys) w = Fault OutOfBounds.
  Proof.
    induction ys as [|y ys IH]; intros w v xs b m H K L CW O.
    - destruct H as ((_ & _ & _ & _ & buf & H1 & LB) & SZ & CH & rest & H2). rewrite H1 in H2. injection H2 as ->.
      rewrite nlen_app, (nlen_concat _ _ CH) in LB. rewrite nlen_nil in O. lia.
    - inv K. rewrite nlen_cons in *. pose proof H as (B & SZ & CH & rest & HH). cbn [map run_ops].
      destruct (N.le_gt_cases ((v_size v + 1) * v_esz v) m) as [I|I].
      + destruct (push_in w v xs b m y H H2 ltac:(lia) I) as (w1 & E & H').
        rewrite (bind_ok _ _ _ _ _ E). unfold bind. rewrite (IH w1 (set_size v (v_size v + 1)) (xs ++ [y]) b m H'); auto.
        * rewrite nlen_app. change (nlen [y]) with 1. cbn [set_size v_cap]. lia.
        * rewrite nlen_app. change (nlen [y]) with 1. cbn [set_size v_esz]. lia.
      + unfold bind. rewrite (push_out w v b m y B H2); auto; try lia.
        destruct B as (_ & _ & _ & MW & buf & HB & LB). rewrite HH in HB. injection HB as <-.
        rewrite nlen_app, (nlen_concat _ _ CH) in LB. lia.
  Qed.

  (** What ZyanVectorReallocate makes of the elements. *)
  Lemma reallocate_to_any w v xs c : vrep w v [] xs [] -> v_alloc v = true -> (exists fill, orc w (tick w) = AOk fill) ->
    1 <= c < W64 ->
    let m := (c * v_esz v) mod W64 in
    exists w' b, vreallocate_to v c w = Ok (ST_SUCCESS, set_data (set_cap v c) (Some (mkptr b 0))) w' /\
      block w' (set_data (set_cap v c) (Some (mkptr b 0))) b m /\ dlog w' = dlog w /\ 
      (forall b', b' < nextb w -> b' <> blk v -> heap w' b' = heap w b' /\ b' <> b) /\
      (nlen xs * v_esz v <= m -> holds w' (set_data (set_cap v c) (Some (mkptr b 0))) xs b m).
  Proof.
    intros R A [fill O] CB m. pose proof (r_data _ _ _ _ _ R) as D. pose proof (r_esz _ _ _ _ _ R) as E1.
    destruct (r_heap _ _ _ _ _ R) as (slack & _ & HH). cbn [app] in HH. rewrite app_nil_r in HH.
    pose proof (rep_blk_lt _ _ _ _ _ R) as BL. pose proof (r_wf _ _ _ _ _ R) as W.
    assert (MM : wmul (v_esz v) c = m) by (unfold wmul, m; now rewrite N.mul_comm).
    assert (MW : m < W64) by (apply N.mod_lt; discriminate).
    set (buf := concat xs ++ slack) in *.
    set (buf' := nfirst m buf ++ nskip (nlen buf) (fresh fill m)).
    assert (LB' : nlen buf' = m).
    { unfold buf'. rewrite nlen_app, nlen_nfirst, nlen_nskip, nlen_fresh. lia. }
    eexists. exists (nextb w). split; [|split; [|split; [|split]]].
    - unfold vreallocate_to. cbn [v_data v_esz v_cap set_cap]. rewrite D.
      unfold bind, realloc. replace ((v_esz v =? 0) || (c =? 0)) with false by lia. cbn [andb pb po].
      rewrite HH, O, MM. cbn [nlen]. change (negb (nlen (@nil C) =? 0)) with false. cbv iota. fold buf'. reflexivity.
    - split; [|split; [reflexivity|split; [exact E1|split; [exact MW|]]]].
      + intros b' L'. cbn in *. unfold hset. destruct (N.eqb_spec b' (nextb w)); [lia|].
        destruct (N.eqb_spec b' (blk v)); [reflexivity|]. apply W. lia.
      + exists buf'. split; [|exact LB']. cbn. unfold hset. now rewrite N.eqb_refl.
    - reflexivity.
    - intros b' L' NB. cbn. unfold hset. split; [|lia]. destruct (N.eqb_spec b' (nextb w)); [lia|]. now destruct (N.eqb_spec b' (blk v)).
    - intros L. split; [|split; [exact (r_size _ _ _ _ _ R)|split; [exact (r_chunk _ _ _ _ _ R)|]]].
      + split; [|split; [reflexivity|split; [exact E1|split; [exact MW|]]]].
        * intros b' L'. cbn in *. unfold hset. destruct (N.eqb_spec b' (nextb w)); [lia|].
          destruct (N.eqb_spec b' (blk v)); [reflexivity|]. apply W. lia.
        * exists buf'. split; [|exact LB']. cbn. unfold hset. now rewrite N.eqb_refl.
      + exists (nfirst (m - nlen (concat xs)) slack ++ nskip (nlen buf) (fresh fill m)). cbn. unfold hset. rewrite N.eqb_refl. f_equal.
        rewrite app_assoc. unfold buf', buf. f_equal. rewrite (nlen_concat _ _ (r_chunk _ _ _ _ _ R)).
        unfold nfirst. rewrite firstn_app. f_equal.
        * rewrite firstn_all2; [reflexivity|]. pose proof (nlen_concat _ _ (r_chunk _ _ _ _ _ R)) as LC. unfold nlen in LC, L. lia.
        * f_equal. pose proof (nlen_concat _ _ (r_chunk _ _ _ _ _ R)) as LC. unfold nlen in LC |- *. lia.
  Qed.

  (** Reserve. *)
  Lemma reserve_any w v xs n : reached_own w v xs -> snd (vget_capacity v) < n < W64 ->
    let m := (n * v_esz v) mod W64 in
    exists w' v' b, vreserve v n w = Ok (ST_SUCCESS, v') w' /\ v_cap v' = n /\ v_size v' = nlen xs /\ v_esz v' = v_esz v /\
      block w' v' b m /\ (nlen xs * v_esz v <= m -> holds w' v' xs b m).
  Proof.
    intros H CB m. cbn [vget_capacity snd] in CB. destruct (reached_own_rep _ _ _ H) as (R & F & A & O).
    pose proof (r_cap _ _ _ _ _ R) as C1.
    destruct (reallocate_to_any w v xs n R A (O _) ltac:(lia)) as (w' & b & E & B & _ & _ & HO). fold m in B, HO.
    exists w'. eexists. exists b. split; [|split; [|split; [|split; [|split; [exact B|exact HO]]]]]; try reflexivity.
    - unfold vreserve. replace (v_cap v <? n) with true by lia. unfold vreallocate, VECTOR_MIN_CAPACITY.
      replace (1 <=? v_cap v) with true by lia. unfold assert at 1. rewrite (bind_ok (ret tt) _ w tt w eq_refl).
      rewrite (bind_ok _ _ _ _ _ (rep_assert_valid _ _ _ _ _ R)). rewrite A. cbn [negb].
      replace (n <? 1) with false by lia. exact E.
    - exact (r_size _ _ _ _ _ R).
  Qed.
  Lemma pushes_out_any ys w v xs b m : block w v b m -> v_size v = nlen xs -> nlen xs * v_esz v < W64 ->
    (nlen xs * v_esz v <= m -> holds w v xs b m) -> ys <> [] -> Forall (fun y => nlen y = v_esz v) ys ->
    nlen xs + nlen ys <= v_cap v -> v_cap v < W64 -> m < (nlen xs + nlen ys) * v_esz v ->
    run_ops v (map OPushBack ys) w = Fault OutOfBounds.
  Proof.
    intros B SZ LW HO NE K L CW O. destruct (N.le_gt_cases (nlen xs * v_esz v) m) as [I|I].
    - eapply pushes_out; eauto.
    - destruct ys as [|y ys]; [congruence|]. inv K. rewrite nlen_cons in *. cbn [map run_ops]. unfold bind.
      pose proof B as (_ & _ & E1 & _).
      rewrite (push_out w v b m y B); auto; try (rewrite SZ; lia); lia.
  Qed.
  Lemma reserve_overflow w v xs n : reached_own w v xs -> snd (vget_capacity v) < n < W64 -> W64 <= n * v_esz v ->
    exists v' w', vreserve v n w = Ok (ST_SUCCESS, v') w' /\ vget_capacity v' = (ST_SUCCESS, n) /\
      (forall ys, Forall (fun y => nlen y = v_esz v) ys -> ys <> [] -> nlen xs + nlen ys <= n ->
         (n * v_esz v) mod W64 < (nlen xs + nlen ys) * v_esz v ->
         run_ops v' (map OPushBack ys) w' = Fault OutOfBounds) /\
      (let i := (n * v_esz v) mod W64 / v_esz v in i < nlen xs -> read_elem v' i w' = Fault OutOfBounds).
  Proof.
    intros H CB O. destruct (reserve_any w v xs n H CB) as (w' & v' & b & E & CP & SZ & ES & B & HO).
    destruct (reached_own_rep _ _ _ H) as (R & F & A & _). pose proof (r_esz _ _ _ _ _ R) as E1.
    assert (LW : nlen xs * v_esz v < W64) by (unfold fits in F; nia).
    exists v', w'. split; [exact E|]. split; [unfold vget_capacity; now rewrite CP|]. split.
    - intros ys K NE L OV. rewrite <- ES in *. eapply pushes_out_any; eauto; rewrite ?CP; auto; lia.
    - intros i I. set (m := (n * v_esz v) mod W64) in *.
      pose proof (N.div_mod m (v_esz v) ltac:(lia)) as DM. fold i in DM. pose proof (N.mod_lt m (v_esz v) ltac:(lia)).
      eapply block_read_out; [exact B| | |]; rewrite ?ES, ?SZ; [|lia|exact I]. nia.
  Qed.
  Lemma reserve_enough w v xs n : reached_own w v xs -> snd (vget_capacity v) < n -> n * v_esz v < W64 ->
    exists v' w', vreserve v n w = Ok (ST_SUCCESS, v') w' /\ vget_capacity v' = (ST_SUCCESS, n) /\ shows w' v' xs /\
      forall ys, Forall (fun y => nlen y = v_esz v) ys -> nlen xs + nlen ys <= n ->
        exists v2 w2, run_ops v' (map OPushBack ys) w' = Ok (map (fun _ => ST_SUCCESS) ys, v2) w2 /\ shows w2 v2 (xs ++ ys) /\
          tick w2 = tick w'.
  Proof.
    intros H CB NW. cbn [vget_capacity snd] in CB. destruct (reached_own_rep _ _ _ H) as (R & F & A & O).
    assert (G : grants w v) by (intros _; apply O).
    destruct (reserve_ok w v [] xs [] n R G NW) as (r & w' & v' & xs' & E & GD & S).
    cbn [vspec cfg_of c_fixed s_elems s_cap s_log] in S. replace (n <=? v_cap v) with false in S by lia. rewrite A in S. cbn [negb] in S.
    destruct S as [-> S]. injection S as S1 CP _. subst xs'.
    exists v', w'. split; [exact E|]. split; [unfold vget_capacity; now rewrite CP|]. split; [eapply rep_shows, GD|].
    intros ys K L. destruct (g_cfg _ _ _ _ _ _ _ GD) as (_ & _ & _ & CE & _).
    destruct (pushes_room ys w' v' [] xs [] (g_rep _ _ _ _ _ _ _ GD)) as (v2 & w2 & E2 & T & _ & _ & R2); [now rewrite CE|lia|].
    exists v2, w2. split; [exact E2|]. split; [eapply rep_shows, R2|exact T].
  Qed.

  (** Init. *)
  Lemma init_overflow w e cap d g s : world_ok w -> allocator_ok w -> 1 <= e -> 1 <= g -> cap < W64 -> W64 <= cap * e ->
    exists v w', vinit_ex e cap d true g s w = Ok (ST_SUCCESS, Some v) w' /\ vget_capacity v = (ST_SUCCESS, cap) /\
      forall ys, Forall (fun y => nlen y = e) ys -> nlen ys <= cap -> (cap * e) mod W64 < nlen ys * e ->
        run_ops v (map OPushBack ys) w' = Fault OutOfBounds.
  Proof.
    intros W AO E1 G1 CW O. destruct (AO (tick w)) as [fill OR].
    assert (C1 : 1 <= cap) by (destruct (N.eq_dec cap 0); [subst; cbn in O; lia|lia]).
    assert (MW : (cap * e) mod W64 < W64) by (apply N.mod_lt; discriminate).
    eexists. eexists. split; [|split].
    - unfold vinit_ex. replace ((e =? 0) || negb true || (g <? 1)) with false by (cbn [negb]; lia).
      unfold VECTOR_MIN_CAPACITY. replace (N.max 1 cap) with cap by lia. cbn [v_esz v_cap].
      unfold bind, alloc. replace ((e =? 0) || (cap =? 0)) with false by lia. cbn [andb]. rewrite OR. reflexivity.
    - reflexivity.
    - intros ys K L OV. eapply (pushes_out ys _ _ [] (nextb w) ((cap * e) mod W64)).
      + split; [|split; [reflexivity|split; [constructor|]]].
        * split; [|split; [reflexivity|split; [exact E1|split; [exact MW|]]]].
          -- intros b L'. cbn in *. unfold hset. destruct (N.eqb_spec b (nextb w)); [lia|]. apply W. lia.
          -- eexists. split; [cbn; unfold hset; rewrite N.eqb_refl; reflexivity|]. rewrite nlen_fresh. unfold wmul. now rewrite N.mul_comm.
        * eexists. cbn. unfold hset. rewrite N.eqb_refl. reflexivity.
      + exact K.
      + exact L.
      + exact CW.
      + exact OV.
  Qed.

  (** Resize. *)
  Lemma resize_block w v xs n : vrep w v [] xs [] -> v_alloc v = true -> (forall t, exists fill, orc w t = AOk fill) ->
    v_cap v < n < W64 ->
    exists w' v' b, (assert (1 <=? v_growth v) ;;; vreallocate v (wmul n (v_growth v))) w = Ok (ST_SUCCESS, v') w' /\
      v_size v' = nlen xs /\ v_esz v' = v_esz v /\ block w' v' b (after_resize v n) /\
      (forall b', b' < nextb w -> b' <> blk v -> heap w' b' = heap w b' /\ b' <> b).
  Proof.
    intros R A O CB. pose proof (r_cap _ _ _ _ _ R) as C1. pose proof (r_alloc _ _ _ _ _ R) as RA. rewrite A in RA.
    destruct RA as (_ & _ & GB & _). pose proof (r_esz _ _ _ _ _ R) as E1.
    unfold assert at 1. replace (1 <=? v_growth v) with true by lia. rewrite (bind_ok (ret tt) _ w tt w eq_refl).
    unfold vreallocate, VECTOR_MIN_CAPACITY.
    replace (1 <=? v_cap v) with true by lia. unfold assert at 1. rewrite (bind_ok (ret tt) _ w tt w eq_refl).
    rewrite (bind_ok _ _ _ _ _ (rep_assert_valid _ _ _ _ _ R)). rewrite A. cbn [negb].
    assert (WM : wmul n (v_growth v) = (n * v_growth v) mod W64) by reflexivity.
    assert (MW : (n * v_growth v) mod W64 < W64) by (apply N.mod_lt; discriminate).
    unfold after_resize. destruct (N.ltb_spec (wmul n (v_growth v)) 1) as [Z|Z].
    - replace (N.max 1 ((n * v_growth v) mod W64)) with 1 by lia.
      destruct (N.ltb_spec 1 (v_cap v)) as [Q|Q].
      + destruct (reallocate_to_any w v xs 1 R A (O _) ltac:(split; [lia|reflexivity])) as (w' & b & E & B & _ & FR & _).
        exists w'. eexists. exists b. split; [exact E|]. split; [exact (r_size _ _ _ _ _ R)|]. split; [reflexivity|]. split; [exact B|exact FR].
      + exists w, v, (blk v). split; [reflexivity|]. split; [exact (r_size _ _ _ _ _ R)|]. split; [reflexivity|]. split; [|now split].
        destruct (r_heap _ _ _ _ _ R) as (sl & SL & HH). apply (spare_exact _ _ _ (fun _ => O)) in SL.
        pose proof (r_mem _ _ _ _ _ R) as MM. pose proof (r_le _ _ _ _ _ R) as LE.
        assert (C1' : v_cap v = 1) by lia. rewrite C1' in *.
        split; [exact (r_wf _ _ _ _ _ R)|]. split; [exact (r_data _ _ _ _ _ R)|]. split; [exact E1|].
        split; [apply N.mod_lt; discriminate|]. cbn [app] in HH. rewrite app_nil_r in HH.
        eexists. split; [exact HH|]. rewrite nlen_app, SL, (nlen_concat _ _ (r_chunk _ _ _ _ _ R)), <- N.mul_add_distr_r.
        rewrite N.mod_small by lia. f_equal. lia.
    - rewrite WM in *. replace (N.max 1 ((n * v_growth v) mod W64)) with ((n * v_growth v) mod W64) by lia.
      destruct (reallocate_to_any w v xs _ R A (O _) (conj Z MW)) as (w' & b & E & B & _ & FR & _).
      exists w'. eexists. exists b. split; [exact E|]. split; [exact (r_size _ _ _ _ _ R)|]. split; [reflexivity|]. split; [exact B|exact FR].
  Qed.

  Lemma resize_out w v xs n : vrep w v [] xs [] -> v_alloc v = true -> (forall t, exists fill, orc w t = AOk fill) ->
    v_cap v < n < W64 ->
    exists w' v' b, vresize v n w = Ok (ST_SUCCESS, v') w' /\ v_size v' = n /\ v_esz v' = v_esz v /\ block w' v' b (after_resize v n).
  Proof.
    intros R A O CB. destruct (resize_block w v xs n R A O CB) as (w' & v' & b & E & SZ & ES & B & _).
    pose proof (r_le _ _ _ _ _ R) as LE.
    exists w', (set_size v' n), b. split; [|split; [reflexivity|split; [exact ES|exact B]]].
    unfold vresize, vresize_ex. rewrite (r_size _ _ _ _ _ R). replace (n =? nlen xs) with false by lia. replace (n <? nlen xs) with false by lia.
    rewrite (bind_ok (ret tt) _ w tt w eq_refl). unfold should_grow. replace (v_cap v <? n) with true by lia. cbn [orb].
    rewrite (bind_ok _ _ _ _ _ E). reflexivity.
  Qed.
  Lemma first_out m e n : 1 <= e -> m < n * e -> m / e < n /\ m / e * e <= m /\ m < (m / e + 1) * e.
  Proof.
    intros E1 L. pose proof (N.div_mod m e ltac:(lia)) as DM. pose proof (N.mod_lt m e ltac:(lia)). nia.
  Qed.
  Lemma resize_overflow w v xs n : reached_own w v xs -> snd (vget_capacity v) < n < W64 -> after_resize v n < n * v_esz v ->
    exists v' w' i, vresize v n w = Ok (ST_SUCCESS, v') w' /\ vget_size v' = (ST_SUCCESS, n) /\ i < n /\
      read_elem v' i w' = Fault OutOfBounds.
  Proof.
    intros H CB L. destruct (reached_own_rep _ _ _ H) as (R & F & A & O). pose proof (r_esz _ _ _ _ _ R) as E1.
    destruct (resize_out w v xs n R A O CB) as (w' & v' & b & E & SZ & ES & B).
    destruct (first_out _ _ _ E1 L) as (I & I1 & I2). exists v', w', (after_resize v n / v_esz v).
    split; [exact E|]. split; [unfold vget_size; now rewrite SZ|]. split; [exact I|].
    assert (MW : after_resize v n < W64) by (apply N.mod_lt; discriminate).
    eapply block_read_out; [exact B| | |]; rewrite ?ES, ?SZ; lia.
  Qed.

  (** ResizeEx: the new elements are written. *)
  Lemma init_loop_out : forall k w v b m first p x, block w v b m -> first * v_esz v < W64 -> m < (first + N.of_nat k) * v_esz v ->
    nlen x = v_esz v -> heap w p = Some x -> p <> b -> (k <> 0)%nat ->
    init_loop v first (Some (mkptr p 0)) k w = Fault OutOfBounds.
  Proof.
    induction k as [|k IH]; intros w v b m first p x B L O LX HX NE K0; [congruence|].
    cbn [init_loop]. pose proof B as (W & D & E1 & MW & buf & HB & LB).
    rewrite (block_offset _ _ _ _ _ B L). destruct (N.le_gt_cases ((first + 1) * v_esz v) m) as [I|I].
    - destruct (nsplit3 (first * v_esz v) (v_esz v) buf) as (a & y & c & EB & LA & LY); [lia|]. subst buf.
      assert (MC : memcpy (Some (mkptr b (first * v_esz v))) (Some (mkptr p 0)) (v_esz v) w = Ok tt (upd w b (a ++ x ++ c))).
      { apply (memcpy_mid w _ (v_esz v) b (first * v_esz v) a y c x); auto.
        - apply (mread_mid w p 0 (v_esz v) [] x []); auto. now rewrite app_nil_r.
        - apply overlap_other. cbn [pb]. congruence. }
      rewrite (bind_ok _ _ _ _ _ MC). rewrite wadd_small by nia.
      apply (IH _ _ b m (first + 1) p x); auto; try lia.
      + split; [|split; [exact D|split; [exact E1|split; [exact MW|]]]].
        * intros b' L'. cbn in *. unfold hset. destruct (N.eqb_spec b' b); [|apply W; lia]. subst. rewrite W in HB by lia. discriminate.
        * eexists. split; [apply heap_upd_same|]. rewrite !nlen_app in *. lia.
      + rewrite heap_upd_other by assumption. exact HX.
    - unfold bind. rewrite (memcpy_out w b _ p (v_esz v) x buf HB); auto. lia.
  Qed.
  Lemma resize_ex_overflow w v xs n x : reached_own w v xs -> snd (vget_capacity v) < n < W64 -> nlen x = v_esz v ->
    after_resize v n < n * v_esz v -> run_op v (OResizeEx n x) w = Fault OutOfBounds.
  Proof.
    intros H CB LX L. destruct (reached_own_rep _ _ _ H) as (R & F & A & O). pose proof (r_esz _ _ _ _ _ R) as E1.
    cbn [run_op]. unfold with_arg. fold (argw w x). destruct (argw_rep _ _ _ _ _ x R) as (R' & SR & NB).
    assert (O' : forall t, exists fill, orc (argw w x) t = AOk fill) by exact O.
    destruct (resize_block (argw w x) v xs n R' A O' CB) as (w' & v' & b & E & SZ & ES & B & FR).
    pose proof (r_le _ _ _ _ _ R) as LE. cbn [vget_capacity snd] in CB.
    assert (X : vresize_ex v n (Some (mkptr (nextb w) 0)) (argw w x) = Fault OutOfBounds); [|now rewrite X].
    unfold vresize_ex. rewrite (r_size _ _ _ _ _ R). replace (n =? nlen xs) with false by lia. replace (n <? nlen xs) with false by lia.
    rewrite (bind_ok (ret tt) _ _ tt _ eq_refl). unfold should_grow. replace (v_cap v <? n) with true by lia. cbn [orb].
    rewrite (bind_ok _ _ _ _ _ E). change (negb (st_success ST_SUCCESS)) with false. cbv iota. cbn [nonnull]. rewrite SZ.
    replace (true && (nlen xs <? n)) with true by lia.
    destruct (FR (nextb w)) as [HX NE]; [cbn; lia|exact NB|].
    unfold bind. rewrite (init_loop_out _ w' v' b (after_resize v n) (nlen xs) (nextb w) x); auto.
    - rewrite ES. unfold fits in F. nia.
    - rewrite ES, N2Nat.id. replace (nlen xs + (n - nlen xs)) with n by lia. exact L.
    - congruence.
    - rewrite HX. cbn. unfold hset. now rewrite N.eqb_refl.
    - lia.
  Qed.
End Overflow.

(** Vectors of bytes: the vector lemmas restated for element size 1, and byte-level access. *)
From Verif Require Import Base NListFacts Status Mem MemFacts VectorModel VectorSpec VectorDriver
  VectorRep VectorProofs VectorProofs2 VectorProofs3 VectorRefine.
From Coq Require Import ZifyBool ZifyNat ZifyN.

Notation world := (world N).

Definition cells (l : list N) : list (list N) := map (fun c => [c]) l.
Lemma concat_cells l : concat (cells l) = l.
Proof. induction l as [|c l IH]; [reflexivity|]. cbn. now f_equal. Qed.
Lemma nlen_cells l : nlen (cells l) = nlen l.
Proof. unfold nlen, cells. now rewrite map_length. Qed.
Lemma cells_app a b : cells (a ++ b) = cells a ++ cells b.
Proof. apply map_app. Qed.
Lemma chunked_cells l : chunked 1 (cells l).
Proof. induction l as [|c l IH]; [apply chunked_nil|]. apply chunked_cons. now split. Qed.
Lemma cells_of xs : chunked 1 xs -> xs = cells (concat xs).
Proof.
  induction xs as [|x xs IH]; [reflexivity|]. intros K. apply chunked_cons in K as [L K].
  rewrite (IH K) at 1. destruct x as [|c [|d x]].
  - discriminate.
  - reflexivity.
  - exfalso. rewrite !nlen_cons in L. lia.
Qed.
Lemma nfirst_cells n l : nfirst n (cells l) = cells (nfirst n l).
Proof. unfold nfirst, cells. now rewrite firstn_map. Qed.
Lemma nskip_cells n l : nskip n (cells l) = cells (nskip n l).
Proof. unfold nskip, cells. now rewrite skipn_map. Qed.

Lemma nskip_nskip {A} i n (l : list A) : nskip n (nskip i l) = nskip (i + n) l.
Proof.
  unfold nskip. replace (N.to_nat (i + n)) with (N.to_nat i + N.to_nat n)%nat by lia.
  generalize (N.to_nat i) as k. intros k. revert l. induction k as [|k IH]; intros l; [reflexivity|].
  destruct l as [|x l]; [now rewrite !skipn_nil|]. cbn. apply IH.
Qed.
Lemma nthree {A} i n (l : list A) : nfirst i l ++ nsub i n l ++ nskip (i + n) l = l.
Proof. unfold nsub. rewrite <- nskip_nskip, nfirst_skip. apply nfirst_skip. Qed.

Definition brep (w : world) (v : vector N) pre l post : Prop :=
  vrep w v pre (cells l) post /\ v_esz v = 1 /\ v_dtor v = None.
Record bgood (w : world) (v : vector N) (w' : world) (v' : vector N) pre l' post : Prop := mkbgood {
  b_rep : brep w' v' pre l' post;
  b_cfg : same_cfg v v';
  b_frame : frame w w' v v';
  b_cap : v_alloc v = false -> v_cap v' = v_cap v
}.
(** [n] bytes fit: into the address space (growable), into the buffer (fixed). *)
Definition bholds (v : vector N) (n : N) : bool := v_alloc v || (n <=? v_cap v).

Lemma bgood_refl w v pre l post : brep w v pre l post -> bgood w v w v pre l post.
Proof. intros R. split; [exact R|apply same_cfg_refl|apply frame_refl|reflexivity]. Qed.
Lemma bgood_trans w1 v1 w2 v2 w3 v3 pre l1 l2 post :
  bgood w1 v1 w2 v2 pre l1 post -> wfw w1 -> bgood w2 v2 w3 v3 pre l2 post ->
  bgood w1 v1 w3 v3 pre l2 post.
Proof.
  intros [R1 C1 F1 K1] W [R2 C2 F2 K2]. split.
  - exact R2.
  - eapply same_cfg_trans; eauto.
  - eapply frame_trans; eauto.
  - intros A. rewrite K2, K1; auto. destruct C1 as [-> _]. exact A.
Qed.
Lemma good_bgood w v pre l post w' v' xs' :
  brep w v pre l post -> good w v w' v' pre xs' post -> (v_alloc v = false -> v_cap v' = v_cap v) ->
  xs' = cells (concat xs') /\ bgood w v w' v' pre (concat xs') post.
Proof.
  intros (R & E & D) [G1 G2 G3] K. destruct G2 as (A & B & S' & E' & D') eqn:EG.
  assert (X : xs' = cells (concat xs')). { apply cells_of. rewrite <- E, <- E'. apply G1. }
  split; [exact X|]. split; auto. rewrite X in G1. split; [exact G1|]. split; congruence.
Qed.

Lemma brep_wf w v pre l post : brep w v pre l post -> wfw w.
Proof. intros (R & _). apply R. Qed.
Lemma brep_size w v pre l post : brep w v pre l post -> v_size v = nlen l.
Proof. intros (R & _). rewrite (r_size _ _ _ _ _ R). apply nlen_cells. Qed.
Lemma brep_le w v pre l post : brep w v pre l post -> nlen l <= v_cap v.
Proof. intros (R & _). rewrite <- nlen_cells. apply R. Qed.
Lemma brep_cap w v pre l post : brep w v pre l post -> 1 <= v_cap v < W64.
Proof. intros (R & E & _). pose proof (r_mem _ _ _ _ _ R). pose proof (r_cap _ _ _ _ _ R). rewrite E in *. lia. Qed.
Lemma brep_data w v pre l post : brep w v pre l post -> v_data v = Some (mkptr (blk v) (nlen pre)).
Proof. intros (R & _). apply R. Qed.
Lemma brep_heap w v pre l post : brep w v pre l post ->
  exists slack, spare (nofail w v) (v_cap v - nlen l) (nlen slack) /\ heap w (blk v) = Some (pre ++ l ++ slack ++ post).
Proof.
  intros (R & E & _). destruct (r_heap _ _ _ _ _ R) as (s & L & H). rewrite concat_cells in H.
  rewrite E, nlen_cells, N.mul_1_r in L. exists s. now split.
Qed.
Lemma brep_lt w v pre l post : brep w v pre l post -> blk v < nextb w.
Proof. intros (R & _). eapply rep_blk_lt; eauto. Qed.
Lemma brep_offset w v pre l post i : brep w v pre l post -> i <= v_cap v ->
  offset v i = Some (mkptr (blk v) (nlen pre + i)).
Proof. intros (R & E & _) L. rewrite (rep_offset _ _ _ _ _ _ R L), E. f_equal. f_equal. lia. Qed.
Lemma brep_at w v pre l post i : brep w v pre l post -> padd (v_data v) i = Some (mkptr (blk v) (nlen pre + i)).
Proof. intros R. now rewrite (brep_data _ _ _ _ _ R). Qed.

Lemma bread_ok w v pre a b c post : brep w v pre (a ++ b ++ c) post ->
  mread (padd (v_data v) (nlen a)) (nlen b) w = Ok b w.
Proof.
  intros R. rewrite (brep_at _ _ _ _ _ _ R). destruct (brep_heap _ _ _ _ _ R) as (s & _ & H).
  apply (mread_mid w _ _ _ (pre ++ a) b (c ++ s ++ post)).
  - rewrite H. now rewrite <- !app_assoc.
  - now rewrite nlen_app.
  - reflexivity.
Qed.
Lemma bupd w v pre l l' s post : brep w v pre l post -> nlen l' <= v_cap v ->
  spare (nofail w v) (v_cap v - nlen l') (nlen s) ->
  bgood w v (upd w (blk v) (pre ++ l' ++ s ++ post)) (set_size v (nlen l')) pre l' post.
Proof.
  intros R L S0. destruct R as (R & E & D). split.
  - split; [|split; assumption]. rewrite <- (nlen_cells l'). eapply rep_upd; eauto.
    + now rewrite concat_cells.
    + rewrite E. apply chunked_cells.
    + now rewrite nlen_cells.
    + now rewrite nlen_cells, E, N.mul_1_r.
  - apply same_cfg_set_size.
  - now apply frame_upd.
  - reflexivity.
Qed.
Lemma bupd_same w v pre l l' s post : brep w v pre l post -> nlen l' = nlen l ->
  spare (nofail w v) (v_cap v - nlen l') (nlen s) ->
  bgood w v (upd w (blk v) (pre ++ l' ++ s ++ post)) v pre l' post.
Proof.
  intros R L S0. pose proof (bupd w v pre l l' s post R) as B.
  rewrite (set_size_self v (nlen l')) in B; [|rewrite (brep_size _ _ _ _ _ R); congruence].
  apply B; [|exact S0]. pose proof (brep_le _ _ _ _ _ R). lia.
Qed.
Lemma bwrite_ok w v pre a b b' c post : brep w v pre (a ++ b ++ c) post -> nlen b' = nlen b ->
  exists w', mwrite (padd (v_data v) (nlen a)) b' w = Ok tt w' /\ bgood w v w' v pre (a ++ b' ++ c) post.
Proof.
  intros R L. rewrite (brep_at _ _ _ _ _ _ R). destruct (brep_heap _ _ _ _ _ R) as (s & SL & H).
  eexists. split.
  - apply (mwrite_mid w _ _ (pre ++ a) b b' (c ++ s ++ post)).
    + rewrite H. now rewrite <- !app_assoc.
    + now rewrite nlen_app.
    + now symmetry.
  - replace ((pre ++ a) ++ b' ++ c ++ s ++ post) with (pre ++ (a ++ b' ++ c) ++ s ++ post)
      by now rewrite <- !app_assoc.
    eapply bupd_same; [exact R| |].
    + rewrite !nlen_app. lia.
    + replace (nlen (a ++ b' ++ c)) with (nlen (a ++ b ++ c)) by (rewrite !nlen_app; lia). exact SL.
Qed.
Lemma bcopy_ok w v pre a b b' c post q : brep w v pre (a ++ b ++ c) post -> nlen b' = nlen b ->
  src w q b' -> pb q <> blk v ->
  exists w', memcpy (padd (v_data v) (nlen a)) (Some q) (nlen b') w = Ok tt w' /\ bgood w v w' v pre (a ++ b' ++ c) post.
Proof.
  intros R L Q NB. destruct (bwrite_ok w v pre a b b' c post R L) as (w' & E & G).
  exists w'. split; [|exact G]. rewrite (brep_at _ _ _ _ _ _ R) in *. unfold memcpy.
  rewrite overlap_other by (cbn; congruence). unfold memmove. rewrite (bind_ok _ _ _ _ _ (src_read _ _ _ Q)). exact E.
Qed.

Lemma bresize_ok w v pre l post n : brep w v pre l post -> grants w v ->
  nlen l * 256 < W64 -> n * 256 < W64 ->
  exists r w' v' l', vresize v n w = Ok (r, v') w' /\ bgood w v w' v' pre l' post /\
    (if n <=? nlen l then r = ST_SUCCESS /\ l' = nfirst n l
     else if bholds v n then r = ST_SUCCESS /\ exists new, l' = l ++ new /\ nlen new = n - nlen l
     else r = ST_INSUFFICIENT_BUFFER_SIZE /\ l' = l).
Proof.
  intros R NF F1 F2. pose proof R as (VR & E & D).
  destruct (resize_ok w v pre (cells l) post n None VR NF) as (r & w' & v' & xs' & new & EQ & G & LN & KN & _ & SP).
  { unfold fits. rewrite nlen_cells, E. lia. } { unfold fits. rewrite E. lia. } { exact I. }
  exists r, w', v', (concat xs').
  assert (K : (v_alloc v = false -> v_cap v' = v_cap v) /\
    (if n <=? nlen l then r = ST_SUCCESS /\ xs' = cells (nfirst n l)
     else if bholds v n then r = ST_SUCCESS /\ exists new, xs' = cells (l ++ new) /\ nlen new = n - nlen l
     else r = ST_INSUFFICIENT_BUFFER_SIZE /\ xs' = cells l)).
  { unfold spec_resize in SP. cbn [s_elems s_cap s_log] in SP. rewrite nlen_cells in SP. unfold bholds.
    unfold regrow, reshrink, cfg_of in SP. cbn [c_fixed c_growth c_shrink] in SP.
    destruct (N.eqb_spec n (nlen l)) as [->|NE].
    { destruct SP as [-> SP]. inv SP. rewrite N.leb_refl. split; [reflexivity|]. split; [reflexivity|].
      now rewrite nfirst_all by lia. }
    destruct (N.ltb_spec n (nlen l)).
    { destruct (N.leb_spec n (nlen l)); [|lia]. destruct SP as [-> SP]. injection SP as SX SC _.
      split; [|split; [reflexivity|now rewrite SX, nfirst_cells]].
      intros A. rewrite SC, A. reflexivity. }
    destruct (N.leb_spec n (nlen l)); [lia|].
    assert (NW : new = cells (concat new)). { apply cells_of. now rewrite <- E. }
    destruct (N.leb_spec n (v_cap v)).
    - rewrite orb_true_r. destruct SP as [-> SP]. injection SP as SX SC _. split.
      + intros A. rewrite SC, A. reflexivity.
      + split; [reflexivity|]. exists (concat new). rewrite cells_app, <- NW. split; [exact SX|].
        rewrite <- (nlen_cells (concat new)), <- NW. rewrite nlen_cells in LN. exact LN.
    - destruct (v_alloc v); cbn [negb orb] in *; destruct SP as [-> SP].
      + injection SP as SX SC _. split; [discriminate|]. split; [reflexivity|].
        exists (concat new). rewrite cells_app, <- NW. split; [exact SX|].
        rewrite <- (nlen_cells (concat new)), <- NW. rewrite nlen_cells in LN. exact LN.
      + injection SP as SX SC _. split; [intros; exact SC|]. split; [reflexivity|exact SX]. }
  destruct K as [K1 K2]. destruct (good_bgood _ _ _ _ _ _ _ _ R G K1) as [X BG].
  split; [exact EQ|]. split; [exact BG|].
  destruct (n <=? nlen l).
  { destruct K2 as [-> ->]. split; [reflexivity|]. apply concat_cells. }
  destruct (bholds v n).
  - destruct K2 as [-> (nw & -> & LW)]. split; [reflexivity|]. exists nw. split; [apply concat_cells|exact LW].
  - destruct K2 as [-> ->]. split; [reflexivity|]. apply concat_cells.
Qed.

Lemma binsert_ok w v pre l post i y q : brep w v pre l post -> grants w v -> 1 <= nlen y ->
  i <= nlen l -> (nlen l + nlen y) * 256 < W64 -> src w q y -> pb q <> blk v ->
  exists r w' v' l', vinsert_range v i (Some q) (nlen y) w = Ok (r, v') w' /\ bgood w v w' v' pre l' post /\
    (if bholds v (nlen l + nlen y) then r = ST_SUCCESS /\ l' = nfirst i l ++ y ++ nskip i l
     else r = ST_INSUFFICIENT_BUFFER_SIZE /\ l' = l).
Proof.
  intros R NF LY LI F Q NB. pose proof R as (VR & E & D). destruct (growth_bounds _ _ _ _ _ VR) as [GB SB].
  destruct (insert_range_ok w v pre (cells l) post i (cells y) q VR NF) as (r & w' & v' & xs' & EQ & G & SP).
  { rewrite E. apply chunked_cells. } { now rewrite nlen_cells. }
  { rewrite !nlen_cells, E. nia. } { now rewrite concat_cells. } { exact NB. }
  rewrite nlen_cells in EQ. exists r, w', v', (concat xs').
  assert (K : (v_alloc v = false -> v_cap v' = v_cap v) /\
    (if bholds v (nlen l + nlen y) then r = ST_SUCCESS /\ xs' = cells (nfirst i l ++ y ++ nskip i l)
     else r = ST_INSUFFICIENT_BUFFER_SIZE /\ xs' = cells l)).
  { unfold spec_insert in SP. cbn [s_elems s_cap s_log] in SP. rewrite !nlen_cells in SP.
    destruct (N.ltb_spec (nlen l) i); [lia|]. unfold bholds, regrow, cfg_of in *. cbn [c_fixed c_growth] in SP.
    unfold linsert in SP. rewrite nfirst_cells, nskip_cells, <- !cells_app in SP.
    destruct (N.leb_spec (nlen l + nlen y) (v_cap v)).
    - rewrite orb_true_r. destruct SP as [-> SP]. injection SP as SX SC _. split; [intros; exact SC|now split].
    - destruct (v_alloc v); cbn [negb orb] in *; destruct SP as [-> SP]; injection SP as SX SC _.
      + split; [discriminate|now split].
      + split; [intros; exact SC|now split]. }
  destruct K as [K1 K2]. destruct (good_bgood _ _ _ _ _ _ _ _ R G K1) as [X BG].
  split; [exact EQ|]. split; [exact BG|].
  destruct (bholds v _); destruct K2 as [-> ->]; (split; [reflexivity|]; apply concat_cells).
Qed.

Lemma bdelete_ok w v pre l post i n : brep w v pre l post -> grants w v -> nlen l * 256 < W64 ->
  1 <= n -> i + n <= nlen l ->
  exists w' v', vdelete_range v i n w = Ok (ST_SUCCESS, v') w' /\
    bgood w v w' v' pre (nfirst i l ++ nskip (i + n) l) post.
Proof.
  intros R NF F N1 L. pose proof R as (VR & E & D).
  destruct (delete_range_ok w v pre (cells l) post i n VR NF) as (r & w' & v' & xs' & EQ & G & SP).
  { unfold fits. rewrite nlen_cells, E. lia. } { lia. }
  unfold spec_delete in SP. cbn [s_elems s_cap s_log] in SP. rewrite nlen_cells in SP.
  destruct (N.eqb_spec n 0); [lia|]. destruct (N.ltb_spec (nlen l) (i + n)); [lia|].
  destruct SP as [-> SP]. injection SP as SX SC _. unfold ldelete in SX.
  rewrite nfirst_cells, nskip_cells, <- cells_app in SX.
  assert (K1 : v_alloc v = false -> v_cap v' = v_cap v).
  { intros A. rewrite SC. unfold reshrink, cfg_of. cbn. now rewrite A. }
  destruct (good_bgood _ _ _ _ _ _ _ _ R G K1) as [X BG].
  exists w', v'. split; [exact EQ|]. rewrite SX, concat_cells in BG. exact BG.
Qed.

Lemma bset_ok w v pre l post i c q : brep w v pre l post -> src w q [c] -> pb q <> blk v -> i < nlen l ->
  exists w', vset v i (Some q) w = Ok (ST_SUCCESS, v) w' /\
    bgood w v w' v pre (nfirst i l ++ [c] ++ nskip (i + 1) l) post.
Proof.
  intros R Q NB L. pose proof R as (VR & E & D). pose proof (brep_le _ _ _ _ _ R).
  destruct (bcopy_ok w v pre (nfirst i l) (nsub i 1 l) [c] (nskip (i + 1) l) post q) as (w' & EQ & G).
  - now rewrite nthree.
  - unfold nsub. rewrite nlen_nfirst, nlen_nskip. change (nlen [c]) with 1. lia.
  - exact Q.
  - exact NB.
  - exists w'. split; [|exact G]. unfold vset. cbn [nonnull negb].
    rewrite (brep_size _ _ _ _ _ R). destruct (N.leb_spec (nlen l) i); [lia|].
    rewrite (bind_ok _ _ _ _ _ (rep_assert_valid _ _ _ _ _ VR)). rewrite D.
    unfold bind at 1, ret at 1. rewrite (brep_offset _ _ _ _ _ _ R) by lia.
    rewrite (brep_at _ _ _ _ _ _ R), nlen_nfirst in EQ. replace (N.min i (nlen l)) with i in EQ by lia.
    rewrite E. change (nlen [c]) with 1 in EQ. rewrite (bind_ok _ _ _ _ _ EQ). reflexivity.
Qed.

Lemma breserve_ok w v pre l post n : brep w v pre l post -> grants w v -> n < W64 ->
  exists r w' v', vreserve v n w = Ok (r, v') w' /\ bgood w v w' v' pre l post /\
    r = (if bholds v n then ST_SUCCESS else ST_INSUFFICIENT_BUFFER_SIZE) /\
    v_cap v' = (if v_alloc v then N.max n (v_cap v) else v_cap v).
Proof.
  intros R NF F. pose proof R as (VR & E & D).
  destruct (reserve_ok w v pre (cells l) post n VR NF) as (r & w' & v' & xs' & EQ & G & SP).
  { rewrite E. lia. }
  cbn [vspec s_elems s_cap s_log] in SP. exists r, w', v'. split; [exact EQ|].
  unfold bholds. unfold cfg_of in SP. cbn [c_fixed] in SP.
  assert (K : xs' = cells l /\ (v_alloc v = false -> v_cap v' = v_cap v) /\
    r = (if v_alloc v || (n <=? v_cap v) then ST_SUCCESS else ST_INSUFFICIENT_BUFFER_SIZE) /\
    v_cap v' = (if v_alloc v then N.max n (v_cap v) else v_cap v)).
  { destruct (N.leb_spec n (v_cap v)).
    - rewrite orb_true_r. destruct SP as [-> SP]. injection SP as -> -> _.
      split; [reflexivity|]. split; [reflexivity|]. split; [reflexivity|]. destruct (v_alloc v); lia.
    - destruct (v_alloc v); cbn [negb orb] in *; destruct SP as [-> SP]; injection SP as -> -> _.
      + split; [reflexivity|]. split; [discriminate|]. split; [reflexivity|]. lia.
      + now repeat split. }
  destruct K as (-> & K1 & K2 & K3). destruct (good_bgood _ _ _ _ _ _ _ _ R G K1) as [_ BG].
  rewrite concat_cells in BG. now split.
Qed.
Lemma bshrink_ok w v pre l post : brep w v pre l post -> grants w v ->
  exists w' v', vshrink_to_fit v w = Ok (ST_SUCCESS, v') w' /\ bgood w v w' v' pre l post /\
    v_cap v' = (if v_alloc v then N.max 1 (nlen l) else v_cap v).
Proof.
  intros R NF. pose proof R as (VR & E & D).
  destruct (shrink_to_fit_ok w v pre (cells l) post VR NF) as (r & w' & v' & xs' & EQ & G & SP).
  cbn [vspec s_elems s_cap s_log] in SP. destruct SP as [-> SP]. exists w', v'. split; [exact EQ|].
  assert (K : xs' = cells l /\ v_cap v' = (if v_alloc v then N.max 1 (nlen l) else v_cap v)).
  { unfold cfg_of in SP. cbn [c_fixed] in SP. destruct (v_alloc v); cbn [negb] in SP; injection SP as -> -> _.
    - now rewrite nlen_cells.
    - now split. }
  destruct K as [-> K]. destruct (good_bgood _ _ _ _ _ _ _ _ R G) as [_ BG].
  { intros A. rewrite K, A. reflexivity. }
  rewrite concat_cells in BG. now split.
Qed.

(** The caller's argument block. *)
Lemma bargw w v pre l post x : brep w v pre l post ->
  brep (argw w x) v pre l post /\ src (argw w x) (mkptr (nextb w) 0) x /\ nextb w <> blk v.
Proof.
  intros (R & E). destruct (argw_rep _ _ _ _ _ x R) as (R' & Q & NB). split; [now split|now split].
Qed.
Lemma bdropw w v pre l post w' v' l' x : brep w v pre l post ->
  bgood (argw w x) v w' v' pre l' post -> bgood w v (dropw w' (nextb w)) v' pre l' post.
Proof.
  intros (R & E) [(G1 & E') G2 G3 G4].
  destruct (dropw_good w v pre (cells l) post w' v' (cells l') x R) as [D1 D2 D3]; [now split|].
  split; auto. now split.
Qed.
Lemma bnofail (w : world) (v : vector N) w' v' pre l post : nofail w v -> bgood w v w' v' pre l post -> nofail w' v'.
Proof. intros NF G. eapply nofail_frame; [exact NF|apply G|apply G]. Qed.

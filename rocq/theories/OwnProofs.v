(** Proofs about vectors whose elements own memory. *)
From Verif Require Import Base NListFacts Status Mem MemFacts VectorModel VectorSpec VectorDriver
  VectorRep VectorProofs VectorProofs2 VectorProofs3 VectorRefine VectorSearch VectorFail VectorMore
  OwnModel OwnDriver.
From Coq Require Import ZifyBool ZifyNat ZifyN.

Section Blocks.
  Context {C : Type}.
  Notation vec := (vector C).
  Implicit Types (w : world C) (v : vec) (ps : list (N * list C)).

  (** A vector does not notice changes of other blocks. *)
  Lemma rep_other w w' v pre xs post : vrep w v pre xs post -> heap w' (blk v) = heap w (blk v) -> wfw w' -> orc w' = orc w ->
    vrep w' v pre xs post.
  Proof.
    intros [] H W O. split; auto. destruct r_heap as (s & SL & HH). exists s. rewrite H. split; [|exact HH].
    eapply spare_imp; [|exact SL]. unfold nofail. now rewrite O.
  Qed.

  (** The objects [ps] (block and contents) exist, apart from each other and from the vector; otherwise the memory is that of
      [w0]. *)
  Record mem w0 w v ps : Prop := mkmem {
    m_bufs : Forall (fun p => heap w (fst p) = Some (snd p)) ps;
    m_apart : NoDup (blk v :: map fst ps);
    m_new : forall b, In b (map fst ps) -> nextb w0 <= b;
    m_vec : v_alloc v = true -> nextb w0 <= blk v;
    m_next : nextb w0 <= nextb w;
    m_rest : forall b, b <> blk v -> ~ In b (map fst ps) -> heap w b = heap w0 b
  }.

  Lemma mem_live w0 w v ps b : mem w0 w v ps -> In b (map fst ps) -> heap w b <> None.
  Proof.
    intros [B _ _ _ _ _] H. apply in_map_iff in H as (p & <- & I). rewrite Forall_forall in B. rewrite (B p I). discriminate.
  Qed.

  Lemma mem_good w0 w v ps pre xs post w' v' pre' xs' post' : mem w0 w v ps -> wfw w0 -> vrep w v pre xs post ->
    good w v w' v' pre' xs' post' -> mem w0 w' v' ps.
  Proof.
    intros MM W0 R [_ _ F]. pose proof (fun b => mem_live _ _ _ _ b MM) as LV. destruct MM as [B A NW NV NX RS].
    assert (FR : blk v' <> blk v -> nextb w <= blk v' /\ heap w' (blk v) = None /\ v_alloc v = true).
    { intros NE. destruct (fr_old _ _ _ _ F NE) as (AL & H & L). auto. }
    assert (NI : ~ In (blk v') (map fst ps)).
    { intros I. destruct (N.eq_dec (blk v') (blk v)) as [E|E].
      - rewrite E in I. inversion A; subst. contradiction.
      - destruct (FR E) as [L _]. destruct (LV _ I). now apply R. }
    assert (SM : forall b, In b (map fst ps) -> heap w' b = heap w b).
    { intros b I. apply (fr_heap _ _ _ _ F); intros ->; [inversion A; subst; contradiction|contradiction]. }
    split.
    - rewrite Forall_forall in *. intros p I. rewrite SM by (now apply in_map). now apply B.
    - constructor; [exact NI|]. now inversion A.
    - exact NW.
    - rewrite (fr_alloc _ _ _ _ F). intros AL. specialize (NV AL).
      destruct (N.eq_dec (blk v') (blk v)) as [->|E]; [exact NV|]. destruct (FR E). lia.
    - pose proof (fr_next _ _ _ _ F). lia.
    - intros b N1 N2. destruct (N.eq_dec b (blk v)) as [->|E].
      + destruct (FR ltac:(congruence)) as (_ & -> & AL). symmetry. apply W0, NV, AL.
      + rewrite (fr_heap _ _ _ _ F) by assumption. now apply RS.
  Qed.

  (** The world [w'] is [w] without the blocks [bs]. *)
  Definition without w w' (bs : list N) : Prop :=
    (forall b, In b bs -> heap w' b = None) /\ (forall b, ~ In b bs -> heap w' b = heap w b) /\
    nextb w' = nextb w /\ orc w' = orc w /\ tick w' = tick w /\ dlog w' = dlog w /\ checked w' = checked w.

  Lemma without_wf w w' bs : without w w' bs -> wfw w -> wfw w'.
  Proof.
    intros (A & B & N & _) W b L. destruct (in_dec N.eq_dec b bs) as [I|I]; [now apply A|]. rewrite B by exact I. apply W. lia.
  Qed.

  Lemma mem_without w0 w v (a m c : list (N * list C)) w' : mem w0 w v (a ++ m ++ c) -> wfw w0 -> without w w' (map fst m) -> mem w0 w' v (a ++ c).
  Proof.
    intros [B A NW NV NX RS] W0 (D & K & N & _).
    assert (IM : forall b, In b (blk v :: map fst (a ++ c)) -> In b (blk v :: map fst (a ++ m ++ c)) /\ ~ In b (map fst m)).
    { intros b I. rewrite !map_app in *. cbn [In] in *. rewrite !in_app_iff in *. split; [tauto|]. intros I2.
      apply NoDup_cons_iff in A as [A1 A2]. rewrite !in_app_iff in A1.
      destruct I as [<-|[I|I]]; [tauto| |].
      - apply in_split in I as (x & y & E). rewrite E in A2. rewrite <- app_assoc in A2. cbn [app] in A2.
        apply NoDup_remove_2 in A2. rewrite !in_app_iff in A2. tauto.
      - apply in_split in I2 as (x & y & E). rewrite E in A2.
        replace (map fst a ++ (x ++ b :: y) ++ map fst c) with ((map fst a ++ x) ++ b :: (y ++ map fst c)) in A2
          by (rewrite <- !app_assoc; reflexivity).
        apply NoDup_remove_2 in A2. rewrite !in_app_iff in A2. tauto. }
    split.
    - rewrite Forall_forall in *. intros p I. rewrite K.
      + apply B. rewrite !in_app_iff in *. tauto.
      + apply IM. right. now apply in_map.
    - apply NoDup_cons_iff in A as [A1 A2]. rewrite !map_app in *. constructor.
      + rewrite !in_app_iff in *. tauto.
      + revert A2. generalize (map fst a) (map fst m) (map fst c). clear. intros x y z H.
        induction y as [|b y IH]; [exact H|]. apply IH. now apply NoDup_remove_1 in H.
    - intros b I. apply NW. rewrite !map_app, !in_app_iff in *. tauto.
    - exact NV.
    - lia.
    - intros b N1 N2. destruct (in_dec N.eq_dec b (map fst m)) as [I|I].
      + rewrite D by exact I. symmetry. apply W0, NW. rewrite !map_app, !in_app_iff. tauto.
      + rewrite K by exact I. apply RS; [exact N1|]. rewrite !map_app, !in_app_iff in *. tauto.
  Qed.

  Lemma without_trans w w1 w2 x xs : without w w1 [x] -> without w1 w2 xs -> without w w2 (x :: xs).
  Proof.
    intros (A1 & B1 & N1 & O1 & T1 & D1 & K1) (A2 & B2 & N2 & O2 & T2 & D2 & K2). split; [|split; [|repeat split; congruence]].
    - intros b I. destruct (in_dec N.eq_dec b xs) as [I2|I2]; [now apply A2|]. rewrite B2 by exact I2.
      destruct I as [->|I]; [|contradiction]. apply A1. now left.
    - intros b I. cbn [In] in I. rewrite B2, B1 by (cbn [In]; tauto). reflexivity.
  Qed.

  Lemma split3 {A} (l : list A) i n : i + n <= nlen l -> exists a m c, l = a ++ m ++ c /\ nlen a = i /\ nlen m = n.
  Proof. apply nsplit3. Qed.

  Lemma nfirst_here {A} (a b : list A) : nfirst (nlen a) (a ++ b) = a.
  Proof. unfold nfirst, nlen. rewrite Nat2N.id, firstn_app, Nat.sub_diag, firstn_all. cbn. apply app_nil_r. Qed.
  Lemma nskip_here {A} (a b : list A) : nskip (nlen a) (a ++ b) = b.
  Proof. unfold nskip, nlen. rewrite Nat2N.id, skipn_app, Nat.sub_diag, skipn_all. reflexivity. Qed.
  Lemma nlen_app' {A} (a b : list A) : nlen (a ++ b) = nlen a + nlen b.
  Proof. unfold nlen. rewrite app_length. lia. Qed.

  Lemma nlen_snd ps : nlen (map snd ps) = nlen ps.
  Proof. unfold nlen. now rewrite map_length. Qed.

  Lemma mem_new_object w0 w v (a c : list (N * list C)) buf : mem w0 w v (a ++ c) -> wfw w -> heap w (blk v) <> None ->
    mem w0 (argw w buf) v (a ++ [(nextb w, buf)] ++ c).
  Proof.
    intros MM W LB. pose proof (fun b => mem_live _ _ _ _ b MM) as LV. destruct MM as [B A NW NV NX RS].
    assert (NI : ~ In (nextb w) (map fst (a ++ c))).
    { intros I. apply (LV _ I). apply W. lia. }
    assert (NB : blk v <> nextb w). { intros E. apply LB. rewrite E. apply W. lia. }
    assert (HH : forall b, b <> nextb w -> heap (argw w buf) b = heap w b).
    { intros b N. cbn. unfold hset. destruct (N.eqb_spec b (nextb w)); [contradiction|reflexivity]. }
    split.
    - rewrite Forall_forall in *. intros p I. rewrite !in_app_iff in I. destruct I as [I|[[<-|[]]|I]].
      + rewrite HH; [apply B; rewrite in_app_iff; now left|]. intros E. apply NI. rewrite <- E. apply in_map. rewrite in_app_iff. now left.
      + cbn. unfold hset. now rewrite N.eqb_refl.
      + rewrite HH; [apply B; rewrite in_app_iff; now right|]. intros E. apply NI. rewrite <- E. apply in_map. rewrite in_app_iff. now right.
    - rewrite !map_app in *. cbn [map fst app]. apply NoDup_cons_iff in A as [A1 A2]. constructor.
      + rewrite in_app_iff in *. cbn [In]. intros [I|[I|I]]; [tauto| |tauto]. congruence.
      + apply NoDup_Add with (a := nextb w) (l := map fst a ++ map fst c); [apply Add_app|]. split; assumption.
    - intros b I. rewrite !map_app, !in_app_iff in I. destruct I as [I|[[<-|[]]|I]].
      + apply NW. rewrite map_app, in_app_iff. now left.
      + exact NX.
      + apply NW. rewrite map_app, in_app_iff. now right.
    - exact NV.
    - cbn. lia.
    - intros b N1 N2. rewrite !map_app, !in_app_iff in N2. cbn [map fst In] in N2. rewrite HH by (intros E; subst; tauto).
      apply RS; [exact N1|]. rewrite map_app, in_app_iff. tauto.
  Qed.

End Blocks.

Section OwnProofs.
  Context {C : Type}.
  Notation vec := (vector C).
  Implicit Types (w : world C) (v : vec) (ps : list (N * list C)).
  Variables (e : N) (name : N -> list C) (own : list C -> N).
  Hypothesis NM : names_ok e name own.
  (** The vector: growable, or of a fixed capacity [cap] in the caller's block [bb], between [pre] and [post]. *)
  Variables (al : bool) (pre post : list C) (cap bb : N).
  Notation d := (release e own).
  Notation elems ps := (map (fun p : N * list C => name (fst p)) ps).

  (** The destructor releases the block of its element. *)
  Lemma release_ok w v ps i p : vrep w v pre (elems ps) post -> v_esz v = e -> nnth i ps = Some p ->
    heap w (fst p) <> None -> fst p <> blk v ->
    exists w', d (offset v i) w = Ok tt w' /\ without w w' [fst p] /\ vrep w' v pre (elems ps) post.
  Proof using NM.
    intros R E I L NB. unfold release.
    assert (NI : nnth i (elems ps) = Some (name (fst p))).
    { unfold nnth in *. rewrite nth_error_map, I. reflexivity. }
    rewrite <- E, (bind_ok _ _ _ _ _ (elem_read _ _ _ _ _ _ _ R NI)).
    destruct NM as [_ OW]. rewrite OW. unfold bind, dealloc. cbn [N.eqb orb andb pb po negb].
    destruct (heap w (fst p)) as [buf|] eqn:H; [|congruence]. unfold ret.
    assert (WO : without w (set_heap w (hset (heap w) (fst p) None)) [fst p]).
    { split; [|split; [|now repeat split]].
      - intros b [<-|[]]. cbn. unfold hset. now rewrite N.eqb_refl.
      - intros b NI'. cbn. unfold hset. destruct (N.eqb_spec b (fst p)) as [->|]; [destruct NI'; now left|reflexivity]. }
    eexists. split; [reflexivity|]. split; [exact WO|]. eapply rep_other; [exact R| |eapply without_wf; [exact WO|apply R]|reflexivity].
    apply WO. intros [E'|[]]. congruence.
  Qed.

  Lemma own_loop_ok v : forall (m : list (N * list C)) w (a c : list (N * list C)), vrep w v pre (elems (a ++ m ++ c)) post -> v_esz v = e ->
    Forall (fun p => heap w (fst p) <> None) m -> NoDup (blk v :: map fst m) ->
    exists w', own_loop d v (nlen a) (length m) w = Ok tt w' /\ without w w' (map fst m) /\ vrep w' v pre (elems (a ++ m ++ c)) post.
  Proof using NM.
    induction m as [|p m IH]; intros w a c R E L ND.
    - exists w. split; [reflexivity|]. split; [|exact R]. split; [|now repeat split]. intros b [].
    - apply NoDup_cons_iff in ND as [N1 N2]. cbn [map] in N1, N2. apply NoDup_cons_iff in N2 as [N2 N3].
      apply Forall_cons_iff in L as [L1 L2].
      destruct (release_ok w v (a ++ (p :: m) ++ c) (nlen a) p R E) as (w1 & E1 & WO & R1).
      { now apply nnth_mid. } { exact L1. } { intros Eq. apply N1. now left. }
      cbn [own_loop length]. rewrite (bind_ok _ _ _ _ _ E1).
      assert (LT : nlen a + 1 < W64).
      { pose proof (rep_cap_lt _ _ _ _ _ R). pose proof (r_le _ _ _ _ _ R) as LE. unfold nlen in *.
        rewrite map_length, !app_length in LE. cbn [length] in LE. lia. }
      assert (CH : a ++ (p :: m) ++ c = (a ++ [p]) ++ m ++ c) by (rewrite <- app_assoc; reflexivity).
      rewrite CH in R1.
      destruct (IH w1 (a ++ [p]) c R1 E) as (w' & E2 & W2 & R2).
      + rewrite Forall_forall in *. intros q I. destruct WO as (_ & K & _). rewrite K; [now apply L2|].
        intros [Eq|[]]. apply N2. rewrite Eq. now apply in_map.
      + constructor; [|exact N3]. intros I. apply N1. now right.
      + exists w'. rewrite wadd_small by exact LT. replace (nlen (a ++ [p])) with (nlen a + 1) in E2 by (unfold nlen; rewrite app_length; cbn [length]; lia).
        split; [exact E2|]. split; [|now rewrite CH]. cbn [map]. eapply without_trans; eauto.
  Qed.

  (** ---- the invariant ---- *)
  Record holds w0 w v ps : Prop := mkholds {
    h_rep : vrep w v pre (elems ps) post;
    h_cfg : v_alloc v = al /\ v_esz v = e /\ v_dtor v = None;
    h_cap : al = false -> v_cap v = cap;
    h_blk : al = false -> blk v = bb;
    h_grant : al = true -> allocator_ok w;
    h_mem : mem w0 w v ps
  }.

  Lemma nlen_elems ps : nlen (elems ps) = nlen ps.
  Proof. unfold nlen. now rewrite map_length. Qed.
  Lemma elems_app (a b : list (N * list C)) : elems (a ++ b) = elems a ++ elems b.
  Proof. apply map_app. Qed.
  Lemma holds_nofail w0 w v ps : holds w0 w v ps -> nofail w v /\ grants w v.
  Proof. intros H. destruct (h_cfg _ _ _ _ H) as (A & _). split; intros AL; apply (h_grant _ _ _ _ H); congruence. Qed.

  Lemma good_blk w v w' v' p xs q : good w v w' v' p xs q -> v_alloc v = false -> blk v' = blk v.
  Proof.
    intros [_ _ F] A. destruct (N.eq_dec (blk v') (blk v)) as [E|E]; [exact E|]. destruct (fr_old _ _ _ _ F E). congruence.
  Qed.
  Lemma holds_good w0 w v ps w' v' ps' : holds w0 w v ps -> wfw w0 -> good w v w' v' pre (elems ps') post -> ps' = ps ->
    (al = false -> v_cap v' = cap) -> holds w0 w' v' ps'.
  Proof.
    intros [R (A & E & D) _ BK G MM] W0 GD -> CP. pose proof GD as [R' (CA & CG & CS & CE & CD) F]. split; [exact R'| |exact CP| | |].
    - now rewrite CA, CE, CD.
    - intros FX. rewrite <- (BK FX). eapply good_blk; [exact GD|congruence].
    - intros AL t. rewrite (fr_orc _ _ _ _ F). now apply G.
    - eapply mem_good; eauto.
  Qed.

  (** A call of the vector after some of the objects were released. *)
  Lemma after_release w0 w v (a m c : list (N * list C)) w1 w' v' : holds w0 w v (a ++ m ++ c) -> wfw w0 -> without w w1 (map fst m) ->
    vrep w1 v pre (elems (a ++ m ++ c)) post -> good w1 v w' v' pre (elems (a ++ c)) post ->
    (al = false -> v_cap v' = cap) -> holds w0 w' v' (a ++ c).
  Proof.
    intros [R (A & E & D) _ BK G MM] W0 WO R1 GD CP. pose proof (mem_without _ _ _ _ _ _ _ MM W0 WO) as M1.
    pose proof GD as [R' (CA & CG & CS & CE & CD) F]. split; [exact R'| |exact CP| | |].
    - now rewrite CA, CE, CD.
    - intros FX. rewrite <- (BK FX). eapply good_blk; [exact GD|congruence].
    - intros AL t. rewrite (fr_orc _ _ _ _ F). destruct WO as (_ & _ & _ & -> & _). now apply G.
    - eapply mem_good; eauto.
  Qed.

  (** The destructors of a part. *)
  Lemma part_released w0 w v (a m c : list (N * list C)) : holds w0 w v (a ++ m ++ c) ->
    exists w1, own_loop d v (nlen a) (length m) w = Ok tt w1 /\ without w w1 (map fst m) /\ vrep w1 v pre (elems (a ++ m ++ c)) post.
  Proof using NM.
    intros H. pose proof (h_mem _ _ _ _ H) as MM. apply own_loop_ok.
    - apply H.
    - apply H.
    - rewrite Forall_forall. intros p I. eapply mem_live; [exact MM|]. rewrite !map_app, !in_app_iff. right. left. now apply in_map.
    - pose proof (m_apart _ _ _ _ MM) as A. rewrite !map_app in A. apply NoDup_cons_iff in A as [A1 A2]. constructor.
      + rewrite !in_app_iff in A1. tauto.
      + clear -A2. induction (map fst a) as [|x l IH]; cbn [app] in A2; [|inversion A2; subst; auto].
        induction (map fst m) as [|y k IH]; [constructor|]. cbn [app] in A2. inversion A2; subst. constructor; auto.
        intros I. apply H1. apply in_or_app. now left.
  Qed.

  (** ---- one call ---- *)
  Lemma fits_0 w0 w v ps : holds w0 w v ps -> forall k, fits (nlen ps + k) e -> fits (nlen (elems ps) + k) (v_esz v).
  Proof. intros H k F. destruct (h_cfg _ _ _ _ H) as (_ & -> & _). now rewrite nlen_elems. Qed.

  Lemma delete_step w0 w v ps i n : holds w0 w v ps -> wfw w0 -> i + n < W64 -> fits (nlen ps) e ->
    exists r v' w' ps', odelete_range d v i n w = Ok (r, v') w' /\ holds w0 w' v' ps' /\
      wspec (WDelete i n) (map snd ps) = (r, map snd ps').
  Proof using NM.
    intros H W0 LT F. cbn [wspec]. rewrite nlen_snd. unfold odelete_range. rewrite wadd_small by exact LT.
    pose proof (h_rep _ _ _ _ H) as R. assert (SZ : v_size v = nlen ps) by (now rewrite (r_size _ _ _ _ _ R), nlen_elems).
    rewrite SZ. destruct (N.eqb_spec n 0) as [|N0]; [now exists ST_INVALID_ARGUMENT, v, w, ps|].
    destruct (N.ltb_spec (nlen ps) (i + n)) as [|LE]; [now exists ST_OUT_OF_RANGE, v, w, ps|].
    destruct (split3 ps i n LE) as (a & m & c & -> & LA & LM).
    destruct (part_released _ _ _ _ _ _ H) as (w1 & E1 & WO & R1).
    destruct (h_cfg _ _ _ _ H) as (VA & VE & VD).
    destruct (delete_range_ok w1 v pre (elems (a ++ m ++ c)) post i n R1) as (r & w' & v' & xs' & E2 & G & S).
    { intros AL. unfold grants, nofail. destruct WO as (_ & _ & _ & -> & _). apply H. congruence. }
    { rewrite nlen_elems, VE. exact F. } { exact LT. }
    cbn [vspec] in S. unfold spec_delete in S. cbn [s_elems s_cap s_log] in S.
    rewrite nlen_elems in S. replace (n =? 0) with false in S by lia. replace (nlen (a ++ m ++ c) <? i + n) with false in S by lia.
    destruct S as [-> S]. injection S as -> S2 S3.
    exists ST_SUCCESS, v', w', (a ++ c). split; [|split].
    - replace (N.to_nat (i + n - i)) with (length m) by (unfold nlen in LM; lia). rewrite <- LA.
      rewrite (bind_ok _ _ _ _ _ E1). rewrite <- E2. unfold vdelete_range, destroy_range. rewrite VD, SZ, wadd_small by exact LT.
      replace (n =? 0) with false by lia. replace (nlen (a ++ m ++ c) <? i + n) with false by lia. rewrite LA. reflexivity.
    - eapply after_release; [exact H|exact W0|exact WO|exact R1| |rewrite S2; intros FX; rewrite <- (h_cap _ _ _ _ H FX); unfold reshrink, cfg_of; cbn [c_fixed]; rewrite VA, FX; reflexivity].
      replace (elems (a ++ c)) with (ldelete i n (elems (a ++ m ++ c))); [exact G|].
      unfold ldelete. rewrite !elems_app. rewrite <- LA, <- LM, <- (nlen_elems a), <- (nlen_elems m), nfirst_here.
      f_equal. rewrite app_assoc, <- nlen_app'. apply nskip_here.
    - rewrite !map_app. rewrite <- LA, <- LM, <- (nlen_snd a), <- (nlen_snd m), nfirst_here. f_equal. f_equal.
      rewrite app_assoc, <- nlen_app'. apply nskip_here.
  Qed.

  Lemma resize_step w0 w v ps n : holds w0 w v ps -> wfw w0 -> n <= nlen ps -> fits (nlen ps) e ->
    exists v' w' ps', oresize d v n w = Ok (ST_SUCCESS, v') w' /\ holds w0 w' v' ps' /\ nfirst n (map snd ps) = map snd ps'.
  Proof using NM.
    intros H W0 LE F. unfold oresize.
    pose proof (h_rep _ _ _ _ H) as R. assert (SZ : v_size v = nlen ps) by (now rewrite (r_size _ _ _ _ _ R), nlen_elems).
    rewrite SZ. destruct (N.eqb_spec n (nlen ps)) as [->|NE].
    { exists v, w, ps. split; [reflexivity|]. split; [exact H|]. rewrite <- nlen_snd. unfold nfirst, nlen. rewrite Nat2N.id. apply firstn_all. }
    replace (n <? nlen ps) with true by lia.
    destruct (split3 ps n (nlen ps - n) ltac:(lia)) as (a & m & c & -> & LA & LM).
    assert (c = []) as ->. { rewrite !nlen_app' in LM. destruct c; [reflexivity|]. unfold nlen in *. cbn [length] in LM. lia. }
    destruct (part_released _ _ _ _ _ _ H) as (w1 & E1 & WO & R1).
    destruct (h_cfg _ _ _ _ H) as (VA & VE & VD).
    destruct (resize_ok w1 v pre (elems (a ++ m ++ [])) post n None R1) as (r & w' & v' & xs' & new & E2 & G & LN & KN & _ & S).
    { intros AL. unfold grants, nofail. destruct WO as (_ & _ & _ & -> & _). apply H. congruence. }
    { rewrite VE, nlen_elems. exact F. } { rewrite VE. eapply fits_le; [|exact F]. exact LE. } { exact Logic.I. }
    unfold spec_resize in S. cbn [s_elems s_cap s_log] in S. rewrite nlen_elems in S.
    replace (n =? nlen (a ++ m ++ [])) with false in S by lia. replace (n <? nlen (a ++ m ++ [])) with true in S by lia.
    destruct S as [-> S]. injection S as -> S2 S3.
    exists v', w', (a ++ []). split; [|split].
    - replace (N.to_nat (nlen (a ++ m ++ []) - n)) with (length m) by (unfold nlen in LM; unfold nlen; lia). rewrite <- LA.
      rewrite (bind_ok _ _ _ _ _ E1). etransitivity; [|exact E2]. unfold vresize_ex, destroy_range. rewrite VD, SZ.
      replace (n =? nlen (a ++ m ++ [])) with false by lia. replace (n <? nlen (a ++ m ++ [])) with true by lia. rewrite LA.
      cbn [nonnull andb]. unfold bind, ret, assert. 
      destruct (should_grow n (v_cap v) || should_shrink n (v_cap v) (v_shrink v)); [|reflexivity].
      destruct (negb (1 <=? v_growth v) && checked w1); [reflexivity|].
      destruct (vreallocate v (wmul n (v_growth v)) w1) as [[st v1] w2|f]; [|reflexivity]. destruct (negb (st_success st)); reflexivity.
    - eapply after_release; [exact H|exact W0|exact WO|exact R1| |rewrite S2; intros FX; rewrite <- (h_cap _ _ _ _ H FX); unfold reshrink, cfg_of; cbn [c_fixed]; rewrite VA, FX; reflexivity].
      replace (elems (a ++ [])) with (nfirst n (elems (a ++ m ++ []))); [exact G|].
      rewrite !elems_app. rewrite <- LA, <- (nlen_elems a), nfirst_here. now rewrite app_nil_r.
    - rewrite !map_app. rewrite <- LA, <- (nlen_snd a), nfirst_here. now rewrite app_nil_r.
  Qed.

  Lemma pop_step w0 w v ps : holds w0 w v ps -> wfw w0 -> fits (nlen ps) e ->
    exists r v' w' ps', opop_back d v w = Ok (r, v') w' /\ holds w0 w' v' ps' /\ wspec WPop (map snd ps) = (r, map snd ps').
  Proof using NM.
    intros H W0 F. cbn [wspec]. rewrite nlen_snd. unfold opop_back.
    pose proof (h_rep _ _ _ _ H) as R. assert (SZ : v_size v = nlen ps) by (now rewrite (r_size _ _ _ _ _ R), nlen_elems).
    rewrite SZ. destruct (N.eqb_spec (nlen ps) 0) as [|N0]; [now exists ST_OUT_OF_RANGE, v, w, ps|].
    destruct (split3 ps (nlen ps - 1) 1 ltac:(lia)) as (a & m & c & -> & LA & LM).
    assert (c = []) as ->. { rewrite !nlen_app' in LA. destruct c; [reflexivity|]. unfold nlen in *. cbn [length] in LA. lia. }
    destruct m as [|p [|? ?]]; [discriminate| |unfold nlen in LM; cbn [length] in LM; lia].
    destruct (part_released _ _ _ _ _ _ H) as (w1 & E1 & WO & R1).
    destruct (h_cfg _ _ _ _ H) as (VA & VE & VD).
    destruct (pop_back_ok w1 v pre (elems (a ++ [p] ++ [])) post R1) as (r & w' & v' & xs' & E2 & G & S).
    { intros AL. unfold grants, nofail. destruct WO as (_ & _ & _ & -> & _). apply H. congruence. }
    { rewrite nlen_elems, VE. exact F. }
    assert (LN : nlen (a ++ [p] ++ []) = nlen a + 1) by (rewrite !nlen_app'; reflexivity).
    cbn [vspec s_elems s_cap s_log] in S. rewrite nlen_elems in S. rewrite LN in *.
    destruct (N.eqb_spec (nlen a + 1) 0); [lia|].
    cbn [own_loop length] in E1. unfold bind at 1 in E1.
    destruct (d (offset v (nlen a)) w) as [u w1'|] eqn:ED; [|discriminate]. cbn [ret] in E1. unfold ret in E1. injection E1 as ->.
    unfold spec_delete in S. cbn [s_elems s_cap s_log] in S. rewrite nlen_elems, LN in S. cbn [N.eqb] in S.
    replace (nlen a + 1 <? nlen a + 1 - 1 + 1) with false in S by lia.
    destruct S as [-> S]. injection S as -> S2 S3.
    exists ST_SUCCESS, v', w', (a ++ []). split; [|split].
    - pose proof (rep_cap_lt _ _ _ _ _ R). pose proof (r_le _ _ _ _ _ R) as LE. rewrite nlen_elems, LN in LE.
      replace (wsub (nlen a + 1) 1) with (nlen a) by (rewrite wsub_small by lia; lia).
      rewrite (bind_ok _ _ _ _ _ ED). rewrite <- E2. unfold vpop_back. rewrite VD, SZ.
      replace (nlen a + 1 =? 0) with false by lia.
      replace (wsub (nlen a + 1) 1) with (nlen a) by (rewrite wsub_small by lia; lia). reflexivity.
    - eapply after_release; [exact H|exact W0|exact WO|exact R1| |rewrite S2; intros FX; rewrite <- (h_cap _ _ _ _ H FX); unfold reshrink, cfg_of; cbn [c_fixed]; rewrite VA, FX; reflexivity].
      match type of G with good _ _ _ _ _ ?x _ => replace (elems (a ++ [])) with x; [exact G|] end.
      unfold ldelete. rewrite nskip_all by (unfold nlen; rewrite map_length, !app_length; cbn [length app]; lia).
      rewrite !elems_app. replace (nlen a + 1 - 1) with (nlen (elems a)) by (rewrite nlen_elems; lia).
      now rewrite nfirst_here.
    - rewrite !map_app. replace (nlen a + 1 - 1) with (nlen (map (@snd N (list C)) a)) by (rewrite nlen_snd; lia).
      rewrite nfirst_here. now rewrite app_nil_r.
  Qed.

  (** ---- new objects ---- *)
  Lemma holds_new w0 w v (a c : list (N * list C)) buf : holds w0 w v (a ++ c) ->
    vrep (argw w buf) v pre (elems (a ++ c)) post /\ (al = true -> allocator_ok (argw w buf)) /\ mem w0 (argw w buf) v (a ++ [(nextb w, buf)] ++ c).
  Proof.
    intros [R (A & E & D) _ _ G MM]. destruct (argw_rep _ _ _ _ _ buf R) as (R1 & _ & _). split; [exact R1|]. split; [exact G|].
    apply mem_new_object; [exact MM|apply R|]. destruct (r_heap _ _ _ _ _ R) as (s & _ & ->). discriminate.
  Qed.

  (** The client takes a refused object back. *)
  Lemma take_back w0 w u v ps buf w2 : holds w0 w u ps -> wfw w0 -> same_cfg u v ->
    vrep w2 v pre (elems ps) post -> orc w2 = orc w -> mem w0 w2 v (ps ++ [(nextb w, buf)] ++ []) ->
    (al = false -> v_cap v = cap) -> (al = false -> blk v = bb) ->
    exists w', (forall r, st_success r = false -> unless_taken (nextb w) (r, v) w2 = Ok (r, v) w') /\ holds w0 w' v ps.
  Proof.
    intros H W0 (CA & CG & CS & CE & CD) R O MM CP BP.
    assert (L : heap w2 (nextb w) = Some buf).
    { pose proof (m_bufs _ _ _ _ MM) as B. rewrite Forall_forall in B. apply (B (nextb w, buf)). rewrite !in_app_iff. right. left. now left. }
    assert (NB : nextb w <> blk v).
    { pose proof (m_apart _ _ _ _ MM) as A. apply NoDup_cons_iff in A as [A _]. intros E. apply A. rewrite <- E, !map_app, !in_app_iff.
      right. left. now left. }
    set (w' := set_heap w2 (hset (heap w2) (nextb w) None)).
    assert (WO : without w2 w' (map fst [(nextb w, buf)])).
    { split; [|split; [|now repeat split]].
      - intros b [<-|[]]. cbn. unfold hset. now rewrite N.eqb_refl.
      - intros b NI. cbn. unfold hset. destruct (N.eqb_spec b (nextb w)) as [->|]; [destruct NI; now left|reflexivity]. }
    exists w'. split.
    - intros r ER. unfold unless_taken. cbn [fst]. rewrite ER. unfold bind, dealloc. cbn [N.eqb orb andb pb po negb]. now rewrite L.
    - rewrite <- (app_nil_r ps) in *. split.
      + eapply rep_other; [exact R| |eapply without_wf; [exact WO|apply R]|reflexivity]. apply WO. intros [E|[]]. cbn in E. congruence.
      + rewrite CA, CE, CD. apply H.
      + exact CP.
      + exact BP.
      + intros AL t. change (orc w') with (orc w2). rewrite O. now apply H.
      + rewrite app_nil_r in MM. eapply mem_without; [exact MM|exact W0|exact WO].
  Qed.
End OwnProofs.

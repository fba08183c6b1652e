(** Vector operations whose allocator request fails. *)
From Verif Require Import Base NListFacts Status Mem MemFacts VectorModel VectorSpec VectorDriver
  VectorRep VectorProofs VectorProofs2 VectorProofs3 VectorRefine.
From Coq Require Import ZifyBool ZifyNat ZifyN.

Section VectorFail.
  Context {C : Type}.
  Notation vec := (vector C).
  Implicit Types (w : world C) (v : vec).

  (** Another allocator from here on. *)
  Lemma rep_with_oracle w v pre xs post o : vrep w v pre xs post -> nofail w v ->
    vrep (with_oracle w o) v pre xs post.
  Proof.
    intros [] NF. split; auto. destruct r_heap as (s & SL & HH). exists s. split; [|exact HH].
    apply spare_eq. now apply (spare_exact _ _ _ NF).
  Qed.

  (** Nothing observable changed except the capacity field. *)
  Definition only_cap w v w' v' : Prop :=
    (exists c, v' = set_cap v c /\ 1 <= c) /\ (forall b, heap w' b = heap w b) /\
    dlog w' = dlog w /\ orc w' = orc w /\ tick w' = tick w + 1 /\ nextb w <= nextb w' /\
    checked w' = checked w.

  Lemma vreallocate_fail' w v pre xs post c st :
    vrep w v pre xs post -> v_alloc v = true -> orc w (tick w) = AFail st ->
    1 <= c \/ 1 < v_cap v ->
    exists v' w', vreallocate v c w = Ok (err_status st, v') w' /\ only_cap w v w' v'.
  Proof.
    intros R A O [L|L].
    - rewrite (vreallocate_fail _ _ _ _ _ _ _ R A O L). eexists _, _. split; [reflexivity|].
      repeat split; eauto; try (cbn; lia).
    - destruct (N.le_gt_cases 1 c) as [L1|L1].
      { rewrite (vreallocate_fail _ _ _ _ _ _ _ R A O L1). eexists _, _. split; [reflexivity|].
        repeat split; eauto; try (cbn; lia). }
      pose proof (vreallocate_fail _ _ _ _ _ 1 _ R A O ltac:(lia)) as E.
      replace (vreallocate v c w) with (vreallocate v 1 w).
      { rewrite E. eexists _, _. split; [reflexivity|]. repeat split; eauto; try (cbn; lia). exists 1. split; [reflexivity|lia]. }
      unfold vreallocate. rewrite A. cbn [negb]. unfold VECTOR_MIN_CAPACITY.
      destruct (N.ltb_spec c 1); [|lia]. destruct (N.ltb_spec 1 (v_cap v)); [|lia]. reflexivity.
  Qed.

  Lemma vgrow_fail' w v pre xs post n st :
    vrep w v pre xs post -> v_alloc v = true -> orc w (tick w) = AFail st -> 1 <= n ->
    fits (nlen xs + n) (v_esz v) -> v_cap v < nlen xs + n ->
    exists v' w', vgrow v n w = Ok (err_status st, v') w' /\ only_cap w v w' v'.
  Proof.
    intros R A O N1 F L. pose proof (vgrow_fail _ _ _ _ _ _ _ R A O N1 F L) as E.
    rewrite E. eexists _, _. split; [reflexivity|]. repeat split; eauto; try (cbn; lia).
    eexists. split; [reflexivity|]. destruct (growth_bounds _ _ _ _ _ R). nia.
  Qed.

  Lemma with_arg_fail w v pre xs post x (k : option ptr -> M C (status * vec)) r :
    vrep w v pre xs post ->
    (exists v' w', k (Some (mkptr (nextb w) 0)) (argw w x) = Ok (r, v') w' /\
       only_cap (argw w x) v w' v') ->
    exists v' w', with_arg x k w = Ok (r, v') w' /\ only_cap w v w' v'.
  Proof.
    intros R (v' & w' & E & OC & H & D & Or & T & NB & K). exists v', (dropw w' (nextb w)). split.
    - unfold with_arg, argw in *. rewrite E. reflexivity.
    - repeat split; auto; [|cbn in *; lia]. intros b. cbn. unfold hset. destruct (N.eqb_spec b (nextb w)) as [->|NE].
      + symmetry. apply R. lia.
      + rewrite H. cbn. unfold hset. now destruct (N.eqb_spec b (nextb w)).
  Qed.

  Theorem run_op_fail w v pre xs post o st :
    vrep w v pre xs post -> v_alloc v = true -> orc w (tick w) = AFail st ->
    arg_ok (v_esz v) o -> fits (nlen xs + demand o) (v_esz v) ->
    wants_room o (nlen xs) (v_cap v) = true ->
    exists v' w', run_op v o w = Ok (err_status st, v') w' /\ only_cap w v w' v'.
  Proof.
    intros R AL O A F WR. pose proof (r_size _ _ _ _ _ R) as RS. pose proof (st_success_err st) as NS.
    pose proof (rep_cap_lt _ _ _ _ _ R) as CL. pose proof (r_le _ _ _ _ _ R) as LE.
    destruct o; cbn [run_op demand arg_ok wants_room] in *; try discriminate.
    - eapply with_arg_fail; [exact R|]. destruct (argw_rep _ _ _ _ _ x R) as (R1 & _ & _).
      unfold vpush_back. cbn [nonnull negb].
      rewrite (bind_ok _ _ _ _ _ (rep_assert_valid _ _ _ _ _ R1)).
      destruct (vgrow_fail' (argw w x) v pre xs post 1 st R1 AL O) as (v' & w' & E & OC); auto; try lia.
      rewrite (bind_ok _ _ _ _ _ E). rewrite NS. eexists _, _. split; [reflexivity|exact OC].
    - eapply with_arg_fail; [exact R|]. destruct (argw_rep _ _ _ _ _ x R) as (R1 & _ & _).
      unfold vinsert, vinsert_range. cbn [nonnull negb orb N.eqb]. rewrite RS.
      replace (1 =? 0) with false by reflexivity.
      destruct (N.ltb_spec (nlen xs) i); [lia|].
      rewrite (bind_ok _ _ _ _ _ (rep_assert_valid _ _ _ _ _ R1)).
      destruct (vgrow_fail' (argw w x) v pre xs post 1 st R1 AL O) as (v' & w' & E & OC); auto; try lia.
      rewrite (bind_ok _ _ _ _ _ E). rewrite NS. eexists _, _. split; [reflexivity|exact OC].
    - eapply with_arg_fail; [exact R|]. destruct (argw_rep _ _ _ _ _ (concat xs0) R) as (R1 & _ & _).
      unfold vinsert_range. cbn [nonnull negb orb]. rewrite RS.
      destruct (N.eqb_spec (nlen xs0) 0); [lia|].
      destruct (N.ltb_spec (nlen xs) i); [lia|].
      rewrite (bind_ok _ _ _ _ _ (rep_assert_valid _ _ _ _ _ R1)).
      destruct (vgrow_fail' (argw w (concat xs0)) v pre xs post (nlen xs0) st R1 AL O) as (v' & w' & E & OC); auto; try lia.
      rewrite (bind_ok _ _ _ _ _ E). rewrite NS. eexists _, _. split; [reflexivity|exact OC].
    - unfold vemplace, vemplace_ex. rewrite RS. destruct (N.ltb_spec (nlen xs) (nlen xs)); [lia|].
      destruct (vgrow_fail' w v pre xs post 1 st R AL O) as (v' & w' & E & OC); auto; try lia.
      unfold bind at 1. rewrite (bind_ok _ _ _ _ _ (rep_assert_valid _ _ _ _ _ R)).
      rewrite (bind_ok _ _ _ _ _ E). rewrite NS. eexists _, _. split; [reflexivity|exact OC].
    - unfold vemplace_ex. rewrite RS. destruct (N.ltb_spec (nlen xs) i); [lia|].
      destruct (vgrow_fail' w v pre xs post 1 st R AL O) as (v' & w' & E & OC); auto; try lia.
      unfold bind at 1. rewrite (bind_ok _ _ _ _ _ (rep_assert_valid _ _ _ _ _ R)).
      rewrite (bind_ok _ _ _ _ _ E). rewrite NS. eexists _, _. split; [reflexivity|exact OC].
    - (* Resize *)
      unfold vresize, vresize_ex. rewrite RS. destruct (N.eqb_spec n (nlen xs)); [lia|].
      destruct (N.ltb_spec n (nlen xs)); [lia|]. unfold should_grow.
      destruct (N.ltb_spec (v_cap v) n); [|lia]. cbn [orb].
      destruct (growth_bounds _ _ _ _ _ R) as [GB _]. destruct (N.leb_spec 1 (v_growth v)); [|lia].
      unfold fits in F. pose proof (r_esz _ _ _ _ _ R).
      destruct (vreallocate_fail' w v pre xs post (wmul n (v_growth v)) st R AL O) as (v' & w' & E & OC).
      { left. rewrite wmul_small by nia. nia. }
      unfold bind at 1. unfold ret at 1. unfold bind at 1. unfold bind at 1. cbn [assert]. unfold ret at 1.
      rewrite E. cbv beta iota. rewrite NS. eexists _, _. split; [reflexivity|exact OC].
    - (* ResizeEx *)
      eapply with_arg_fail; [exact R|]. destruct (argw_rep _ _ _ _ _ init R) as (R1 & _ & _).
      unfold vresize_ex. rewrite RS. destruct (N.eqb_spec n (nlen xs)); [lia|].
      destruct (N.ltb_spec n (nlen xs)); [lia|]. unfold should_grow.
      destruct (N.ltb_spec (v_cap v) n); [|lia]. cbn [orb].
      destruct (growth_bounds _ _ _ _ _ R) as [GB _]. destruct (N.leb_spec 1 (v_growth v)); [|lia].
      unfold fits in F. pose proof (r_esz _ _ _ _ _ R).
      destruct (vreallocate_fail' (argw w init) v pre xs post (wmul n (v_growth v)) st R1 AL O) as (v' & w' & E & OC).
      { left. rewrite wmul_small by nia. nia. }
      unfold bind at 1. unfold ret at 1. unfold bind at 1. unfold bind at 1. cbn [assert]. unfold ret at 1.
      rewrite E. cbv beta iota. rewrite NS. eexists _, _. split; [reflexivity|exact OC].
    - (* Reserve *)
      unfold vreserve. rewrite WR. eapply vreallocate_fail'; eauto. left. lia.
    - unfold vshrink_to_fit. eapply vreallocate_fail'; eauto. lia.
  Qed.

  (** After such a failure the elements can still be read, and Destroy releases the storage. *)
  Lemma only_cap_read w v w' v' pre xs post i : vrep w v pre xs post -> only_cap w v w' v' ->
    read_elem v' i w' = Ok (nnth i xs) w'.
  Proof.
    intros R ((c & -> & _) & H & _). pose proof (read_elem_ok _ _ _ _ _ i R) as E.
    pose proof (rep_assert_valid _ _ _ _ _ R) as AV. pose proof (r_esz _ _ _ _ _ R) as EP.
    unfold read_elem, vget, assert_valid, bind, assert, offset, mread in *.
    cbn [v_size v_esz v_data set_cap] in *. destruct (v_size v <=? i); [unfold ret in *; congruence|].
    replace (negb (v_esz v =? 0)) with true in * by lia. cbn in *.
    destruct (nonnull (v_data v)) eqn:NN; [|rewrite (r_data _ _ _ _ _ R) in NN; discriminate].
    cbn in *. destruct (padd (v_data v) (wmul i (v_esz v))) as [p|]; [|unfold ret in *; congruence].
    rewrite H. destruct (heap w (pb p)); [|discriminate]. destruct (_ <=? _); [|discriminate].
    unfold ret in *. congruence.
  Qed.

  Lemma dtor_loop_set_cap f v c n : forall i, dtor_loop f (set_cap v c) i n = dtor_loop f v i n.
  Proof. induction n as [|n IH]; intros i; [reflexivity|]. cbn [dtor_loop]. now rewrite IH. Qed.

  Lemma only_cap_destroy w v w' v' pre xs post : vrep w v pre xs post -> v_alloc v = true ->
    only_cap w v w' v' ->
    exists w'', vdestroy v' w' = Ok (ST_SUCCESS, set_data v' None) w'' /\
      dlog w'' = dlog w ++ destroyed (cfg_of v) xs /\
      heap w'' (blk v) = None /\ (forall b, b <> blk v -> heap w'' b = heap w b).
  Proof.
    intros R A ((c & -> & C1) & H & D & O & T & NB & _).
    assert (R' : vrep w' v pre xs post).
    { destruct R. split; auto.
      - intros b L. rewrite H. apply r_wf. lia.
      - destruct r_heap as (s & SL & HH). exists s.
        split; [eapply spare_orc, SL; exact O|]. now rewrite H. }
    destruct (destroy_ok w' v pre xs post R') as (w2 & E & D2 & H2 & _ & F2).
    exists w2. split; [|split; [congruence|split; [now apply H2|]]].
    - unfold vdestroy in *. unfold assert_valid, destroy_range in *.
      cbn [v_esz v_data v_size v_dtor v_alloc v_cap set_cap] in *.
      rewrite A in *. cbn [andb] in *. pose proof (r_cap _ _ _ _ _ R).
      replace (negb (v_cap v =? 0)) with true in E by lia. replace (negb (c =? 0)) with true by lia.
      unfold bind in *. destruct (assert (negb (v_esz v =? 0)) w') as [? wa|]; [|discriminate].
      destruct (assert (nonnull (v_data v)) wa) as [? wb|]; [|discriminate].
      match goal with |- match ?X wb with _ => _ end = _ => 
        replace (X wb) with ((match v_dtor v with
        | Some f => dtor_loop f v 0 (N.to_nat (v_size v - 0)) | None => ret tt end) wb) end.
      2: { destruct (v_dtor v); [|reflexivity]. now rewrite dtor_loop_set_cap. }
      destruct ((match v_dtor v with
        | Some f => dtor_loop f v 0 (N.to_nat (v_size v - 0)) | None => ret tt end) wb) as [? wc|]; [|discriminate].
      unfold dealloc in *. pose proof (r_esz _ _ _ _ _ R).
      replace ((v_esz v =? 0) || (v_cap v =? 0)) with false in E by lia.
      replace ((v_esz v =? 0) || (c =? 0)) with false by lia.
      cbn [andb] in *. pose proof (r_data _ _ _ _ _ R) as RD.
      destruct (v_data v) as [p|]; [|discriminate]. destruct (heap wc (pb p)); [|discriminate].
      destruct (negb (po p =? 0)); [discriminate|].
      replace (st_success ST_SUCCESS) with true in * by reflexivity. unfold ret in *. congruence.
    - intros b Hb. rewrite F2 by assumption. apply H.
  Qed.
End VectorFail.

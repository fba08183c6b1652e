(** Sequences of vector calls refine the list machine. *)
From Verif Require Import Base NListFacts Status Mem MemFacts VectorModel VectorSpec VectorDriver
  VectorRep VectorProofs VectorProofs2 VectorProofs3.
From Coq Require Import ZifyBool ZifyNat ZifyN.

Section VectorRefine.
  Context {C : Type}.
  Notation vec := (vector C).
  Implicit Types (w : world C) (v : vec).

  Definition argw w (x : list C) : world C :=
    mkbuild (hset (heap w) (nextb w) (Some x)) (nextb w + 1) (orc w) (tick w) (dlog w) (checked w).
  Definition dropw w b : world C := set_heap w (hset (heap w) b None).

  Lemma argw_rep w v pre xs post x : vrep w v pre xs post ->
    vrep (argw w x) v pre xs post /\ src (argw w x) (mkptr (nextb w) 0) x /\ nextb w <> blk v.
  Proof.
    intros R. pose proof (rep_blk_lt _ _ _ _ _ R) as L. split; [|split; [|lia]].
    - destruct R. split; auto.
      + intros b Hb. cbn in *. unfold hset. destruct (N.eqb_spec b (nextb w)); [lia|].
        apply r_wf. lia.
      + destruct r_heap as (s & SL & HH). exists s. split; [exact SL|]. cbn. unfold hset.
        destruct (N.eqb_spec (blk v) (nextb w)); [lia|]. exact HH.
    - exists [], []. split; [|reflexivity]. cbn. unfold hset. now rewrite N.eqb_refl, app_nil_r.
  Qed.
  Lemma dropw_good w v pre xs post w' v' xs' x : vrep w v pre xs post ->
    good (argw w x) v w' v' pre xs' post ->
    good w v (dropw w' (nextb w)) v' pre xs' post.
  Proof.
    intros R [G1 G2 G3]. pose proof (rep_blk_lt _ _ _ _ _ R) as L.
    destruct G3 as [FA FO FT FN FH FD]. cbn in FO, FN.
    assert (NB : blk v' <> nextb w).
    { destruct (N.eq_dec (blk v') (blk v)); [lia|]. destruct (FD n) as (_ & _ & LL). cbn in LL. lia. }
    split.
    - destruct G1. split; auto.
      + intros b Hb. cbn in *. unfold hset. destruct (N.eqb_spec b (nextb w)); [reflexivity|].
        apply r_wf. lia.
      + destruct r_heap as (s & SL & HH). exists s. split; [exact SL|]. cbn. unfold hset.
        destruct (N.eqb_spec (blk v') (nextb w)); [lia|]. exact HH.
    - exact G2.
    - split; auto.
      + cbn. lia.
      + intros b B1 B2. cbn. unfold hset. destruct (N.eqb_spec b (nextb w)).
        * symmetry. apply R. lia.
        * rewrite FH by assumption. cbn. unfold hset. destruct (N.eqb_spec b (nextb w)); [lia|reflexivity].
      + intros B. destruct (FD B) as (D1 & D2 & D3). split; [exact D1|]. cbn in *. unfold hset.
        destruct (N.eqb_spec (blk v) (nextb w)); [lia|]. split; [assumption|lia].
  Qed.

  Lemma with_arg_step w v pre xs post x (k : option ptr -> M C (status * vec)) c o :
    vrep w v pre xs post ->
    (exists r w' v' xs', k (Some (mkptr (nextb w) 0)) (argw w x) = Ok (r, v') w' /\
       good (argw w x) v w' v' pre xs' post /\
       vspec c o (mkst xs (v_cap v) (dlog w)) r (mkst xs' (v_cap v') (dlog w'))) ->
    exists r w' v' xs', with_arg x k w = Ok (r, v') w' /\
       good w v w' v' pre xs' post /\
       vspec c o (mkst xs (v_cap v) (dlog w)) r (mkst xs' (v_cap v') (dlog w')).
  Proof.
    intros R (r & w' & v' & xs' & E & G & S).
    exists r, (dropw w' (nextb w)), v', xs'. split.
    - unfold with_arg, argw in *. rewrite E. reflexivity.
    - split; [|exact S]. eapply dropw_good; eauto.
  Qed.

  Lemma growth_le n g e : 1 <= g < 256 -> fits n e -> n * g * e < W64.
  Proof. unfold fits. intros. nia. Qed.

  Theorem run_op_ok w v pre xs post o :
    vrep w v pre xs post -> grants w v -> arg_ok (v_esz v) o ->
    fits (nlen xs + demand o) (v_esz v) ->
    exists r w' v' xs', run_op v o w = Ok (r, v') w' /\ good w v w' v' pre xs' post /\
      vspec (cfg_of v) o (mkst xs (v_cap v) (dlog w)) r (mkst xs' (v_cap v') (dlog w')).
  Proof.
    intros R NF A F. destruct (growth_bounds _ _ _ _ _ R) as [GB SB].
    pose proof (r_esz _ _ _ _ _ R) as EP.
    destruct o; cbn [run_op demand arg_ok] in *.
    - (* PushBack *)
      apply with_arg_step; [exact R|]. destruct (argw_rep _ _ _ _ _ x R) as (R1 & S1 & N1).
      apply (push_back_ok (argw w x) v pre xs post x _ R1); auto. now apply growth_le.
    - (* Insert *)
      apply with_arg_step; [exact R|]. destruct (argw_rep _ _ _ _ _ x R) as (R1 & S1 & N1).
      apply (insert_range_ok (argw w x) v pre xs post i [x] _ R1); auto.
      + apply chunked_cons. split; [assumption|apply chunked_nil].
      + rewrite nlen_cons. lia.
      + now apply growth_le.
      + cbn [concat]. now rewrite app_nil_r.
    - (* InsertRange *)
      apply with_arg_step; [exact R|].
      destruct (argw_rep _ _ _ _ _ (concat xs0) R) as (R1 & S1 & N1).
      destruct xs0 as [|y ys].
      + exists ST_INVALID_ARGUMENT, (argw w (concat [])), v, xs. split; [reflexivity|].
        split; [now apply good_refl|]. now split.
      + apply (insert_range_ok (argw w (concat (y :: ys))) v pre xs post i (y :: ys) _ R1); auto.
        * rewrite nlen_cons. lia.
        * now apply growth_le.
    - (* Emplace *)
      destruct (emplace_ok w v pre xs post (v_size v) ctor R NF A) as (r & w' & v' & xs' & p & E & G & S & _).
      { now apply growth_le. }
      exists r, w', v', xs'. split; [|split; [exact G|]].
      + unfold vemplace, bind. rewrite E. reflexivity.
      + cbn [vspec s_elems]. now rewrite <- (r_size _ _ _ _ _ R).
    - (* EmplaceEx *)
      destruct (emplace_ok w v pre xs post i ctor R NF A) as (r & w' & v' & xs' & p & E & G & S & _).
      { now apply growth_le. }
      exists r, w', v', xs'. split; [|split; [exact G|exact S]].
      unfold bind. rewrite E. reflexivity.
    - (* Set *)
      apply with_arg_step; [exact R|]. destruct (argw_rep _ _ _ _ _ x R) as (R1 & S1 & N1).
      apply (set_ok (argw w x) v pre xs post i x _ R1); auto.
    - now apply swap_ok.
    - (* Delete *)
      apply delete_range_ok; auto. eapply fits_le; [|exact F]. lia.
    - apply delete_range_ok; auto. eapply fits_le; [|exact F]. lia.
    - apply pop_back_ok; auto. eapply fits_le; [|exact F]. lia.
    - (* Clear *)
      destruct (resize_ok w v pre xs post 0 None R NF) as (r & w' & v' & xs' & new & E & G & LN & KN & _ & S).
      { eapply fits_le; [|exact F]. lia. } { eapply fits_le; [|exact F]. lia. } { exact I. }
      exists r, w', v', xs'. split; [exact E|]. split; [exact G|].
      cbn [vspec]. replace (@nil (list C)) with new; [exact S|]. apply nlen_0. lia.
    - (* Resize *)
      destruct (resize_ok w v pre xs post n None R NF) as (r & w' & v' & xs' & new & E & G & LN & KN & _ & S).
      { eapply fits_le; [|exact F]. lia. } { eapply fits_le; [|exact F]. lia. } { exact I. }
      exists r, w', v', xs'. split; [exact E|]. split; [exact G|].
      cbn [vspec s_elems]. exists new. split; [exact LN|]. split; [exact KN|exact S].
    - (* ResizeEx *)
      apply with_arg_step; [exact R|]. destruct (argw_rep _ _ _ _ _ init R) as (R1 & S1 & N1).
      destruct (resize_ok (argw w init) v pre xs post n (Some (mkptr (nextb w) 0, init)) R1 NF)
        as (r & w' & v' & xs' & new & E & G & LN & KN & EN & S).
      { eapply fits_le; [|exact F]. lia. } { eapply fits_le; [|exact F]. lia. } { auto. }
      exists r, w', v', xs'. split; [exact E|]. split; [exact G|].
      cbn [vspec s_elems]. rewrite <- EN. exact S.
    - (* Reserve *)
      apply reserve_ok; auto. unfold fits in F. nia.
    - now apply shrink_to_fit_ok.
  Qed.

  Lemma vspec_len c o (s : vstate C) r s' : vspec c o s r s' ->
    nlen (s_elems s') <= nlen (s_elems s) + demand o.
  Proof.
    assert (HI : forall i xs s r s', spec_insert c i xs s r s' ->
      nlen (s_elems s') <= nlen (s_elems s) + nlen (xs : list (list C))).
    { intros i xs s0 r0 s0'. unfold spec_insert. destruct (N.ltb_spec (nlen (s_elems s0)) i).
      { intros [_ ->]. lia. }
      destruct (regrow _ _ _); intros [_ ->]; [|lia]. cbn [s_elems]. unfold linsert. nl.
      rewrite nlen_nfirst, nlen_nskip. lia. }
    assert (HR : forall n new s r s', spec_resize c n new s r s' -> nlen new = n - nlen (s_elems s) ->
      nlen (s_elems s') <= nlen (s_elems s) + n).
    { intros n new s0 r0 s0'. unfold spec_resize. destruct (n =? nlen (s_elems s0)).
      { intros [_ ->]. lia. }
      destruct (n <? nlen (s_elems s0)).
      { intros [_ ->]. cbn. rewrite nlen_nfirst. lia. }
      destruct (regrow _ _ _); intros [_ ->]; cbn [s_elems]; [nl|]; lia. }
    assert (HD : forall i n s r s', spec_delete c i n s r s' ->
      nlen (s_elems s') <= nlen (s_elems s)).
    { intros i n s0 r0 s0'. unfold spec_delete. destruct (n =? 0); [intros [_ ->]; lia|].
      destruct (_ <? _); intros [_ ->]; [lia|]. cbn [s_elems]. unfold ldelete. nl.
      rewrite nlen_nfirst, nlen_nskip. lia. }
    destruct o; cbn [vspec demand]; intros S.
    - apply HI in S. exact S.
    - apply HI in S. exact S.
    - destruct xs; [destruct S as [_ ->]; lia|]. apply HI in S. exact S.
    - destruct S as (? & ? & _ & _ & _ & S). apply HI in S. exact S.
    - destruct S as (? & ? & _ & _ & _ & S). apply HI in S. exact S.
    - destruct (nnth i (s_elems s)) eqn:E; destruct S as [_ ->]; [|lia]. cbn [s_elems].
      apply nnth_lt in E. rewrite nlen_lset by assumption. lia.
    - destruct (_ || _) eqn:B; [destruct S as [_ ->]; lia|].
      destruct (_ =? _); destruct S as [_ ->]; [lia|]. cbn [s_elems]. unfold lswap.
      destruct (nnth i _) eqn:E1; [|lia]. destruct (nnth j _) eqn:E2; [|lia].
      apply nnth_lt in E1. apply nnth_lt in E2. rewrite !nlen_lset; auto; [lia|]. now rewrite nlen_lset.
    - apply HD in S. lia.
    - apply HD in S. lia.
    - destruct (_ =? _); [destruct S as [_ ->]; lia|]. apply HD in S. lia.
    - apply HR in S; [lia|]. rewrite nlen_nil. lia.
    - destruct S as (new & L & _ & S). apply HR in S; auto.
    - apply HR in S; auto. apply nlen_repeat.
    - destruct (_ <=? _); [destruct S as [_ ->]; lia|].
      destruct (c_fixed c); destruct S as [_ ->]; cbn [s_elems]; lia.
    - destruct S as [_ ->]. destruct (c_fixed c); cbn [s_elems]; lia.
  Qed.

  Theorem run_ops_ok : forall ops w v pre xs post,
    vrep w v pre xs post -> nofail w v -> Forall (arg_ok (v_esz v)) ops ->
    fits (nlen xs + demands ops) (v_esz v) ->
    exists rs w' v' xs', run_ops v ops w = Ok (rs, v') w' /\ good w v w' v' pre xs' post /\
      vspecs (cfg_of v) ops (mkst xs (v_cap v) (dlog w)) rs (mkst xs' (v_cap v') (dlog w')).
  Proof.
    induction ops as [|o ops IH]; intros w v pre xs post R NF A F.
    - exists [], w, v, xs. split; [reflexivity|]. split; [now apply good_refl|constructor].
    - inv A. cbn [demands] in F.
      destruct (run_op_ok w v pre xs post o R (nofail_grants _ _ NF) H1) as (r & w1 & v1 & xs1 & E1 & G1 & S1).
      { eapply fits_le; [|exact F]. lia. }
      pose proof (vspec_len _ _ _ _ _ S1) as L1. cbn [s_elems] in L1.
      destruct (g_cfg _ _ _ _ _ _ _ G1) as (CA & CG & CS & CE & CD).
      destruct (IH w1 v1 pre xs1 post) as (rs & w2 & v2 & xs2 & E2 & G2 & S2).
      { apply G1. }
      { eapply nofail_frame; [exact NF|apply G1|apply G1]. }
      { now rewrite CE. }
      { rewrite CE. eapply fits_le; [|exact F]. lia. }
      exists (r :: rs), w2, v2, xs2. split; [|split].
      + cbn [run_ops]. rewrite (bind_ok _ _ _ _ _ E1). rewrite (bind_ok _ _ _ _ _ E2). reflexivity.
      + eapply good_trans; [exact G1|apply R|exact G2].
      + econstructor; [exact S1|]. rewrite (cfg_of_same _ _ (g_cfg _ _ _ _ _ _ _ G1)) in S2. exact S2.
  Qed.

  (** ---- construction, destruction ---- *)

  Definition idle v : vec := set_data v None.

  Lemma init_ok w e cap d g s fill :
    wfw w -> orc w (tick w) = AOk fill -> 1 <= e -> N.max 1 cap * e < W64 -> dtor_ok e d ->
    1 <= g < 256 -> s < 256 ->
    exists w' v, vinit_ex e cap d true g s w = Ok (ST_SUCCESS, Some v) w' /\
      vrep w' v [] [] [] /\ v_cap v = N.max 1 cap /\ v_esz v = e /\ v_alloc v = true /\
      cfg_of v = mkcfg false g s e d /\
      dlog w' = dlog w /\ orc w' = orc w /\ nextb w <= blk v /\ nextb w <= nextb w' /\
      (forall b, b <> blk v -> heap w' b = heap w b).
  Proof.
    intros W O E1 MM DK GB SB. unfold vinit_ex.
    replace ((e =? 0) || negb true || (g <? 1)) with false by lia.
    unfold VECTOR_MIN_CAPACITY, bind, alloc. cbn [v_esz v_cap].
    replace ((e =? 0) || (N.max 1 cap =? 0)) with false by lia.
    rewrite O. unfold ret. eexists _, _. split; [reflexivity|].
    split; [|cbn; repeat split; try lia].
    - split; cbn [v_cap v_esz v_size v_data v_alloc v_growth v_shrink v_dtor set_data]; auto; try (nl; lia).
      + intros b Hb. cbn in *. unfold hset. destruct (N.eqb_spec b (nextb w)); [lia|]. apply W. lia.
      + exists (fresh fill (wmul e (N.max 1 cap))). split.
        * apply spare_eq. rewrite nlen_fresh, wmul_small by lia. rewrite nlen_nil. lia.
        * cbn. unfold hset. rewrite N.eqb_refl. now rewrite app_nil_r.
      + apply chunked_nil.
    - intros b Hb. cbn in *. unfold hset. destruct (N.eqb_spec b (nextb w)); [lia|reflexivity].
  Qed.

  Lemma init_custom_ok w e cap d b pre buf post :
    wfw w -> heap w b = Some (pre ++ buf ++ post) -> nlen buf = cap * e -> 1 <= e -> 1 <= cap ->
    cap * e < W64 -> dtor_ok e d ->
    exists v, vinit_custom e (Some (mkptr b (nlen pre))) cap d w = Ok (ST_SUCCESS, Some v) w /\
      vrep w v pre [] post /\ v_cap v = cap /\ v_esz v = e /\ v_alloc v = false /\
      cfg_of v = mkcfg true 1 0 e d /\ blk v = b.
  Proof.
    intros W H L E1 C1 MM DK. unfold vinit_custom.
    replace ((e =? 0) || negb (nonnull (Some (mkptr b (nlen pre)))) || (cap =? 0)) with false
      by (cbn; lia).
    unfold ret. eexists. split; [reflexivity|]. split; [|now repeat split].
    split; cbn [v_cap v_esz v_size v_data v_alloc v_growth v_shrink v_dtor blk pb]; auto; try (nl; lia).
    - exists buf. split; [apply spare_eq; rewrite nlen_nil; lia|exact H].
    - apply chunked_nil.
  Qed.

  Lemma destroy_ok w v pre xs post :
    vrep w v pre xs post ->
    exists w', vdestroy v w = Ok (ST_SUCCESS, idle v) w' /\
      dlog w' = dlog w ++ destroyed (cfg_of v) xs /\
      (v_alloc v = true -> heap w' (blk v) = None) /\
      (v_alloc v = false -> exists xs' slack, chunked (v_esz v) xs' /\ nlen xs' = nlen xs /\
          heap w' (blk v) = Some (pre ++ concat xs' ++ slack ++ post)) /\
      (forall b, b <> blk v -> heap w' b = heap w b).
  Proof.
    intros R. unfold vdestroy.
    rewrite (bind_ok _ _ _ _ _ (rep_assert_valid _ _ _ _ _ R)).
    destruct (destroy_range_ok v xs w pre [] [] post) as (w1 & xs' & E1 & L1 & G1 & D1).
    { cbn [app]. now rewrite app_nil_r. }
    rewrite nlen_nil, N.add_0_l in E1. rewrite (r_size _ _ _ _ _ R).
    rewrite (bind_ok _ _ _ _ _ E1). cbn [app] in G1. rewrite app_nil_r in G1.
    pose proof (r_cap _ _ _ _ _ R). pose proof (r_esz _ _ _ _ _ R).
    pose proof (g_rep _ _ _ _ _ _ _ G1) as R1. destruct (r_heap _ _ _ _ _ R1) as (s & SL & HH).
    destruct (g_frame _ _ _ _ _ _ _ G1) as [_ FO FT FN FH _].
    destruct (v_alloc v) eqn:A; cbn [andb].
    - replace (negb (v_cap v =? 0)) with true by lia.
      pose proof (r_alloc _ _ _ _ _ R) as RA. rewrite A in RA. destruct RA as (-> & -> & _).
      unfold bind, dealloc. replace ((v_esz v =? 0) || (v_cap v =? 0)) with false by lia.
      rewrite (r_data _ _ _ _ _ R). cbn [pb po]. rewrite HH.
      change (negb (nlen (@nil C) =? 0)) with false. cbv iota. okst. unfold ret.
      eexists. split; [reflexivity|]. split; [exact D1|]. split; [|split; [discriminate|]].
      + intros _. cbn. unfold hset. now rewrite N.eqb_refl.
      + intros b Hb. cbn. unfold hset. destruct (N.eqb_spec b (blk v)); [congruence|]. now apply FH.
    - unfold ret. exists w1. split; [reflexivity|]. split; [exact D1|].
      split; [discriminate|]. split; [|intros; now apply FH].
      intros _. exists xs', s. split; [apply R1|]. split; [exact L1|exact HH].
  Qed.

  (** ---- observation ---- *)
  Lemma read_elem_ok w v pre xs post i :
    vrep w v pre xs post -> read_elem v i w = Ok (nnth i xs) w.
  Proof.
    intros R. unfold read_elem, vget. rewrite (r_size _ _ _ _ _ R).
    destruct (N.leb_spec (nlen xs) i).
    - rewrite nnth_ge by assumption. reflexivity.
    - destruct (nnth_exists _ _ H) as [x NX]. rewrite NX.
      unfold bind at 1. rewrite (bind_ok _ _ _ _ _ (rep_assert_valid _ _ _ _ _ R)). unfold ret at 1.
      pose proof (elem_read _ _ _ _ _ _ _ R NX) as E. pose proof (r_le _ _ _ _ _ R).
      rewrite (rep_offset _ _ _ _ _ _ R) in * by lia. rewrite (bind_ok _ _ _ _ _ E). reflexivity.
  Qed.

  (** ---- allocation failure ---- *)
  Lemma vgrow_fail w v pre xs post n st :
    vrep w v pre xs post -> v_alloc v = true -> orc w (tick w) = AFail st -> 1 <= n ->
    fits (nlen xs + n) (v_esz v) -> v_cap v < nlen xs + n ->
    vgrow v n w = Ok (err_status st, set_cap v ((nlen xs + n) * v_growth v))
      (mkbuild (heap w) (nextb w) (orc w) (tick w + 1) (dlog w) (checked w)).
  Proof.
    intros R A O N1 F L. pose proof (r_esz _ _ _ _ _ R). destruct (growth_bounds _ _ _ _ _ R) as [GB _].
    unfold fits in F. unfold vgrow, should_grow. rewrite (r_size _ _ _ _ _ R).
    rewrite wadd_small, wmul_small by nia.
    destruct (N.ltb_spec (v_cap v) (nlen xs + n)); [|lia].
    replace (N.max 1 ((nlen xs + n) * v_growth v)) with ((nlen xs + n) * v_growth v) by nia.
    eapply vreallocate_fail; eauto. nia.
  Qed.
End VectorRefine.

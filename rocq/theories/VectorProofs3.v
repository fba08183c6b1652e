(** Each vector operation meets its list specification, part 3. *)
From Verif Require Import Base NListFacts Status Mem MemFacts VectorModel VectorSpec VectorRep
  VectorProofs VectorProofs2.
From Coq Require Import ZifyBool ZifyNat ZifyN.

Ltac okst := replace (st_success ST_SUCCESS) with true by reflexivity; cbn [negb].

Section VectorProofs3.
  Context {C : Type}.
  Notation vec := (vector C).
  Implicit Types (w : world C) (v : vec).

  (** ---- ZyanVectorSet ---- *)
  Lemma set_ok w v pre xs post i x q :
    vrep w v pre xs post -> nlen x = v_esz v -> src w q x -> pb q <> blk v ->
    exists r w' v' xs', vset v i (Some q) w = Ok (r, v') w' /\ good w v w' v' pre xs' post /\
      vspec (cfg_of v) (OSet i x) (mkst xs (v_cap v) (dlog w)) r (mkst xs' (v_cap v') (dlog w')).
  Proof.
    intros R Lx S P. unfold vset, vspec. cbn [nonnull negb s_elems s_cap s_log].
    rewrite (r_size _ _ _ _ _ R).
    destruct (N.leb_spec (nlen xs) i).
    { rewrite nnth_ge by assumption.
      exists ST_OUT_OF_RANGE, w, v, xs. split; [reflexivity|]. split; [now apply good_refl|]. now split. }
    destruct (nnth_exists _ _ H) as [y NY]. rewrite NY.
    rewrite (bind_ok _ _ _ _ _ (rep_assert_valid _ _ _ _ _ R)).
    assert (ST : exists w1 y', (match v_dtor v with
       | Some f => call_dtor f (offset v i) (v_esz v)
       | None => ret tt end) w = Ok tt w1 /\
       good w v w1 v pre (lset i y' xs) post /\ dlog w1 = dlog w ++ destroyed (cfg_of v) [y]).
    { unfold destroyed. cbn [cfg_of c_dtor]. destruct (v_dtor v) as [f|] eqn:DF.
      - destruct (elem_dtor w v pre _ post i y f R) as (w1 & E1 & G1 & D1); auto.
        exists w1, (f y). auto.
      - exists w, y. split; [reflexivity|]. split; [|now rewrite app_nil_r].
        replace (lset i y xs) with xs; [now apply good_refl|].
        apply nnth_some in NY as (a & c & -> & A). now rewrite lset_split. }
    destruct ST as (w1 & y' & E1 & G1 & D1). rewrite (bind_ok _ _ _ _ _ E1).
    destruct (src_frame _ _ _ _ _ _ S P (r_wf _ _ _ _ _ R) (g_frame _ _ _ _ _ _ _ G1)) as [S' P'].
    destruct (elem_copy_in w1 v pre _ post i x q (g_rep _ _ _ _ _ _ _ G1)) as (w2 & E2 & G2 & D2); auto.
    { now rewrite nlen_lset. }
    rewrite (bind_ok _ _ _ _ _ E2). unfold ret.
    exists ST_SUCCESS, w2, v, (lset i x xs). split; [reflexivity|]. split.
    - replace (lset i x xs) with (lset i x (lset i y' xs)).
      + eapply good_trans; [exact G1|apply R|exact G2].
      + apply nnth_some in NY as (a & c & -> & A). now rewrite !lset_split.
    - split; [reflexivity|]. congruence.
  Qed.

  (** ---- ZyanVectorSwapElements ---- *)
  Lemma swap_ok w v pre xs post i j :
    vrep w v pre xs post -> i <> j ->
    exists r w' v' xs', vswap v i j w = Ok (r, v') w' /\ good w v w' v' pre xs' post /\
      vspec (cfg_of v) (OSwap i j) (mkst xs (v_cap v) (dlog w)) r (mkst xs' (v_cap v') (dlog w')).
  Proof.
    intros R D. unfold vswap, vspec. cbn [s_elems s_cap s_log].
    rewrite (r_size _ _ _ _ _ R).
    destruct (_ || _) eqn:B.
    { exists ST_OUT_OF_RANGE, w, v, xs. split; [reflexivity|]. split; [now apply good_refl|]. now split. }
    destruct (N.eqb_spec (nlen xs) (v_cap v)).
    { exists ST_INSUFFICIENT_BUFFER_SIZE, w, v, xs. split; [reflexivity|]. split; [now apply good_refl|]. now split. }
    rewrite (bind_ok _ _ _ _ _ (rep_assert_valid _ _ _ _ _ R)).
    apply orb_false_iff in B as [Bi Bj]. assert (Li : i < nlen xs) by lia. assert (Lj : j < nlen xs) by lia.
    destruct (nnth_exists _ _ Li) as [x Nx]. destruct (nnth_exists _ _ Lj) as [y Ny].
    pose proof (r_le _ _ _ _ _ R) as LE.
    destruct (rep_extend w v (nlen xs) pre xs post 1 (rep_self _ _ _ _ _ R)) as (ts & Lt & Kt & R1).
    { lia. }
    destruct ts as [|t [|? ?]]; [discriminate| |rewrite !nlen_cons in Lt; lia].
    set (v1 := set_size v (nlen xs + 1)) in *.
    assert (OE : forall k, offset v k = offset v1 k) by reflexivity.
    rewrite !OE. change (v_esz v) with (v_esz v1).
    destruct (elem_copy w v1 pre _ post (nlen xs) i x R1) as (w1 & E1 & G1 & D1).
    { nl. lia. } { now rewrite nnth_app1. } { lia. }
    rewrite lset_last in G1. rewrite (bind_ok _ _ _ _ _ E1).
    destruct (elem_copy w1 v1 pre _ post i j y (g_rep _ _ _ _ _ _ _ G1)) as (w2 & E2 & G2 & D2).
    { nl. lia. } { now rewrite nnth_app1. } { exact D. }
    rewrite lset_app in G2 by assumption. rewrite (bind_ok _ _ _ _ _ E2).
    destruct (elem_copy w2 v1 pre _ post j (nlen xs) x (g_rep _ _ _ _ _ _ _ G2)) as (w3 & E3 & G3 & D3).
    { nl. rewrite nlen_lset by assumption. lia. }
    { rewrite nnth_app2 by (rewrite nlen_lset by assumption; lia).
      rewrite nlen_lset by assumption. now rewrite N.sub_diag. }
    { lia. }
    rewrite lset_app in G3 by (now rewrite nlen_lset). rewrite (bind_ok _ _ _ _ _ E3). unfold ret.
    exists ST_SUCCESS, w3, v, (lset j x (lset i y xs)). split; [reflexivity|].
    pose proof (good_trans _ _ _ _ _ _ _ _ _ _ G1 (r_wf _ _ _ _ _ R) G2) as G12.
    pose proof (good_trans _ _ _ _ _ _ _ _ _ _ G12 (r_wf _ _ _ _ _ R) G3) as [Ga _ Gc].
    split.
    - split; [|apply same_cfg_refl|destruct Gc; now split].
      replace v with (set_size v (nlen (lset j x (lset i y xs)))) at 1.
      + eapply rep_truncate. exact Ga.
      + apply set_size_self. rewrite (r_size _ _ _ _ _ R).
        rewrite !nlen_lset; auto. now rewrite nlen_lset.
    - split; [reflexivity|]. unfold lswap. rewrite Nx, Ny. congruence.
  Qed.

  (** ---- ZyanVectorEmplaceEx ---- *)
  Lemma rep_cell w v pre xs post : vrep w v pre xs post -> exists l : list C, nlen l = v_esz v.
  Proof.
    intros R. pose proof (r_cap _ _ _ _ _ R) as CP. pose proof (r_le _ _ _ _ _ R).
    destruct xs as [|x xs].
    - destruct (rep_extend w v 0 pre [] post 1 (rep_self _ _ _ _ _ R)) as (ys & Ly & K & _).
      { rewrite nlen_nil in *. lia. }
      destruct ys as [|y ys]; [discriminate|]. apply chunked_cons in K as [K _]. eauto.
    - pose proof (r_chunk _ _ _ _ _ R) as K. apply chunked_cons in K as [K _]. eauto.
  Qed.

  Lemma emplace_ok w v pre xs post i ctor :
    vrep w v pre xs post -> grants w v -> ctor_ok (v_esz v) ctor ->
    (nlen xs + 1) * v_growth v * v_esz v < W64 ->
    exists r w' v' xs' p, vemplace_ex v i ctor w = Ok (r, v', p) w' /\
      good w v w' v' pre xs' post /\
      spec_emplace (cfg_of v) i ctor (mkst xs (v_cap v) (dlog w)) r (mkst xs' (v_cap v') (dlog w')) /\
      (r = ST_SUCCESS -> p = offset v' i).
  Proof.
    intros R NF KC SM. unfold vemplace_ex, spec_emplace.
    assert (ANY' : forall r s s', (forall x, spec_insert (cfg_of v) i [x] s r s') ->
      exists old x, nlen old = c_esz (cfg_of v) /\ nlen x = c_esz (cfg_of v) /\
        match ctor with Some f => exists k, f old = (k, x) | None => True end /\
        spec_insert (cfg_of v) i [x] s r s').
    { intros r s s' HX. destruct (rep_cell _ _ _ _ _ R) as [l Ll]. exists l.
      destruct ctor as [f|].
      - destruct (KC l Ll) as [_ L2]. exists (snd (f l)). split; [exact Ll|]. split; [exact L2|].
        split; [|apply HX]. exists (fst (f l)). now destruct (f l).
      - exists l. auto. }
    rewrite (r_size _ _ _ _ _ R).
    destruct (N.ltb_spec (nlen xs) i) as [L|L].
    { exists ST_OUT_OF_RANGE, w, v, xs, None. split; [reflexivity|]. split; [now apply good_refl|].
      split; [|discriminate]. apply ANY'. intros. unfold spec_insert. cbn [s_elems s_cap s_log].
      destruct (N.ltb_spec (nlen xs) i); [now split|lia]. }
    rewrite (bind_ok _ _ w _ w (rep_assert_valid _ _ _ _ _ R)).
    pose proof (vgrow_ok _ _ _ _ _ 1 R NF ltac:(lia) SM) as G.
    change (nlen xs + 1) with (nlen xs + nlen [@nil C]) in G.
    destruct (regrow (cfg_of v) (v_cap v) (nlen xs + nlen [@nil C])) as [cap|] eqn:RG.
    2:{ exists ST_INSUFFICIENT_BUFFER_SIZE, w, v, xs, None. split.
        - rewrite (bind_ok _ _ _ _ _ G). reflexivity.
        - split; [now apply good_refl|]. split; [|discriminate].
          apply ANY'. intros. unfold spec_insert. cbn [s_elems s_cap s_log].
          destruct (N.ltb_spec (nlen xs) i); [lia|].
          change (nlen [x]) with (nlen [@nil C]). rewrite RG. now split. }
    destruct G as (w1 & v1 & G & GD & CC & RM & DD).
    rewrite (bind_ok _ _ _ _ _ G). okst.
    destruct (nsplit i xs L) as (a & b & -> & Ha). subst i.
    destruct (g_cfg _ _ _ _ _ _ _ GD) as (_ & _ & _ & SE & _).
    pose proof (g_rep _ _ _ _ _ _ _ GD) as R1.
    change (nlen [@nil C]) with 1 in *.
    destruct (shift_core w1 v1 pre a b post 1) as (w2 & p & s2 & E1 & Lp & H2 & F2 & D2 & OF & FIN); auto.
    { lia. } { lia. }
    rewrite (bind_ok _ _ _ _ _ E1). okst.
    rewrite N.mul_1_l in Lp.
    set (wX := fun x => upd w2 (blk v1) ((pre ++ concat a) ++ x ++ concat b ++ s2 ++ post)).
    assert (CT : exists k x w3,
      (match ctor with
       | None => ret ST_SUCCESS
       | Some f => let* x := mread (offset v1 (nlen a)) (v_esz v1) in
                   let '(st, y) := f x in mwrite (offset v1 (nlen a)) y ;;; ret st
       end) w2 = Ok k w3 /\ st_success k = true /\ nlen x = v_esz v1 /\
      (match ctor with None => True | Some f => exists k, f p = (k, x) end) /\
      good w1 v1 w3 (set_size v1 (nlen (a ++ [x] ++ b))) pre (a ++ [x] ++ b) post /\
      dlog w3 = dlog w2).
    { destruct ctor as [f|].
      - destruct (KC p) as [K1 K2]; [congruence|]. destruct (f p) as [k x] eqn:FP. cbn in K1, K2.
        exists k, x, (wX x). assert (Lx : nlen x = v_esz v1) by congruence.
        split.
        { rewrite (bind_ok _ _ w2 p w2).
          - rewrite FP. rewrite (bind_ok _ _ w2 tt (wX x)); [reflexivity|].
            rewrite OF. eapply mwrite_mid; [exact H2|reflexivity|congruence].
          - rewrite OF. eapply mread_mid; [exact H2|reflexivity|exact Lp]. }
        split; [exact K1|]. split; [exact Lx|]. split; [eauto|]. split; [|reflexivity].
        specialize (FIN [x]). cbn [concat] in FIN. rewrite app_nil_r in FIN.
        apply FIN; [|reflexivity]. apply chunked_cons. split; [assumption|apply chunked_nil].
      - exists ST_SUCCESS, p, w2. split; [reflexivity|]. split; [reflexivity|]. split; [exact Lp|].
        split; [exact I|]. split; [|reflexivity].
        specialize (FIN [p]). cbn [concat] in FIN. rewrite app_nil_r in FIN.
        destruct FIN as [Ga Gb Gc]; [|reflexivity|].
        { apply chunked_cons. split; [assumption|apply chunked_nil]. }
        split; [|apply same_cfg_set_size|].
        + destruct Ga. split; auto.
          * intros b' Hb'. pose proof (rep_blk_lt _ _ _ _ _ R1) as BL.
            assert (NB : b' <> blk v1).
            { intros ->. destruct Gc as [_ _ _ NN _ _]. cbn in NN. lia. }
            rewrite <- (r_wf b' Hb'). now rewrite heap_upd_other.
          * destruct r_heap as (s & SL & HH). exists s. split; [exact SL|].
            rewrite <- HH. rewrite blk_set_size, heap_upd_same. exact H2.
        + destruct Gc as [_ O3 T3 N3 _ _]. split; [reflexivity|exact O3|exact T3|exact N3|intros b' B1 _; now apply F2|].
          rewrite blk_set_size. congruence. }
    destruct CT as (k & x & w3 & E3 & KS & Lx & KX & G3 & D3).
    rewrite (bind_ok _ _ _ _ _ E3). rewrite KS. cbn [negb]. unfold ret.
    exists ST_SUCCESS, w3, (set_size v1 (nlen (a ++ [x] ++ b))), (a ++ [x] ++ b), (offset v1 (nlen a)).
    split.
    { do 4 f_equal. rewrite (r_size _ _ _ _ _ R1). rewrite wadd_small.
      - nl. lia.
      - pose proof (rep_cap_lt _ _ _ _ _ R1). lia. }
    split; [eapply good_trans; [exact GD|apply R|exact G3]|].
    split; [|reflexivity].
    exists p, x. cbn [cfg_of c_esz]. split; [congruence|]. split; [congruence|]. split; [exact KX|].
    unfold spec_insert. cbn [s_elems s_cap s_log].
    destruct (N.ltb_spec (nlen (a ++ b)) (nlen a)); [lia|].
    change (nlen [x]) with 1. rewrite RG. split; [reflexivity|].
    rewrite linsert_split by reflexivity. cbn [v_cap set_size]. congruence.
  Qed.

  (** ---- ZyanVectorReserve / ZyanVectorShrinkToFit ---- *)
  Lemma reserve_ok w v pre xs post n :
    vrep w v pre xs post -> grants w v -> n * v_esz v < W64 ->
    exists r w' v' xs', vreserve v n w = Ok (r, v') w' /\ good w v w' v' pre xs' post /\
      vspec (cfg_of v) (OReserve n) (mkst xs (v_cap v) (dlog w)) r (mkst xs' (v_cap v') (dlog w')).
  Proof.
    intros R NF SM. unfold vreserve, vspec. cbn [s_elems s_cap s_log cfg_of c_fixed].
    rewrite N.leb_antisym. pose proof (r_le _ _ _ _ _ R). pose proof (r_cap _ _ _ _ _ R).
    destruct (N.ltb_spec (v_cap v) n); cbn [negb].
    - destruct (v_alloc v) eqn:A; cbn [negb].
      + destruct (NF A) as [fill O].
        destruct (vreallocate_ok w v pre xs post n fill R A O)
          as (w' & v' & E & R' & SC & F & CC & SS & DD); [lia| |].
        { replace (N.max 1 n) with n by lia. exact SM. }
        exists ST_SUCCESS, w', v', xs. split; [exact E|]. split; [now split|].
        split; [reflexivity|]. rewrite CC, DD. f_equal. lia.
      + exists ST_INSUFFICIENT_BUFFER_SIZE, w, v, xs.
        rewrite (vreallocate_fixed _ _ _ _ _ _ R A). destruct (N.ltb_spec (v_cap v) n); [|lia].
        split; [reflexivity|]. split; [now apply good_refl|]. now split.
    - exists ST_SUCCESS, w, v, xs. split; [reflexivity|]. split; [now apply good_refl|]. now split.
  Qed.

  Lemma shrink_to_fit_ok w v pre xs post :
    vrep w v pre xs post -> grants w v ->
    exists r w' v' xs', vshrink_to_fit v w = Ok (r, v') w' /\ good w v w' v' pre xs' post /\
      vspec (cfg_of v) OShrinkToFit (mkst xs (v_cap v) (dlog w)) r (mkst xs' (v_cap v') (dlog w')).
  Proof.
    intros R NF. unfold vshrink_to_fit, vspec. cbn [s_elems s_cap s_log cfg_of c_fixed].
    pose proof (r_le _ _ _ _ _ R). pose proof (r_cap _ _ _ _ _ R). pose proof (r_mem _ _ _ _ _ R).
    rewrite (r_size _ _ _ _ _ R).
    destruct (v_alloc v) eqn:A; cbn [negb].
    - destruct (NF A) as [fill O].
      destruct (vreallocate_ok w v pre xs post (nlen xs) fill R A O)
        as (w' & v' & E & R' & SC & F & CC & SS & DD); [lia| |].
      { eapply N.le_lt_trans; [|eassumption]. apply mul_le. lia. }
      exists ST_SUCCESS, w', v', xs. split; [exact E|]. split; [now split|].
      split; [reflexivity|]. congruence.
    - exists ST_SUCCESS, w, v, xs. rewrite (vreallocate_fixed _ _ _ _ _ _ R A).
      destruct (N.ltb_spec (v_cap v) (nlen xs)); [lia|].
      split; [reflexivity|]. split; [now apply good_refl|]. now split.
  Qed.

  (** ---- ZyanVectorResizeEx ---- *)

  Lemma vreallocate_set_size v n c w :
    vreallocate (set_size v n) c w =
      match vreallocate v c w with
      | Ok (r, v') w' => Ok (r, set_size v' n) w'
      | Fault f => Fault f
      end.
  Proof.
    unfold vreallocate, vreallocate_to, assert_valid, bind, ret.
    cbn [set_size set_cap v_cap v_esz v_data v_alloc].
    destruct (assert_cases (VECTOR_MIN_CAPACITY <=? v_cap v) w) as [-> | ->]; [|reflexivity].
    destruct (assert_cases (negb (v_esz v =? 0)) w) as [-> | ->]; [|reflexivity].
    destruct (assert_cases (nonnull (v_data v)) w) as [-> | ->]; [|reflexivity].
    destruct (negb (v_alloc v)); [destruct (v_cap v <? c); reflexivity|].
    destruct (c <? VECTOR_MIN_CAPACITY).
    - destruct (VECTOR_MIN_CAPACITY <? v_cap v); [|reflexivity].
      destruct (realloc _ _ _ _) as [[? ?] ?|]; reflexivity.
    - destruct (realloc _ _ _ _) as [[? ?] ?|]; reflexivity.
  Qed.

  (** The reallocation step of ResizeEx, seen on the vector that already has the new size. *)
  Definition resize_step v (n : N) : M C (status * vec) :=
    if should_grow n (v_cap v) || should_shrink n (v_cap v) (v_shrink v)
    then assert (1 <=? v_growth v) ;;; vreallocate v (wmul n (v_growth v))
    else ret (ST_SUCCESS, v).

  Lemma resize_step_set_size v m n w :
    resize_step (set_size v m) n w =
      match resize_step v n w with
      | Ok (r, v') w' => Ok (r, set_size v' m) w'
      | Fault f => Fault f
      end.
  Proof.
    unfold resize_step. cbn [set_size v_cap v_shrink v_growth].
    destruct (_ || _); [|reflexivity].
    unfold bind. destruct (assert_cases (1 <=? v_growth v) w) as [-> | ->]; [|reflexivity].
    apply vreallocate_set_size.
  Qed.

  Lemma resize_step_ok w v pre xs post n :
    vrep w v pre xs post -> grants w v -> nlen xs <= n -> fits n (v_esz v) ->
    match regrow (cfg_of v) (v_cap v) n with
    | None => resize_step v n w = Ok (ST_INSUFFICIENT_BUFFER_SIZE, v) w
    | Some cap => exists w' v', resize_step v n w = Ok (ST_SUCCESS, v') w' /\
        good w v w' v' pre xs post /\ v_cap v' = reshrink (cfg_of v) cap n /\ n <= v_cap v' /\
        dlog w' = dlog w
    end.
  Proof.
    intros R NF L F. unfold resize_step, should_grow, regrow.
    rewrite (should_shrink_spec _ _ _ _ _ _ R F). unfold reshrink.
    pose proof (r_esz _ _ _ _ _ R) as EP. destruct (growth_bounds _ _ _ _ _ R) as [GB SB].
    unfold fits in F. rewrite wmul_small by nia.
    replace (1 <=? v_growth v) with true by lia.
    pose proof (r_mem _ _ _ _ _ R) as MM. pose proof (r_cap _ _ _ _ _ R) as CP.
    assert (n <= n * v_growth v) by nia.
    assert (BIG : N.max 1 (n * v_growth v) * v_esz v < W64).
    { destruct (N.max_spec 1 (n * v_growth v)) as [[_ ->]|[_ ->]]; [nia|].
      eapply N.le_lt_trans; [|exact MM]. apply mul_le. exact CP. }
    cbn [cfg_of c_fixed c_growth c_shrink]. rewrite N.leb_antisym.
    destruct (N.ltb_spec (v_cap v) n); cbn [orb negb].
    - destruct (v_alloc v) eqn:A; cbn [negb].
      + destruct (NF A) as [fill O].
        destruct (vreallocate_ok w v pre xs post (n * v_growth v) fill R A O)
          as (w' & v' & E & R' & SC & FR & CC & SS & DD); [lia|exact BIG|].
        exists w', v'. unfold bind at 1. cbn [assert]. unfold ret at 1.
        split; [exact E|]. split; [now split|]. split; [|split; [lia|assumption]].
        rewrite CC. cbn [orb]. destruct (_ || _); lia.
      + unfold bind. cbn [assert]. unfold ret. rewrite (vreallocate_fixed _ _ _ _ _ _ R A).
        destruct (N.ltb_spec (v_cap v) (n * v_growth v)); [reflexivity|].
        pose proof (r_alloc _ _ _ _ _ R) as RA. rewrite A in RA. lia.
    - destruct (negb (v_alloc v) || (v_shrink v =? 0) || (v_cap v <=? n * v_shrink v)) eqn:Q; cbn [negb].
      + exists w, v. split; [reflexivity|]. split; [now apply good_refl|]. auto.
      + assert (A : v_alloc v = true) by (destruct (v_alloc v); [reflexivity|discriminate]).
        destruct (NF A) as [fill O].
        destruct (vreallocate_ok w v pre xs post (n * v_growth v) fill R A O)
          as (w' & v' & E & R' & SC & FR & CC & SS & DD); [lia|exact BIG|].
        exists w', v'. unfold bind at 1. cbn [assert]. unfold ret at 1.
        split; [exact E|]. split; [now split|]. split; [lia|]. split; [lia|assumption].
  Qed.

  Lemma init_loop_ok x q : forall k w v pre xs post,
    vrep w (set_size v (nlen xs)) pre xs post -> nlen xs + N.of_nat k <= v_cap v ->
    nlen x = v_esz v -> src w q x -> pb q <> blk v ->
    exists w', init_loop v (nlen xs) (Some q) k w = Ok tt w' /\
      good w (set_size v (nlen xs)) w' (set_size v (nlen xs + N.of_nat k)) pre (xs ++ repeat x k) post /\
      dlog w' = dlog w.
  Proof.
    induction k as [|k IH]; intros w v pre xs post R L Lx SQ P; cbn [init_loop repeat].
    - exists w. split; [reflexivity|]. rewrite app_nil_r. split; [|reflexivity].
      replace (nlen xs + N.of_nat 0) with (nlen xs) by lia. now apply good_refl.
    - destruct (rep_extend w v (nlen xs) pre xs post 1 R) as (ts & Lt & Kt & R1); [lia|].
      destruct ts as [|t [|? ?]]; [discriminate| |rewrite !nlen_cons in Lt; lia].
      destruct (elem_copy_in w (set_size v (nlen xs + 1)) pre (xs ++ [t]) post (nlen xs) x q R1)
        as (w1 & E1 & G1 & D1); auto.
      { nl. lia. }
      rewrite lset_last in G1.
      change (offset (set_size v (nlen xs + 1)) (nlen xs)) with (offset v (nlen xs)) in E1.
      change (v_esz (set_size v (nlen xs + 1))) with (v_esz v) in E1.
      rewrite (bind_ok _ _ _ _ _ E1).
      pose proof (rep_cap_lt _ _ _ _ _ R) as CW. cbn in CW.
      rewrite wadd_small by lia.
      assert (LL : nlen (xs ++ [x]) = nlen xs + 1) by (nl; lia).
      destruct (src_frame w w1 (set_size v (nlen xs + 1)) (set_size v (nlen xs + 1)) q x SQ P (r_wf _ _ _ _ _ R) (g_frame _ _ _ _ _ _ _ G1)) as [S' P'].
      destruct (IH w1 v pre (xs ++ [x]) post) as (w2 & E2 & G2 & D2); auto.
      { rewrite LL. apply G1. }
      { lia. }
      rewrite LL in *. exists w2. split; [exact E2|]. split; [|congruence].
      rewrite <- app_assoc in G2. cbn [app] in G2.
      replace (nlen xs + N.of_nat (S k)) with (nlen xs + 1 + N.of_nat k) by lia.
      destruct G1 as [Ga Gb Gc]. destruct G2 as [Gd Ge Gf]. split; [exact Gd|now repeat split|].
      eapply frame_trans; [apply R| |exact Gf]. destruct Gc. now split.
  Qed.

  (** [init]: what the caller passes; [new]: the elements that get appended. *)
  Lemma resize_ok w v pre xs post n init :
    vrep w v pre xs post -> grants w v -> fits (nlen xs) (v_esz v) -> fits n (v_esz v) ->
    match init with
    | None => True
    | Some (q, x) => nlen x = v_esz v /\ src w q x /\ pb q <> blk v
    end ->
    exists r w' v' xs' new, vresize_ex v n (option_map fst init) w = Ok (r, v') w' /\
      good w v w' v' pre xs' post /\
      nlen new = n - nlen xs /\ chunked (v_esz v) new /\
      match init with None => True | Some (_, x) => new = nrepeat x (n - nlen xs) end /\
      spec_resize (cfg_of v) n new (mkst xs (v_cap v) (dlog w)) r (mkst xs' (v_cap v') (dlog w')).
  Proof.
    intros R NF F1 F2 HI. unfold vresize_ex, spec_resize. cbn [s_elems s_cap s_log].
    rewrite (r_size _ _ _ _ _ R).
    destruct (rep_cell _ _ _ _ _ R) as [cell Lcell].
    assert (NEW : exists new : list (list C), nlen new = n - nlen xs /\ chunked (v_esz v) new /\
      match init with None => True | Some (_, x) => new = nrepeat x (n - nlen xs) end).
    { assert (RC : forall x : list C, nlen x = v_esz v -> chunked (v_esz v) (nrepeat x (n - nlen xs))).
      { intros x Lx. unfold nrepeat, chunked. apply Forall_forall. intros y Hy.
        now rewrite (repeat_spec _ _ _ Hy). }
      destruct init as [[q x]|].
      - exists (nrepeat x (n - nlen xs)). split; [apply nlen_repeat|]. split; [now apply RC|reflexivity].
      - exists (nrepeat cell (n - nlen xs)). split; [apply nlen_repeat|]. split; [now apply RC|exact I]. }
    destruct NEW as (new & LN & KN & EN).
    destruct (N.eqb_spec n (nlen xs)).
    { exists ST_SUCCESS, w, v, xs, new. split; [reflexivity|]. split; [now apply good_refl|].
      split; [exact LN|]. split; [exact KN|]. split; [exact EN|]. now split. }
    destruct (N.ltb_spec n (nlen xs)) as [L|L].
    - (* shrink *)
      destruct (nsplit n xs ltac:(lia)) as (a & b & -> & Ha). subst n.
      destruct (destroy_range_ok v b w pre a [] post) as (w1 & b' & E1 & Lb & G1 & D1).
      { now rewrite app_nil_r. }
      rewrite app_nil_r in G1. rewrite <- nlen_app in E1.
      rewrite (bind_ok _ _ _ _ _ E1).
      assert (G2 : good w v w1 (set_size v (nlen a)) pre a post).
      { destruct G1 as [Ga Gb Gc]. split; [|apply same_cfg_set_size|destruct Gc; now split].
        apply rep_self in Ga. eapply rep_truncate; eauto. }
      pose proof (resize_step_ok w1 (set_size v (nlen a)) pre a post (nlen a)) as RSO.
      specialize (RSO (g_rep _ _ _ _ _ _ _ G2)).
      specialize (RSO (grants_same w v w1 (set_size v (nlen a)) NF eq_refl
        (fr_orc _ _ _ _ (g_frame _ _ _ _ _ _ _ G2)) (destroy_range_tick _ _ _ _ _ E1))).
      specialize (RSO (N.le_refl _) F2).
      unfold regrow in RSO. cbn [set_size v_cap] in RSO. pose proof (r_le _ _ _ _ _ R) as LE.
      rewrite nlen_app in LE, L. destruct (N.leb_spec (nlen a) (v_cap v)); [|lia].
      destruct RSO as (w2 & v2 & E2 & G3 & C2 & _ & D2).
      rewrite resize_step_set_size in E2.
      destruct (resize_step v (nlen a) w1) as [[r v3] w3|f] eqn:E3; [|discriminate].
      unfold resize_step in E3. rewrite (bind_ok _ _ _ _ _ E3). inv E2. okst.
      assert (S3 : v_size v3 = v_size v).
      { clear - E3. unfold ret in E3.
        destruct (_ || _); [|now inv E3]. unfold bind in E3.
        destruct (assert_cases (1 <=? v_growth v) w1) as [Q|Q]; rewrite Q in E3; [|discriminate]. clear Q.
        pose proof (vreallocate_set_size v (v_size v) (wmul (nlen a) (v_growth v)) w1) as Q.
        rewrite set_size_self, E3 in Q by reflexivity. inversion Q. destruct v3; cbn in *; congruence. }
      assert (S4 : (v_size v3 <? nlen a) = false).
      { rewrite S3, (r_size _ _ _ _ _ R), nlen_app. lia. }
      rewrite S4, andb_false_r.
      exists ST_SUCCESS, w2, (set_size v3 (nlen a)), a, new. split; [reflexivity|].
      split; [eapply good_trans; [exact G2|apply R|exact G3]|].
      split; [exact LN|]. split; [exact KN|]. split; [exact EN|]. split; [reflexivity|].
      rewrite nfirst_app_l, nskip_app_l by reflexivity. rewrite D2, D1. f_equal. exact C2.
    - (* grow *)
      unfold bind at 1, ret at 1.
      pose proof (resize_step_ok w v pre xs post n R NF L F2) as RSO.
      unfold resize_step in RSO. destruct (regrow (cfg_of v) (v_cap v) n) as [cap|].
      2:{ rewrite (bind_ok _ _ _ _ _ RSO).
          exists ST_INSUFFICIENT_BUFFER_SIZE, w, v, xs, new. split; [reflexivity|].
          split; [now apply good_refl|]. split; [exact LN|]. split; [exact KN|]. split; [exact EN|]. now split. }
      destruct RSO as (w1 & v1 & E1 & G1 & C1 & L1 & D1).
      rewrite (bind_ok _ _ _ _ _ E1). okst.
      pose proof (g_rep _ _ _ _ _ _ _ G1) as R1. rewrite (r_size _ _ _ _ _ R1).
      destruct (N.ltb_spec (nlen xs) n); [|lia].
      destruct (g_cfg _ _ _ _ _ _ _ G1) as (_ & _ & _ & SE & _).
      destruct init as [[q x]|]; cbn [option_map fst nonnull andb].
      + destruct HI as (Lx & S & P).
        destruct (src_frame _ _ _ _ _ _ S P (r_wf _ _ _ _ _ R) (g_frame _ _ _ _ _ _ _ G1)) as [S' P'].
        destruct (init_loop_ok x q (N.to_nat (n - nlen xs)) w1 v1 pre xs post) as (w2 & E2 & G2 & D2); auto.
        { now apply rep_self. } { lia. } { congruence. }
        rewrite (bind_ok _ _ _ _ _ E2). unfold ret.
        replace (nlen xs + N.of_nat (N.to_nat (n - nlen xs))) with n in G2 by lia.
        rewrite set_size_self in G2 by apply R1.
        exists ST_SUCCESS, w2, (set_size v1 n), (xs ++ new), new. split; [reflexivity|].
        split; [|split; [exact LN|]; split; [exact KN|]; split; [exact EN|]; split; [reflexivity|]].
        * rewrite EN. eapply good_trans; [exact G1|apply R|exact G2].
        * cbn [set_size v_cap]. congruence.
      + unfold bind at 1, ret.
        destruct (rep_extend w1 v1 (nlen xs) pre xs post (n - nlen xs)) as (ys & Ly & Ky & R2).
        { now apply rep_self. } { lia. }
        replace (nlen xs + (n - nlen xs)) with n in R2 by lia.
        exists ST_SUCCESS, w1, (set_size v1 n), (xs ++ ys), ys. split; [reflexivity|].
        split; [|split; [exact Ly|]; split; [congruence|]; split; [exact I|]; split; [reflexivity|]].
        * eapply good_trans; [exact G1|apply R|]. split; [exact R2|apply same_cfg_set_size|].
          apply frame_blk; auto.
        * cbn [set_size v_cap]. congruence.
  Qed.
End VectorProofs3.

(** Each vector operation meets its list specification, part 2. *)
From Verif Require Import Base NListFacts Status Mem MemFacts VectorModel VectorSpec VectorRep
  VectorProofs.
From Coq Require Import ZifyBool ZifyNat ZifyN.

Section VectorProofs2.
  Context {C : Type}.
  Notation vec := (vector C).
  Implicit Types (w : world C) (v : vec).

  Lemma unchunk (e : N) (k : nat) : forall l : list C, nlen l = N.of_nat k * e ->
    exists ys, concat ys = l /\ chunked e ys /\ nlen ys = N.of_nat k.
  Proof.
    induction k as [|k IH]; intros l L.
    - exists []. split; [|split; [apply chunked_nil|reflexivity]].
      symmetry. apply nlen_0. lia.
    - destruct (nsplit e l) as (x & r & -> & Lx); [lia|].
      rewrite nlen_app in L. destruct (IH r) as (ys & E & K & Ly); [lia|].
      exists (x :: ys). cbn [concat]. rewrite E. split; [reflexivity|].
      split; [apply chunked_cons; now split|]. rewrite nlen_cons. lia.
  Qed.

  (** Shrinking and growing the visible part of the buffer. *)
  Lemma rep_truncate w v m pre xs ys post :
    vrep w (set_size v m) pre (xs ++ ys) post -> vrep w (set_size v (nlen xs)) pre xs post.
  Proof.
    intros R. destruct (r_heap _ _ _ _ _ R) as (s & SL & HH).
    destruct (proj1 (chunked_app _ _ _) (r_chunk _ _ _ _ _ R)) as [Ka Kb].
    pose proof (nlen_concat _ _ Kb) as Lb. cbn in Lb.
    pose proof (r_le _ _ _ _ _ R) as LE. rewrite nlen_app in LE, SL. cbn in LE, SL.
    destruct R. split; auto; cbn in *; try lia.
    exists (concat ys ++ s). split.
    - eapply spare_plus; [exact SL| |rewrite nlen_app, Lb; reflexivity].
      rewrite <- N.mul_add_distr_r. f_equal. lia.
    - rewrite blk_set_size in *. rewrite HH, concat_app. now napp.
  Qed.
  Lemma rep_extend w v m pre xs post k :
    vrep w (set_size v m) pre xs post -> nlen xs + k <= v_cap v ->
    exists ys, nlen ys = k /\ chunked (v_esz v) ys /\
      vrep w (set_size v (nlen xs + k)) pre (xs ++ ys) post.
  Proof.
    intros R L. destruct (r_heap _ _ _ _ _ R) as (s & SL & HH). cbn in SL.
    destruct (nsplit (k * v_esz v) s) as (s1 & s2 & -> & L1).
    { etransitivity; [|exact (spare_le _ _ _ SL)]. apply mul_le. lia. }
    destruct (unchunk (v_esz v) (N.to_nat k) s1) as (ys & E & K & Ly); [lia|].
    exists ys. split; [lia|]. split; [exact K|]. rewrite nlen_app in SL.
    assert (nlen ys = k) by lia.
    destruct R. split; auto; cbn in *.
    - exists s2. split.
      + eapply (spare_minus _ _ _ _ _ (k * v_esz v)); [exact SL| |lia].
        rewrite nlen_app, H, <- N.mul_add_distr_r. f_equal. lia.
      + rewrite blk_set_size in *. rewrite HH, concat_app, E. now napp.
    - apply chunked_app. now split.
    - nl. lia.
    - nl. lia.
  Qed.

  Lemma rep_self w v pre xs post : vrep w v pre xs post -> vrep w (set_size v (nlen xs)) pre xs post.
  Proof. intros R. rewrite set_size_self; [exact R|]. apply R. Qed.

  (** ---- single elements ---- *)

  Lemma lset_split (a c : list (list C)) x y i : nlen a = i -> lset i x (a ++ y :: c) = a ++ x :: c.
  Proof.
    intros. unfold lset. rewrite nfirst_app_l by assumption.
    change (y :: c) with ([y] ++ c). rewrite (app_assoc a [y] c). rewrite nskip_app_l; [reflexivity|].
    rewrite nlen_app, nlen_cons, nlen_nil. lia.
  Qed.
  Lemma lset_app (l m : list (list C)) x i : i < nlen l -> lset i x (l ++ m) = lset i x l ++ m.
  Proof.
    intros L. destruct (nsplit1 _ _ L) as (a & y & c & -> & A).
    rewrite <- app_assoc. cbn [app]. rewrite !lset_split by assumption. now rewrite <- app_assoc.
  Qed.
  Lemma lset_last (l : list (list C)) t x : lset (nlen l) x (l ++ [t]) = l ++ [x].
  Proof. now rewrite lset_split. Qed.
  Lemma nlen_lset i x (l : list (list C)) : i < nlen l -> nlen (lset i x l) = nlen l.
  Proof.
    intros L. destruct (nsplit1 _ _ L) as (a & y & c & -> & A).
    rewrite lset_split by assumption. nl. lia.
  Qed.
  Lemma nnth_lset_same i x (l : list (list C)) : i < nlen l -> nnth i (lset i x l) = Some x.
  Proof.
    intros L. destruct (nsplit1 _ _ L) as (a & y & c & -> & A).
    rewrite lset_split by assumption. now apply nnth_mid.
  Qed.
  Lemma nnth_lset_other i j x (l : list (list C)) : i < nlen l -> i <> j ->
    nnth j (lset i x l) = nnth j l.
  Proof.
    intros L D. destruct (nsplit1 _ _ L) as (a & y & c & -> & A).
    rewrite lset_split by assumption. destruct (N.lt_ge_cases j (nlen a)).
    - now rewrite !nnth_app1.
    - rewrite !nnth_app2 by assumption. unfold nnth.
      destruct (N.to_nat (j - nlen a)) eqn:E; [lia|reflexivity].
  Qed.
  Lemma chunked_nnth e (xs : list (list C)) i x : chunked e xs -> nnth i xs = Some x -> nlen x = e.
  Proof.
    intros K H. apply nnth_some in H as (a & c & -> & _).
    apply chunked_app in K as [_ K]. now apply chunked_cons in K.
  Qed.

  Lemma elem_read w v pre xs post i x :
    vrep w v pre xs post -> nnth i xs = Some x ->
    mread (offset v i) (v_esz v) w = Ok x w.
  Proof.
    intros R H. pose proof (nnth_lt _ _ _ H). pose proof (r_le _ _ _ _ _ R).
    rewrite (rep_offset _ _ _ _ _ _ R) by lia.
    pose proof (chunked_nnth _ _ _ _ (r_chunk _ _ _ _ _ R) H) as Lx.
    apply nnth_some in H as (a & c & -> & A).
    destruct (r_heap _ _ _ _ _ R) as (s & SL & HH).
    destruct (proj1 (chunked_app _ _ _) (r_chunk _ _ _ _ _ R)) as [Ka Kb].
    pose proof (nlen_concat _ _ Ka) as La.
    eapply (mread_mid w _ _ _ (pre ++ concat a) x (concat c ++ s ++ post)).
    - rewrite HH, concat_app. cbn [concat]. now napp.
    - nl. lia.
    - exact Lx.
  Qed.

  Lemma elem_write w v pre xs post i x :
    vrep w v pre xs post -> i < nlen xs -> nlen x = v_esz v ->
    exists w', mwrite (offset v i) x w = Ok tt w' /\ good w v w' v pre (lset i x xs) post /\
      dlog w' = dlog w.
  Proof.
    intros R L Lx. pose proof (r_le _ _ _ _ _ R).
    rewrite (rep_offset _ _ _ _ _ _ R) by lia.
    destruct (nsplit1 _ _ L) as (a & y & c & -> & A). rewrite lset_split by assumption.
    destruct (r_heap _ _ _ _ _ R) as (s & SL & HH).
    destruct (proj1 (chunked_app _ _ _) (r_chunk _ _ _ _ _ R)) as [Ka Kb].
    apply chunked_cons in Kb as [Ly Kc].
    pose proof (nlen_concat _ _ Ka) as La.
    eexists. split; [|split; [split|]].
    - eapply (mwrite_mid w _ _ (pre ++ concat a) y x (concat c ++ s ++ post)).
      + rewrite HH, concat_app. cbn [concat]. now napp.
      + nl. lia.
      + congruence.
    - rewrite <- (set_size_self v (nlen (a ++ x :: c))).
      2:{ rewrite (r_size _ _ _ _ _ R). nl. lia. }
      eapply rep_upd with (slack' := s); [exact R| | | |].
      + rewrite blk_set_size. f_equal. rewrite concat_app. cbn [concat]. now napp.
      + apply chunked_app; split; [assumption|]. now apply chunked_cons.
      + revert H. nl. lia.
      + replace (nlen (a ++ x :: c)) with (nlen (a ++ y :: c)) by (nl; lia). exact SL.
    - apply same_cfg_refl.
    - now apply frame_upd.
    - reflexivity.
  Qed.

  Lemma elem_copy w v pre xs post i j x :
    vrep w v pre xs post -> i < nlen xs -> nnth j xs = Some x -> i <> j ->
    exists w', memcpy (offset v i) (offset v j) (v_esz v) w = Ok tt w' /\
      good w v w' v pre (lset i x xs) post /\ dlog w' = dlog w.
  Proof.
    intros R L H D. pose proof (nnth_lt _ _ _ H) as Lj. pose proof (r_le _ _ _ _ _ R).
    pose proof (chunked_nnth _ _ _ _ (r_chunk _ _ _ _ _ R) H) as Lx.
    destruct (elem_write w v pre xs post i x R L Lx) as (w' & E & G).
    exists w'. split; [|exact G].
    unfold memcpy. replace (overlap _ _ _) with false.
    - unfold memmove. rewrite (bind_ok _ _ _ _ _ (elem_read _ _ _ _ _ _ _ R H)). exact E.
    - rewrite !(rep_offset _ _ _ _ _ _ R) by lia. symmetry. apply overlap_disj. cbn [po].
      assert (i + 1 <= j \/ j + 1 <= i) as [Q|Q] by lia; apply (mul_le _ _ (v_esz v)) in Q;
        rewrite N.mul_add_distr_r in Q; lia.
  Qed.

  Lemma elem_copy_in w v pre xs post i x q :
    vrep w v pre xs post -> i < nlen xs -> nlen x = v_esz v -> src w q x -> pb q <> blk v ->
    exists w', memcpy (offset v i) (Some q) (v_esz v) w = Ok tt w' /\
      good w v w' v pre (lset i x xs) post /\ dlog w' = dlog w.
  Proof.
    intros R L Lx S P. pose proof (r_le _ _ _ _ _ R).
    destruct (elem_write w v pre xs post i x R L Lx) as (w' & E & G).
    exists w'. split; [|exact G].
    unfold memcpy. replace (overlap _ _ _) with false.
    - unfold memmove. pose proof (src_read _ _ _ S) as RD. rewrite Lx in RD.
      rewrite (bind_ok _ _ _ _ _ RD). exact E.
    - rewrite !(rep_offset _ _ _ _ _ _ R) by lia. symmetry. apply overlap_other. cbn. congruence.
  Qed.

  (** Destructor call on element [i]. *)
  Lemma elem_dtor w v pre xs post i y f :
    vrep w v pre xs post -> nnth i xs = Some y -> v_dtor v = Some f ->
    exists w', call_dtor f (offset v i) (v_esz v) w = Ok tt w' /\
      good w v w' v pre (lset i (f y) xs) post /\ dlog w' = dlog w ++ [y].
  Proof.
    intros R H F. pose proof (nnth_lt _ _ _ H) as L.
    pose proof (chunked_nnth _ _ _ _ (r_chunk _ _ _ _ _ R) H) as Ly.
    unfold call_dtor. rewrite (elem_read _ _ _ _ _ _ _ R H).
    set (w1 := mkbuild _ _ _ _ _ _).
    assert (R1 : vrep w1 v pre xs post) by (destruct R; split; auto).
    assert (LF : nlen (f y) = v_esz v).
    { pose proof (r_dtor _ _ _ _ _ R) as RD. rewrite F in RD. now rewrite RD. }
    destruct (elem_write w1 v pre xs post i (f y) R1 L LF) as (w' & E & G & D).
    exists w'. split; [exact E|]. split; [|exact D].
    destruct G as [G1 G2 G3]. split; auto. destruct G3. now split.
  Qed.

  (** The destructor loop over the elements [b] of [a ++ b ++ c]. *)
  Lemma destroy_range_ok v : forall b w pre a c post,
    vrep w v pre (a ++ b ++ c) post ->
    exists w' b', destroy_range v (nlen a) (nlen a + nlen b) w = Ok tt w' /\ nlen b' = nlen b /\
      good w v w' v pre (a ++ b' ++ c) post /\ dlog w' = dlog w ++ destroyed (cfg_of v) b.
  Proof.
    unfold destroy_range, destroyed. cbn [cfg_of c_dtor]. destruct (v_dtor v) as [f|] eqn:F.
    2:{ intros. exists w, b. split; [reflexivity|]. split; [reflexivity|]. split; [now apply good_refl|].
        now rewrite app_nil_r. }
    induction b as [|y b IH]; intros w pre a c post R.
    - exists w, []. rewrite nlen_nil, N.add_0_r, N.sub_diag. split; [reflexivity|].
      split; [reflexivity|]. split; [now apply good_refl|]. now rewrite app_nil_r.
    - cbn [app] in R.
      assert (NY : nnth (nlen a) (a ++ y :: b ++ c) = Some y) by now apply nnth_mid.
      destruct (elem_dtor w v pre _ post _ y f R NY F) as (w1 & E1 & G1 & D1).
      rewrite lset_split in G1 by reflexivity.
      replace (N.to_nat (nlen a + nlen (y :: b) - nlen a)) with (S (N.to_nat (nlen b)))
        by (rewrite nlen_cons; lia).
      cbn [dtor_loop]. rewrite (bind_ok _ _ _ _ _ E1).
      pose proof (rep_cap_lt _ _ _ _ _ R). pose proof (r_le _ _ _ _ _ R) as LE.
      rewrite nlen_app, nlen_cons in LE.
      rewrite wadd_small by lia.
      destruct (IH w1 pre (a ++ [f y]) c post) as (w' & b' & E & Lb & G & D).
      { rewrite <- app_assoc. cbn [app]. apply G1. }
      replace (nlen (a ++ [f y])) with (nlen a + 1) in E by (nl; lia).
      replace (N.to_nat (nlen a + 1 + nlen b - (nlen a + 1))) with (N.to_nat (nlen b)) in E by lia.
      exists w', (f y :: b'). split; [exact E|]. split; [rewrite !nlen_cons; lia|].
      split.
      + eapply good_trans; [exact G1|apply R|]. rewrite <- app_assoc in G. exact G.
      + rewrite D, D1. now napp.
  Qed.

  (** ---- deletion ---- *)

  Lemma shift_left_ok w v pre a b c post :
    vrep w v pre (a ++ b ++ c) post -> 1 <= nlen b ->
    exists w', (if nlen a + nlen b <? v_size v then vshift_left v (nlen a) (nlen b)
                else ret ST_SUCCESS) w = Ok ST_SUCCESS w' /\
      good w v w' (set_size v (nlen (a ++ c))) pre (a ++ c) post /\ dlog w' = dlog w.
  Proof.
    intros R B1. pose proof (r_size _ _ _ _ _ R) as RS. pose proof (rep_cap_lt _ _ _ _ _ R) as CW.
    pose proof (r_le _ _ _ _ _ R) as LE. pose proof (r_mem _ _ _ _ _ R) as MM.
    destruct (N.ltb_spec (nlen a + nlen b) (v_size v)).
    - destruct (proj1 (chunked_app _ _ _) (r_chunk _ _ _ _ _ R)) as [Ka Kbc].
      destruct (proj1 (chunked_app _ _ _) Kbc) as [Kb Kc].
      pose proof (nlen_concat _ _ Ka) as La. pose proof (nlen_concat _ _ Kb) as Lb.
      pose proof (nlen_concat _ _ Kc) as Lc.
      destruct (r_heap _ _ _ _ _ R) as (s & SL & HH).
      rewrite !concat_app in HH. revert HH; napp; intros HH.
      rewrite !nlen_app in SL, LE, RS.
      unfold vshift_left. rewrite (bind_ok _ _ _ _ _ (rep_assert_valid _ _ _ _ _ R)).
      unfold assert. replace (0 <? nlen b) with true by lia.
      rewrite RS. rewrite (wsub_small _ (nlen a)), wsub_small by lia.
      rewrite wadd_small by lia.
      replace (nlen a + (nlen b + nlen c) - nlen a - nlen b) with (nlen c) by lia.
      pose proof (mul_le (nlen c) (v_cap v) (v_esz v) ltac:(lia)).
      rewrite wmul_small by lia.
      rewrite !(rep_offset _ _ _ _ _ _ R) by lia.
      destruct (nsplit (nlen (concat c)) (concat b ++ concat c)) as (p & r & PE & Lp).
      { rewrite nlen_app. lia. }
      assert (Lr : nlen r = nlen b * v_esz v).
      { apply (f_equal nlen) in PE. rewrite !nlen_app in PE. lia. }
      unfold bind, ret.
      rewrite (memmove_mid w _ _ (blk v) _ (pre ++ concat a) p (r ++ s ++ post) (concat c)).
      + eexists. split; [reflexivity|]. split; [|reflexivity].
        split; [|apply same_cfg_set_size|now apply frame_upd].
        eapply rep_upd with (slack' := r ++ s); [exact R| | | |].
        * rewrite concat_app. now napp.
        * apply chunked_app. now split.
        * nl. lia.
        * eapply spare_plus; [exact SL| |rewrite nlen_app, Lr; reflexivity].
          rewrite <- N.mul_add_distr_r. f_equal. nl. lia.
      + eapply (mread_mid w _ _ _ (pre ++ concat a ++ concat b) (concat c) (s ++ post)).
        * rewrite HH. now napp.
        * nl. rewrite N.mul_add_distr_r. lia.
        * exact Lc.
      + exact Lc.
      + rewrite HH. f_equal. napp. do 2 f_equal. rewrite !app_assoc. do 2 f_equal. exact PE.
      + nl. lia.
      + lia.
    - assert (c = []) by (apply nlen_0; rewrite RS, !nlen_app in *; lia). subst c.
      exists w. split; [reflexivity|]. split; [|reflexivity].
      split; [|apply same_cfg_set_size|].
      + rewrite app_nil_r in *. apply rep_self in R. eapply rep_truncate; eauto.
      + apply frame_blk; auto.
  Qed.

  (** No arithmetic in a vector of [n] elements of size [e] overflows: it needs less than 2^56 bytes. *)
  Definition fits (n e : N) : Prop := n * 256 * e < W64.

  Lemma fits_le n m e : n <= m -> fits m e -> fits n e.
  Proof. unfold fits. intros. nia. Qed.

  Lemma growth_bounds w v pre xs post : vrep w v pre xs post -> 1 <= v_growth v < 256 /\ v_shrink v < 256.
  Proof. intros R. pose proof (r_alloc _ _ _ _ _ R). destruct (v_alloc v); lia. Qed.

  Lemma should_shrink_spec w v pre xs post n : vrep w v pre xs post -> fits n (v_esz v) ->
    should_shrink n (v_cap v) (v_shrink v) =
      negb (c_fixed (cfg_of v) || (c_shrink (cfg_of v) =? 0) || (v_cap v <=? n * c_shrink (cfg_of v))).
  Proof.
    intros R F. unfold should_shrink. cbn [cfg_of c_fixed c_shrink].
    destruct (growth_bounds _ _ _ _ _ R) as [_ S]. pose proof (r_esz _ _ _ _ _ R).
    unfold fits in F. rewrite wmul_small by nia.
    pose proof (r_alloc _ _ _ _ _ R) as RA. destruct (v_alloc v); [lia|].
    destruct RA as [_ ->]. reflexivity.
  Qed.

  Lemma maybe_shrink_ok w v pre xs post :
    vrep w v pre xs post -> grants w v -> fits (nlen xs) (v_esz v) ->
    exists w' v', vmaybe_shrink v w = Ok (ST_SUCCESS, v') w' /\ good w v w' v' pre xs post /\
      v_cap v' = reshrink (cfg_of v) (v_cap v) (nlen xs) /\ dlog w' = dlog w.
  Proof.
    intros R NF F. unfold vmaybe_shrink. rewrite (r_size _ _ _ _ _ R).
    rewrite (should_shrink_spec _ _ _ _ _ _ R F). unfold reshrink.
    pose proof (r_esz _ _ _ _ _ R). destruct (growth_bounds _ _ _ _ _ R) as [G S].
    destruct (_ || _) eqn:E; cbn [negb].
    - exists w, v. split; [reflexivity|]. split; [now apply good_refl|]. now split.
    - cbn [cfg_of c_fixed c_growth c_shrink] in *.
      assert (A : v_alloc v = true) by (destruct (v_alloc v); [reflexivity|discriminate]).
      unfold fits in F. rewrite wmul_small by nia.
      destruct (NF A) as [fill O].
      assert (nlen xs <= nlen xs * v_growth v) by nia.
      destruct (vreallocate_ok w v pre xs post (N.max 1 (nlen xs * v_growth v)) fill R A O)
        as (w' & v' & E' & R' & SC & FR & CC & SS & DD).
      + lia.
      + replace (N.max 1 _) with (N.max 1 (nlen xs * v_growth v)) by lia.
        destruct (N.max_spec 1 (nlen xs * v_growth v)) as [[_ ->]|[_ ->]]; [nia|].
        pose proof (r_mem _ _ _ _ _ R). pose proof (r_cap _ _ _ _ _ R). nia.
      + exists w', v'. split; [exact E'|]. split; [now split|]. split; [lia|assumption].
  Qed.

  Lemma nofail_frame w w' v v' : nofail w v -> same_cfg v v' -> frame w w' v v' -> nofail w' v'.
  Proof.
    intros NF (A & _) F Q t. rewrite (fr_orc _ _ _ _ F). apply NF. congruence.
  Qed.

  (** These steps make no request. *)
  Lemma mread_tick p n w x w' : mread p n w = Ok x w' -> w' = w.
  Proof.
    unfold mread. destruct p as [p|]; [|discriminate]. destruct (heap w (pb p)); [|discriminate].
    destruct (_ <=? _); [|discriminate]. now intros [= _ <-].
  Qed.
  Lemma mwrite_tick p x w w' : mwrite p x w = Ok tt w' -> tick w' = tick w.
  Proof.
    unfold mwrite. destruct p as [p|]; [|discriminate]. destruct (heap w (pb p)); [|discriminate].
    destruct (_ <=? _); [|discriminate]. now intros [= <-].
  Qed.
  Lemma call_dtor_tick f p e w w' : call_dtor f p e w = Ok tt w' -> tick w' = tick w.
  Proof.
    unfold call_dtor. destruct (mread p e w) as [x w1|] eqn:E; [|discriminate]. apply mread_tick in E. subst w1.
    intros H. now apply mwrite_tick in H.
  Qed.
  Lemma dtor_loop_tick f v n : forall i w w', dtor_loop f v i n w = Ok tt w' -> tick w' = tick w.
  Proof.
    induction n as [|n IH]; intros i w w'; cbn [dtor_loop]; [now intros [= <-]|]. unfold bind.
    destruct (call_dtor f (offset v i) (v_esz v) w) as [[] w1|] eqn:E; [|discriminate]. intros H.
    rewrite (IH _ _ _ H). now apply call_dtor_tick in E.
  Qed.
  Lemma destroy_range_tick v i j w w' : destroy_range v i j w = Ok tt w' -> tick w' = tick w.
  Proof. unfold destroy_range. destruct (v_dtor v); [apply dtor_loop_tick|]. now intros [= <-]. Qed.
  Lemma shift_left_tick (b : bool) v i n w w' :
    (if b then vshift_left v i n else ret ST_SUCCESS) w = Ok ST_SUCCESS w' -> tick w' = tick w.
  Proof.
    destruct b; [|now intros [= <-]]. unfold vshift_left, assert_valid, memmove, bind.
    destruct (assert_cases (negb (v_esz v =? 0)) w) as [-> | ->]; [|discriminate].
    destruct (assert_cases (nonnull (v_data v)) w) as [-> | ->]; [|discriminate].
    destruct (assert_cases (0 <? n) w) as [-> | ->]; [|discriminate].
    destruct (mread _ _ w) as [x w1|] eqn:E; [|discriminate]. apply mread_tick in E. subst w1.
    destruct (mwrite _ _ w) as [[] w1|] eqn:E; [|discriminate]. intros [= <-]. now apply mwrite_tick in E.
  Qed.

  Lemma ldelete_split (a b c : list (list C)) i n : nlen a = i -> nlen b = n ->
    ldelete i n (a ++ b ++ c) = a ++ c.
  Proof.
    intros. unfold ldelete. rewrite nfirst_app_l by assumption. rewrite (app_assoc a b c).
    rewrite nskip_app_l; [reflexivity|]. nl. lia.
  Qed.

  Lemma delete_range_ok w v pre xs post i n :
    vrep w v pre xs post -> grants w v -> fits (nlen xs) (v_esz v) -> i + n < W64 ->
    exists r w' v' xs', vdelete_range v i n w = Ok (r, v') w' /\ good w v w' v' pre xs' post /\
      spec_delete (cfg_of v) i n (mkst xs (v_cap v) (dlog w)) r (mkst xs' (v_cap v') (dlog w')).
  Proof.
    intros R NF F NW. unfold vdelete_range, spec_delete. cbn [s_elems s_cap s_log].
    rewrite wadd_small by assumption. rewrite (r_size _ _ _ _ _ R).
    destruct (N.eqb_spec n 0).
    { exists ST_INVALID_ARGUMENT, w, v, xs. split; [reflexivity|]. split; [now apply good_refl|]. now split. }
    destruct (N.ltb_spec (nlen xs) (i + n)).
    { exists ST_OUT_OF_RANGE, w, v, xs. split; [reflexivity|]. split; [now apply good_refl|]. now split. }
    destruct (nsplit3 i n xs ltac:(lia)) as (a & b & c & -> & Ha & Hb). subst i n.
    destruct (destroy_range_ok v b w pre a c post R) as (w1 & b' & E1 & L1 & G1 & D1).
    rewrite (bind_ok _ _ _ _ _ E1). rewrite <- L1 in *.
    destruct (shift_left_ok w1 v pre a b' c post) as (w2 & E2 & G2 & D2); [apply G1|lia|].
    replace (v_size v) with (nlen (a ++ b ++ c)) in E2 by (symmetry; apply R).
    rewrite (bind_ok _ _ _ _ _ E2).
    replace (st_success ST_SUCCESS) with true by reflexivity. cbn [negb].
    pose proof (rep_cap_lt _ _ _ _ _ R). pose proof (r_le _ _ _ _ _ R) as LE.
    rewrite wsub_small by (revert LE; nl; lia).
    replace (nlen (a ++ b ++ c) - nlen b') with (nlen (a ++ c)) by (nl; lia).
    pose proof (good_trans _ _ _ _ _ _ _ _ _ _ G1 (r_wf _ _ _ _ _ R) G2) as G12.
    destruct (maybe_shrink_ok w2 (set_size v (nlen (a ++ c))) pre (a ++ c) post) as (w3 & v3 & E3 & G3 & C3 & D3).
    { apply G2. }
    { eapply grants_same; [exact NF|reflexivity|apply G12|].
      rewrite (shift_left_tick _ _ _ _ _ _ E2). exact (destroy_range_tick _ _ _ _ _ E1). }
    { eapply fits_le; [|exact F]. nl. lia. }
    exists ST_SUCCESS, w3, v3, (a ++ c). split; [exact E3|]. split.
    - eapply good_trans; [exact G12|apply R|exact G3].
    - split; [reflexivity|]. rewrite ldelete_split, nsub_mid by auto.
      rewrite D3, D2, D1. f_equal. rewrite C3. cbn [v_cap set_size].
      reflexivity.
  Qed.

  Lemma pop_back_ok w v pre xs post :
    vrep w v pre xs post -> grants w v -> fits (nlen xs) (v_esz v) ->
    exists r w' v' xs', vpop_back v w = Ok (r, v') w' /\ good w v w' v' pre xs' post /\
      vspec (cfg_of v) OPopBack (mkst xs (v_cap v) (dlog w)) r (mkst xs' (v_cap v') (dlog w')).
  Proof.
    intros R NF F. unfold vpop_back, vspec, spec_delete. cbn [s_elems s_cap s_log].
    rewrite (r_size _ _ _ _ _ R).
    destruct (N.eqb_spec (nlen xs) 0).
    { exists ST_OUT_OF_RANGE, w, v, xs. split; [reflexivity|]. split; [now apply good_refl|]. now split. }
    replace (1 =? 0) with false by reflexivity.
    destruct (N.ltb_spec (nlen xs) (nlen xs - 1 + 1)); [lia|].
    pose proof (rep_cap_lt _ _ _ _ _ R). pose proof (r_le _ _ _ _ _ R) as LE.
    rewrite wsub_small by lia.
    destruct (nsplit (nlen xs - 1) xs ltac:(lia)) as (a & z & -> & Ha).
    destruct z as [|y [|? ?]].
    { rewrite app_nil_r in *. lia. }
    2:{ rewrite nlen_app, !nlen_cons in Ha. lia. }
    replace (nlen (a ++ [y]) - 1) with (nlen a) by (nl; lia).
    assert (ST : exists w1 y', (match v_dtor v with
       | Some f => call_dtor f (offset v (nlen a)) (v_esz v)
       | None => ret tt end) w = Ok tt w1 /\
       good w v w1 v pre (a ++ [y']) post /\ dlog w1 = dlog w ++ destroyed (cfg_of v) [y]).
    { unfold destroyed. cbn [cfg_of c_dtor]. destruct (v_dtor v) as [f|] eqn:DF.
      - destruct (elem_dtor w v pre _ post (nlen a) y f R) as (w1 & E1 & G1 & D1); auto.
        { now apply nnth_mid. }
        exists w1, (f y). rewrite lset_last in G1. auto.
      - exists w, y. split; [reflexivity|]. split; [now apply good_refl|]. now rewrite app_nil_r. }
    destruct ST as (w1 & y' & E1 & G1 & D1). rewrite (bind_ok _ _ _ _ _ E1).
    assert (G2 : good w v w1 (set_size v (nlen a)) pre a post).
    { destruct G1 as [Ga Gb Gc]. split; [|apply same_cfg_set_size|].
      - apply rep_self in Ga. eapply rep_truncate; eauto.
      - destruct Gc. now split. }
    destruct (maybe_shrink_ok w1 (set_size v (nlen a)) pre a post) as (w3 & v3 & E3 & G3 & C3 & D3).
    { apply G2. }
    { eapply grants_same; [exact NF|reflexivity|apply G2|].
      destruct (v_dtor v); [exact (call_dtor_tick _ _ _ _ _ E1)|now injection E1 as <-]. }
    { eapply fits_le; [|exact F]. nl. lia. }
    exists ST_SUCCESS, w3, v3, a. split; [exact E3|]. split.
    - eapply good_trans; [exact G2|apply R|exact G3].
    - split; [reflexivity|]. rewrite <- (app_nil_r (a ++ [y])), <- app_assoc.
      rewrite ldelete_split, nsub_mid by auto. rewrite app_nil_r.
      rewrite D3, D1. f_equal. exact C3.
  Qed.
End VectorProofs2.

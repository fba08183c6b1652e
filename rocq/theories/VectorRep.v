(** Representation of a vector in memory, and basic facts about it. *)
From Verif Require Import Base NListFacts Status Mem MemFacts VectorModel VectorSpec.
From Coq Require Import ZifyBool ZifyNat ZifyN.

Section VectorRep.
  Context {C : Type}.
  Notation vec := (vector C).
  Implicit Types (w : world C) (v : vec).

  (** Block identifiers that were never handed out are not live. *)
  Definition wfw w : Prop := forall b, nextb w <= b -> heap w b = None.
  Definition blk v : N := match v_data v with Some p => pb p | None => 0 end.

  (** No allocator request fails (vacuous for a vector without allocator). *)
  Definition nofail w v : Prop := v_alloc v = true -> forall t, exists fill, orc w t = AOk fill.

  (** The next allocator request does not fail (vacuous for a vector without allocator). *)
  Definition grants w v : Prop := v_alloc v = true -> exists fill, orc w (tick w) = AOk fill.

  (** Room behind the elements: it has exactly the size the capacity says, except that a block of an
      allocator that refuses requests may be larger (after it refused a smaller block). *)
  Definition spare (nf : Prop) (need got : N) : Prop := need <= got /\ (nf -> got = need).

  (** [vrep w v pre xs post]: in world [w] the vector [v] is well-formed and holds the elements [xs].
      [pre] and [post] are the bytes around a caller-supplied buffer in its block. *)
  Record vrep w v (pre : list C) (xs : list (list C)) (post : list C) : Prop := mkrep {
    r_wf    : wfw w;
    r_heap  : exists slack, spare (nofail w v) ((v_cap v - nlen xs) * v_esz v) (nlen slack) /\
                heap w (blk v) = Some (pre ++ concat xs ++ slack ++ post);
    r_data  : v_data v = Some (mkptr (blk v) (nlen pre));
    r_chunk : chunked (v_esz v) xs;
    r_size  : v_size v = nlen xs;
    r_le    : nlen xs <= v_cap v;
    r_esz   : 1 <= v_esz v;
    r_cap   : 1 <= v_cap v;
    r_mem   : v_cap v * v_esz v < W64;
    r_alloc : if v_alloc v then pre = [] /\ post = [] /\ 1 <= v_growth v < 256 /\ v_shrink v < 256
              else v_growth v = 1 /\ v_shrink v = 0;
    r_dtor  : match v_dtor v with
              | None => True
              | Some f => forall x, nlen x = v_esz v -> nlen (f x) = nlen x
              end
  }.

  Definition same_cfg v v' : Prop :=
    v_alloc v' = v_alloc v /\ v_growth v' = v_growth v /\ v_shrink v' = v_shrink v /\
    v_esz v' = v_esz v /\ v_dtor v' = v_dtor v.

  (** Everything outside the blocks of the vector is unchanged; a block the vector gave up is
      released; a block it got is fresh. *)
  Record frame w w' v v' : Prop := mkframe {
    fr_alloc : v_alloc v' = v_alloc v;
    fr_orc  : orc w' = orc w;
    fr_tick : v_alloc v = false -> tick w' = tick w;
    fr_next : nextb w <= nextb w';
    fr_heap : forall b, b <> blk v -> b <> blk v' -> heap w' b = heap w b;
    fr_old  : blk v' <> blk v ->
              v_alloc v = true /\ heap w' (blk v) = None /\ nextb w <= blk v'
  }.

  Definition cfg_of v : vcfg C :=
    mkcfg (negb (v_alloc v)) (v_growth v) (v_shrink v) (v_esz v) (v_dtor v).

  Lemma nofail_grants w v : nofail w v -> grants w v.
  Proof. intros H A. now apply H. Qed.
  Lemma grants_same w v w' v' : grants w v -> v_alloc v' = v_alloc v -> orc w' = orc w -> tick w' = tick w ->
    grants w' v'.
  Proof. unfold grants. now intros G -> -> ->. Qed.

  Lemma spare_eq nf a b : b = a -> spare nf a b.
  Proof. split; [lia|auto]. Qed.
  Lemma spare_le nf a b : spare nf a b -> a <= b.
  Proof. now intros []. Qed.
  Lemma spare_exact (nf : Prop) a b : nf -> spare nf a b -> b = a.
  Proof. intros H []. auto. Qed.
  Lemma spare_plus nf a b a' b' k : spare nf a b -> a' = k + a -> b' = k + b -> spare nf a' b'.
  Proof. intros [L E] -> ->. split; [lia|]. intros NF. specialize (E NF). lia. Qed.
  Lemma spare_minus nf a b a' b' k : spare nf a b -> a = k + a' -> b = k + b' -> spare nf a' b'.
  Proof. intros [L E] -> ->. split; [lia|]. intros NF. specialize (E NF). lia. Qed.
  Lemma spare_imp (nf nf' : Prop) a b : (nf' -> nf) -> spare nf a b -> spare nf' a b.
  Proof. intros H [L E]. split; auto. Qed.

  Lemma spare_orc w w' v a b : orc w' = orc w -> spare (nofail w v) a b -> spare (nofail w' v) a b.
  Proof. intros O. apply spare_imp. unfold nofail. now rewrite O. Qed.

  Lemma same_cfg_refl v : same_cfg v v.
  Proof. now repeat split. Qed.
  Lemma same_cfg_trans v1 v2 v3 : same_cfg v1 v2 -> same_cfg v2 v3 -> same_cfg v1 v3.
  Proof. unfold same_cfg. intuition congruence. Qed.
  Lemma same_cfg_set_size v n : same_cfg v (set_size v n).
  Proof. now repeat split. Qed.
  Lemma cfg_of_same v v' : same_cfg v v' -> cfg_of v' = cfg_of v.
  Proof. unfold same_cfg, cfg_of. intros (-> & -> & -> & -> & ->). reflexivity. Qed.
  Lemma blk_set_size v n : blk (set_size v n) = blk v.
  Proof. reflexivity. Qed.

  Lemma frame_refl w v : frame w w v v.
  Proof. split; try reflexivity; intros; try congruence; try lia. Qed.
  Lemma frame_trans w1 w2 w3 v1 v2 v3 :
    wfw w1 -> frame w1 w2 v1 v2 -> frame w2 w3 v2 v3 -> frame w1 w3 v1 v3.
  Proof.
    intros W [A1 O1 T1 N1 H1 F1] [A2 O2 T2 N2 H2 F2]. split; try congruence; try lia.
    - intros b B1 B3. destruct (N.eq_dec b (blk v2)) as [->|B2].
      + destruct (F1 ltac:(congruence)) as (_ & _ & L). destruct (F2 ltac:(congruence)) as (_ & -> & _).
        symmetry. now apply W.
      + rewrite H2, H1 by assumption. reflexivity.
    - intros B. destruct (N.eq_dec (blk v2) (blk v1)) as [E|E].
      + rewrite <- E in *. destruct (F2 B) as (B1 & B2 & B3).
        split; [congruence|]. split; [assumption|lia].
      + destruct (F1 E) as (B0 & B1 & B2). split; [congruence|]. split.
        * rewrite H2 by congruence. assumption.
        * destruct (N.eq_dec (blk v3) (blk v2)) as [E'|E']; [lia|].
          destruct (F2 E') as (_ & _ & ?). lia.
  Qed.
  Lemma frame_blk w w' v v' : blk v' = blk v -> v_alloc v' = v_alloc v -> orc w' = orc w -> tick w' = tick w ->
    nextb w' = nextb w ->
    (forall b, b <> blk v -> heap w' b = heap w b) -> frame w w' v v'.
  Proof. intros E A O T N H. split; auto; try lia; congruence. Qed.
  Lemma frame_upd w v v' buf : blk v' = blk v -> v_alloc v' = v_alloc v -> frame w (upd w (blk v) buf) v v'.
  Proof.
    intros E A. apply frame_blk; auto. intros. now apply heap_upd_other.
  Qed.

  Lemma wfw_upd w b buf : wfw w -> b < nextb w -> wfw (upd w b buf).
  Proof.
    intros W L b' L'. cbn in L'. rewrite heap_upd_other by lia. now apply W.
  Qed.
  Lemma live_lt w b x : wfw w -> heap w b = Some x -> b < nextb w.
  Proof. intros W H. destruct (N.lt_ge_cases b (nextb w)); [assumption|]. rewrite W in H; [discriminate|lia]. Qed.
  Lemma rep_blk_lt w v pre xs post : vrep w v pre xs post -> blk v < nextb w.
  Proof. intros R. destruct (r_heap _ _ _ _ _ R) as (s & _ & H). eapply live_lt; eauto. apply R. Qed.

  (** A range of caller memory holding the cells [y]. *)
  Definition src w (q : ptr) (y : list C) : Prop :=
    exists a c, heap w (pb q) = Some (a ++ y ++ c) /\ po q = nlen a.
  Lemma src_read w q y : src w q y -> mread (Some q) (nlen y) w = Ok y w.
  Proof.
    intros (a & c & H & P). destruct q as [b o]. cbn in *. eapply mread_mid; eauto.
  Qed.
  Lemma src_frame w w' v v' q y :
    src w q y -> pb q <> blk v -> wfw w -> frame w w' v v' -> src w' q y /\ pb q <> blk v'.
  Proof.
    intros (a & c & H & P) B W F. assert (pb q <> blk v').
    { intros E. destruct (N.eq_dec (blk v') (blk v)); [congruence|].
      destruct (fr_old _ _ _ _ F n) as (_ & _ & L). rewrite <- E in L.
      rewrite (W _ L) in H. discriminate. }
    split; [|assumption]. exists a, c. split; [|assumption].
    rewrite (fr_heap _ _ _ _ F); assumption.
  Qed.

  Lemma mul_le i n e : i <= n -> i * e <= n * e.
  Proof. intros. now apply N.mul_le_mono_r. Qed.

  Lemma rep_offset w v pre xs post i : vrep w v pre xs post -> i <= v_cap v ->
    offset v i = Some (mkptr (blk v) (nlen pre + i * v_esz v)).
  Proof.
    intros R L. unfold offset. rewrite (r_data _ _ _ _ _ R).
    rewrite wmul_small by (pose proof (r_mem _ _ _ _ _ R); pose proof (mul_le _ _ (v_esz v) L); lia).
    reflexivity.
  Qed.

  Lemma rep_assert_valid w v pre xs post : vrep w v pre xs post -> assert_valid v w = Ok tt w.
  Proof.
    intros R. unfold assert_valid, assert, bind, nonnull.
    pose proof (r_esz _ _ _ _ _ R). destruct (N.eqb_spec (v_esz v) 0); [lia|].
    cbn. now rewrite (r_data _ _ _ _ _ R).
  Qed.

  Lemma rep_cap_lt w v pre xs post : vrep w v pre xs post -> v_cap v < W64.
  Proof.
    intros R. pose proof (r_mem _ _ _ _ _ R). pose proof (r_esz _ _ _ _ _ R). nia.
  Qed.

  (** In-place change of the contents. *)
  Lemma rep_upd w v pre xs post xs' slack' w0 :
    vrep w v pre xs post ->
    w0 = upd w (blk v) (pre ++ concat xs' ++ slack' ++ post) ->
    chunked (v_esz v) xs' -> nlen xs' <= v_cap v ->
    spare (nofail w v) ((v_cap v - nlen xs') * v_esz v) (nlen slack') ->
    vrep w0 (set_size v (nlen xs')) pre xs' post.
  Proof.
    intros R -> K L S. pose proof (rep_blk_lt _ _ _ _ _ R) as B. destruct R. split; auto.
    - now apply wfw_upd.
    - exists slack'. split; [exact S|]. apply heap_upd_same.
  Qed.

  Lemma set_size_self v n : v_size v = n -> set_size v n = v.
  Proof. intros <-. now destruct v. Qed.

End VectorRep.

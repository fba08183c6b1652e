(** Refutations for every vector and string, where the first counterexamples were single runs. *)
From Verif Require Import Base NListFacts Status Mem MemFacts VectorModel VectorSpec VectorDriver VectorRep VectorProofs VectorProofs2
  VectorProofs3 VectorRefine VectorSearch VectorFail VectorMore VectorFinal VectorFinal2.
From Coq Require Import ZifyBool ZifyNat ZifyN.

Section Vector.
  Context {C : Type}.
  Implicit Types (w : world C) (v : vector C).

  (** C07: an empty range at the end of the vector is out of range, and so every search in an empty vector. *)
  Lemma find_at_end w v xs p cmp : reached w v xs -> vfind_ex v p cmp (nlen xs) 0 w = Ok (ST_OUT_OF_RANGE, None) w.
  Proof.
    intros H. destruct (reached_rep _ _ _ H) as (pre & post & R & _). unfold vfind_ex. rewrite (r_size _ _ _ _ _ R), N.eqb_refl.
    now rewrite orb_true_r.
  Qed.
  Lemma find_nothing w v p cmp : reached w v [] -> vfind v p cmp w = Ok (ST_OUT_OF_RANGE, None) w.
  Proof.
    intros H. pose proof (find_at_end w v [] p cmp H) as E. unfold vfind.
    destruct (reached_rep _ _ _ H) as (pre & post & R & _). rewrite (r_size _ _ _ _ _ R). exact E.
  Qed.

  (** C10: a range that wraps around is taken for a valid one, and the vector gets longer. *)
  Lemma reallocate_size v cap w st v' w' : vreallocate v cap w = Ok (st, v') w' -> v_size v' = v_size v.
  Proof.
    assert (TO : forall c w0 r, vreallocate_to v c w0 = Ok r w' -> v_size (snd r) = v_size v).
    { intros c w0 r. unfold vreallocate_to, bind. destruct (realloc _ _ _ w0) as [[st0 p] w1|]; [|discriminate].
      intros E. now inversion E. }
    unfold vreallocate, bind. destruct (assert _ w) as [? w0|]; [|discriminate]. destruct (assert_valid v w0) as [? w1|]; [|discriminate].
    destruct (negb (v_alloc v)); [destruct (_ <? cap); intros E; now inversion E|].
    destruct (cap <? _); [destruct (_ <? v_cap v)|]; intros E; try (now inversion E); exact (TO _ _ _ E).
  Qed.
  Lemma shrink_size v w st v' w' : vmaybe_shrink v w = Ok (st, v') w' -> v_size v' = v_size v.
  Proof.
    unfold vmaybe_shrink. destruct (should_shrink _ _ _); [apply reallocate_size|]. intros E. now inversion E.
  Qed.
  Lemma delete_range_size v i n w r v' w' : i < W64 -> 1 <= n < W64 -> wadd i n <= v_size v ->
    vdelete_range v i n w = Ok (r, v') w' -> v_size v' = wsub (v_size v) n.
  Proof.
    intros LI LN LE E. unfold vdelete_range in E. destruct (N.eqb_spec n 0); [lia|].
    destruct (N.ltb_spec (v_size v) (wadd i n)); [lia|].
    unfold bind in E at 1. destruct (destroy_range _ _ _ w) as [? w0|]; [|discriminate]. unfold bind in E at 1.
    destruct (_ <? v_size v).
    - unfold vshift_left, bind in E. destruct (assert_valid v w0) as [? w1|]; [|discriminate]. destruct (assert _ w1) as [? w2|]; [|discriminate].
      destruct (memmove _ _ _ w2) as [? w3|]; [|discriminate]. cbn in E. exact (shrink_size _ _ _ _ _ E).
    - cbn in E. exact (shrink_size _ _ _ _ _ E).
  Qed.
  Lemma delete_range_wraps w v xs i n r v' w' : reached w v xs -> i < W64 -> nlen xs < n < W64 -> W64 <= i + n <= W64 + nlen xs ->
    vdelete_range v i n w = Ok (r, v') w' -> vget_size v' = (ST_SUCCESS, nlen xs + (W64 - n)).
  Proof.
    intros H LI [NX LN] [WR LE] E. destruct (reached_rep _ _ _ H) as (pre & post & R & _).
    assert (WA : wadd i n = i + n - W64).
    { unfold wadd. replace (i + n) with (i + n - W64 + 1 * W64) at 1 by lia. rewrite N.mod_add by discriminate. apply N.mod_small. lia. }
    apply delete_range_size in E; [|lia|lia|rewrite (r_size _ _ _ _ _ R); lia].
    unfold vget_size. rewrite E, (r_size _ _ _ _ _ R). unfold wsub. rewrite (N.mod_small n) by exact LN.
    f_equal. apply N.mod_small. lia.
  Qed.

  (** C11: a constructor that fails inside the vector leaves its element there, and the last one is lost. *)
  Lemma emplace_inside_fail w v xs f i :
    reached w v xs -> (nlen xs < snd (vget_capacity v) \/ reached_own w v xs) -> room (nlen xs + 1) (v_esz v) ->
    i < nlen xs -> (forall x, nlen x = v_esz v -> st_success (fst (f x)) = false /\ nlen (snd (f x)) = v_esz v) ->
    exists old v' w' p, nlen old = v_esz v /\ vemplace_ex v i (Some f) w = Ok (fst (f old), v', p) w' /\
      shows w' v' (nfirst (nlen xs) (nfirst i xs ++ [snd (f old)] ++ nskip i xs)) /\ dlog w' = dlog w.
  Proof.
    intros H RC RM LI FX. destruct (reached_rep _ _ _ H) as (pre & post & R & F & NF).
    destruct (growth_bounds _ _ _ _ _ R) as [GB _].
    assert (RG : regrow (cfg_of v) (v_cap v) (nlen xs + 1) <> None).
    { unfold regrow. cbn [vget_capacity snd] in RC. destruct RC as [RC|RC].
      + replace (nlen xs + 1 <=? v_cap v) with true by lia. discriminate.
      + destruct (reached_own_rep _ _ _ RC) as (_ & _ & AL & _).
        destruct (_ <=? _); [discriminate|]. cbn [cfg_of c_fixed]. rewrite AL. discriminate. }
    unfold vemplace_ex. rewrite (r_size _ _ _ _ _ R). destruct (N.ltb_spec (nlen xs) i); [lia|].
    rewrite (bind_ok _ _ _ _ _ (rep_assert_valid _ _ _ _ _ R)).
    pose proof (vgrow_ok _ _ _ _ _ 1 R (nofail_grants _ _ NF) ltac:(lia) (growth_le _ _ _ GB RM)) as G.
    destruct (regrow (cfg_of v) (v_cap v) (nlen xs + 1)) as [cap|]; [|congruence].
    destruct G as (w1 & v1 & G & GD & CC & RM1 & DD). rewrite (bind_ok _ _ _ _ _ G). okst. cbv iota.
    pose proof (g_rep _ _ _ _ _ _ _ GD) as R1. destruct (g_cfg _ _ _ _ _ _ _ GD) as (_ & _ & _ & SE & _).
    destruct (nsplit i xs ltac:(lia)) as (a & b & -> & Ha). subst i.
    destruct (shift_core w1 v1 pre a b post 1 R1 ltac:(lia) ltac:(lia)) as (w2 & p & s2 & E1 & Lp & H2 & F2 & D2 & OF & FIN).
    rewrite (bind_ok _ _ _ _ _ E1). okst. cbv iota. rewrite N.mul_1_l in Lp.
    destruct (FX p) as [ST LY]; [congruence|].
    assert (RD : mread (offset v1 (nlen a)) (v_esz v1) w2 = Ok p w2).
    { rewrite OF. eapply mread_mid; [exact H2|reflexivity|exact Lp]. }
    assert (WR : mwrite (offset v1 (nlen a)) (snd (f p)) w2
                 = Ok tt (upd w2 (blk v1) ((pre ++ concat a) ++ snd (f p) ++ concat b ++ s2 ++ post))).
    { rewrite OF. eapply mwrite_mid; [exact H2|reflexivity|congruence]. }
    unfold bind at 1. unfold bind at 1. rewrite RD. destruct (f p) as [k y] eqn:FP. cbn [fst snd] in *. unfold bind at 1. rewrite WR. unfold ret at 1.
    cbv iota. rewrite ST. cbn [negb]. unfold ret.
    exists p, v1, (upd w2 (blk v1) ((pre ++ concat a) ++ y ++ concat b ++ s2 ++ post)), (offset v1 (nlen a)).
    split; [congruence|]. rewrite FP. split; [reflexivity|]. split; [|cbn; congruence].
    specialize (FIN [y]). destruct FIN as [FR _ _]; [apply chunked_cons; split; [congruence|apply chunked_nil]|reflexivity|].
    cbn [concat] in FR. rewrite app_nil_r in FR. cbn [fst snd].
    rewrite (nfirst_app_l (nlen a) a b) by reflexivity. rewrite (nskip_app_l (nlen a) a b) by reflexivity.
    set (z := a ++ [y] ++ b) in *.
    assert (LZ : nlen (a ++ b) <= nlen z) by (unfold z; rewrite !nlen_app; lia).
    rewrite <- (nfirst_skip (nlen (a ++ b)) z) in FR. apply rep_truncate in FR.
    rewrite nlen_nfirst, N.min_l in FR by exact LZ. rewrite set_size_self in FR by apply R1.
    eapply rep_shows. exact FR.
  Qed.

  (** C10: more elements than the address space can hold are never refused; memory outside the storage is used. *)
  Lemma wmul_minus n e : n < W64 -> 1 <= (W64 - n) * e < W64 -> wmul n e = W64 - (W64 - n) * e.
  Proof.
    intros LN LK. unfold wmul. assert (EP : 1 <= e) by (destruct (N.eq_dec e 0) as [->|]; lia).
    assert (E : n * e = W64 - (W64 - n) * e + (e - 1) * W64).
    { assert (X : (W64 - n) * e + n * e = W64 * e) by (rewrite <- N.mul_add_distr_r; f_equal; lia).
      assert (Y : (e - 1) * W64 + W64 = W64 * e) by nia. lia. }
    rewrite E, N.mod_add by discriminate. apply N.mod_small. lia.
  Qed.
  Lemma mread_len p n w (x : list C) w' : mread p n w = Ok x w' -> nlen x = n.
  Proof.
    destruct p as [p|]; [|discriminate]. unfold mread. destruct (heap w (pb p)) as [c|]; [|discriminate].
    destruct (N.leb_spec (po p + n) (nlen c)); [|discriminate]. intros E. inversion E; subst. now apply nlen_nsub.
  Qed.
  Lemma write_long w p x buf : heap w (pb p) = Some buf -> nlen buf < nlen x -> mwrite (Some p) x w = Fault OutOfBounds.
  Proof. intros HB L. unfold mwrite. rewrite HB. destruct (N.leb_spec (po p + nlen x) (nlen buf)); [lia|reflexivity]. Qed.
  Lemma write_keeps w p x b buf u w' : heap w b = Some buf -> mwrite p x w = Ok u w' ->
    exists buf', heap w' b = Some buf' /\ nlen buf' = nlen buf.
  Proof.
    intros HB. destruct p as [p|]; [|discriminate]. unfold mwrite. destruct (heap w (pb p)) as [c|] eqn:HP; [|discriminate].
    destruct (N.leb_spec (po p + nlen x) (nlen c)); [|discriminate]. intros E. inversion E; subst. cbn. unfold hset.
    destruct (N.eqb_spec b (pb p)) as [->|NE]; [|eauto]. rewrite HB in HP. inversion HP; subst. eexists. split; [reflexivity|].
    now apply nlen_nsplice.
  Qed.
  Lemma insert_range_wraps w v xs i n p : reached_own w v xs -> i <= nlen xs -> W64 - nlen xs <= n < W64 ->
    snd (vget_capacity v) * v_esz v * 2 < W64 -> exists f, vinsert_range v i (Some p) n w = Fault f.
  Proof.
    intros H LI [LN NW] LC. destruct (reached_own_rep _ _ _ H) as (R & _ & AL & NF). cbn [vget_capacity snd] in LC.
    pose proof (r_le _ _ _ _ _ R) as LE. pose proof (r_esz _ _ _ _ _ R) as EP. pose proof (rep_len_lt _ _ _ _ _ R) as LX.
    unfold vinsert_range. cbn [nonnull negb orb]. destruct (N.eqb_spec n 0); [lia|]. rewrite (r_size _ _ _ _ _ R).
    destruct (N.ltb_spec (nlen xs) i); [lia|]. rewrite (bind_ok _ _ _ _ _ (rep_assert_valid _ _ _ _ _ R)).
    assert (WA : wadd (nlen xs) n = nlen xs + n - W64).
    { unfold wadd. replace (nlen xs + n) with (nlen xs + n - W64 + 1 * W64) at 1 by lia. rewrite N.mod_add by discriminate. apply N.mod_small. lia. }
    assert (GR : vgrow v n w = Ok (ST_SUCCESS, v) w).
    { unfold vgrow. rewrite (r_size _ _ _ _ _ R), WA. unfold should_grow.
      destruct (N.ltb_spec (v_cap v) (nlen xs + n - W64)); [lia|reflexivity]. }
    rewrite (bind_ok _ _ _ _ _ GR). okst. cbv iota.
    destruct (r_heap _ _ _ _ _ R) as (sl & [_ SL] & HB). specialize (SL (fun _ => NF)).
    assert (LB : nlen ([] ++ concat xs ++ sl ++ []) = v_cap v * v_esz v).
    { rewrite app_nil_l, app_nil_r, nlen_app, SL, (nlen_concat _ _ (r_chunk _ _ _ _ _ R)). nia. }
    set (buf := [] ++ concat xs ++ sl ++ []) in *.
    assert (SH : forall s w', (if i <? v_size v then vshift_right v i n else ret ST_SUCCESS) w = Ok s w' ->
      exists buf', heap w' (blk v) = Some buf' /\ nlen buf' = nlen buf).
    { intros s w'. destruct (i <? v_size v); [|intros E; inversion E; subst; eauto].
      unfold vshift_right. rewrite (bind_ok _ _ _ _ _ (rep_assert_valid _ _ _ _ _ R)).
      unfold bind, assert. destruct (0 <? n) eqn:?; [|lia].
      rewrite (r_size _ _ _ _ _ R), WA. destruct (N.leb_spec (nlen xs + n - W64) (v_cap v)); [|lia]. unfold ret, memmove, bind.
      destruct (mread _ _ w) as [x w0|] eqn:RD; [|discriminate]. destruct (mwrite _ x w0) as [u w2|] eqn:WR; [|discriminate].
      intros E. inversion E; subst. apply mread_tick in RD. subst w0. eapply write_keeps; eauto. }
    unfold bind at 1. destruct (_ w) as [s w1|f] eqn:E1; [|eauto]. destruct (SH _ _ eq_refl) as (buf' & HB' & LB').
    destruct (st_success s) eqn:SS; cbn [negb].
    2:{ exfalso. clear SH. revert E1. destruct (i <? v_size v); [|intros E; inversion E; subst; discriminate].
        unfold vshift_right. rewrite (bind_ok _ _ _ _ _ (rep_assert_valid _ _ _ _ _ R)).
        unfold bind at 1. destruct (assert _ w) as [? wa|]; [|discriminate]. unfold bind at 1. destruct (assert _ wa) as [? wb|]; [|discriminate].
        unfold bind at 1. destruct (memmove _ _ _ wb) as [? wc|]; [|discriminate]. intros E. inversion E; subst. discriminate. }
    assert (MC : exists f, memcpy (offset v i) (Some p) (wmul n (v_esz v)) w1 = Fault f).
    { rewrite (rep_offset _ _ _ _ _ _ R) by lia. unfold memcpy. destruct (overlap _ _ _); [exists Overlapping; reflexivity|]. unfold memmove.
      destruct (mread (Some p) (wmul n (v_esz v)) w1) as [x w2|f] eqn:RD; [|exists f; unfold bind; now rewrite RD].
      pose proof (mread_tick _ _ _ _ _ RD). subst w2. exists OutOfBounds. rewrite (bind_ok _ _ _ _ _ RD).
      pose proof (mread_len _ _ _ _ _ RD) as LX2. rewrite wmul_minus in LX2 by nia. eapply write_long; [exact HB'|]. nia. }
    destruct MC as (f & MC). exists f. unfold bind. now rewrite MC.
  Qed.
End Vector.

(** What follows a refused request to grow: the next call believes the capacity that the object does not have. *)
From Coq Require Import ZifyBool ZifyNat ZifyN.
From Verif Require Import Base NListFacts Status Mem MemFacts VectorModel VectorSpec VectorDriver RefuseSpec
  VectorRep VectorProofs VectorProofs2 VectorProofs3 VectorRefine VectorFail VectorMore VectorFinal OracleProofs RefuseProofs
  StringModel StringSpec StringDriver StringBytes StringProofs StringFinal StringFinal2 StrRefuseSpec StrRefuseProofs StrRefuseProofs2.

Section Push.
  Context {C : Type}.
  Implicit Types (w : Mem.world C) (v : vector C).

  Lemma second_push w v xs x y o' st :
    reached_own w v xs -> snd (vget_capacity v) = nlen xs -> nlen x = v_esz v -> nlen y = v_esz v -> room (nlen xs + 1) (v_esz v) ->
    o' (tick w) = AFail st ->
    exists v' w', run_op v (OPushBack x) (with_oracle w o') = Ok (err_status st, v') w' /\
      run_op v' (OPushBack y) w' = Fault OutOfBounds.
  Proof.
    intros RO CE LX LY RM O. destruct (reached_own_rep _ _ _ RO) as (R & F & AL & NF).
    pose proof (r_heap _ _ _ _ _ R) as (sl & SL & HH). apply (spare_exact _ _ _ (fun _ => NF)) in SL.
    cbn [vget_capacity snd] in CE.
    apply (fun R => rep_with_oracle _ _ _ _ _ o' R (fun _ => NF)) in R.
    destruct (run_op_fail (with_oracle w o') v [] xs [] (OPushBack x) st R AL O LX RM) as (v' & w' & E & OC).
    { cbn [wants_room vget_capacity snd]. lia. }
    destruct (growth_bounds _ _ _ _ _ R) as [GB SB].
    destruct (run_op_refused (with_oracle w o') v [] xs [] (OPushBack x) ((nlen xs + 1) * v_growth v) st R AL O LX RM) as (w2 & v2 & xs2 & E2 & (CP & _) & _).
    { cbn [asked cfg_of c_growth]. destruct (N.ltb_spec (v_cap v) (nlen xs + 1)); [reflexivity|lia]. }
    rewrite E in E2. injection E2 as <- <-. exists v', w'. split; [exact E|].
    destruct OC as ((c & -> & C1) & H2 & H3 & OC). cbn [set_cap v_cap] in CP. subst c.
    assert (NX : blk v < nextb w').
    { pose proof (rep_blk_lt _ _ _ _ _ R). cbn [nextb with_oracle] in *. lia. }
    assert (EP := r_esz _ _ _ _ _ R). assert (LE : (nlen xs + 1) * v_esz v < W64) by (unfold room in RM; nia).
    cbn [run_op]. unfold with_arg. set (wa := mkbuild _ _ _ _ _ _).
    assert (W : vpush_back (set_cap v ((nlen xs + 1) * v_growth v)) (Some (mkptr (nextb w') 0)) wa = Fault OutOfBounds).
    { unfold vpush_back. cbn [nonnull negb].
      assert (AV2 : assert_valid (set_cap v ((nlen xs + 1) * v_growth v)) wa = Ok tt wa).
      { unfold assert_valid. cbn [set_cap v_esz v_data]. rewrite (r_data _ _ _ _ _ R). destruct (N.eqb_spec (v_esz v) 0); [lia|]. reflexivity. }
      rewrite (bind_ok _ _ _ _ _ AV2). unfold vgrow. cbn [set_cap v_size v_cap]. rewrite (r_size _ _ _ _ _ R), wadd_small by nia.
      unfold should_grow. destruct (N.ltb_spec ((nlen xs + 1) * v_growth v) (nlen xs + 1)); [nia|].
      unfold bind at 1, ret at 1. change (st_success ST_SUCCESS) with true. cbn [negb].
      unfold bind at 1. unfold offset. cbn [set_cap v_data v_size v_esz]. rewrite (r_size _ _ _ _ _ R), (r_data _ _ _ _ _ R), wmul_small by nia.
      cbn [padd]. change (nlen (@nil C)) with 0. unfold memcpy, overlap. cbn [pb po]. destruct (N.eqb_spec (blk v) (nextb w')); [lia|]. cbn [andb].
      unfold memmove, bind, mread, mwrite. cbn [pb po heap wa]. unfold hset at 1. rewrite N.eqb_refl, LY.
      destruct (N.leb_spec (0 + v_esz v) (v_esz v)); [|lia]. cbn [heap wa]. unfold hset at 1. destruct (N.eqb_spec (blk v) (nextb w')); [lia|].
      rewrite H2. cbn [heap with_oracle]. rewrite HH. cbn [app]. rewrite app_nil_r, nlen_app, SL, (nlen_concat _ _ (r_chunk _ _ _ _ _ R)), CE.
      match goal with |- context [if ?b then _ else _] => destruct b eqn:B end; [|reflexivity].
      exfalso. rewrite nlen_nsub in B by lia. nia. }
    now rewrite W.
  Qed.
End Push.

Lemma second_append w s cs x y o' st :
  sreached_own w s cs -> v_growth (s_vec s) <= v_shrink (s_vec s) \/ v_shrink (s_vec s) = 0 ->
  sroom (nlen cs + nlen x) -> (forall c, sget_capacity s w = Ok (ST_SUCCESS, c) w -> c < nlen cs + nlen x) -> nlen y = nlen x ->
  o' (tick w) = AFail st ->
  exists s' w', run_sop s (SAppend x) (with_oracle w o') = Ok (err_status st, s') w' /\
    run_sop s' (SAppend y) w' = Fault OutOfBounds.
Proof.
  intros RO GS RM CP LY O. destruct (append_fail w s cs x o' st RO RM CP O) as (s' & w' & E & _ & HP).
  pose proof (sreached_own_rep _ _ _ RO) as (R & NF & AL). destruct (srep_capacity _ _ _ _ _ R) as [C1 C2].
  specialize (CP _ C1). pose proof R as [(RV & RE) FL].
  pose proof (r_heap _ _ _ _ _ RV) as (sl & SL & HH). apply (spare_exact _ _ _ NF) in SL. pose proof (r_cap _ _ _ _ _ RV) as CAP.
  assert (R3 : srep (with_oracle w o') s [] cs []).
  { split; [|exact FL]. split; [|exact RE]. now apply rep_with_oracle. }
  destruct (growth_bounds _ _ _ _ _ RV) as [GB SB].
  remember (nlen cs + 1 + nlen x) as n eqn:EN. remember (n * v_growth (s_vec s)) as k eqn:EK. unfold sroom in RM.
  assert (K : n <= k) by nia.
  assert (AK : sasked (v_growth (s_vec s)) (v_shrink (s_vec s)) (SAppend x) (mksst cs (v_cap (s_vec s) - 1)) = Some k).
  { unfold sasked, change_of, asked. cbn [ss_chars ss_cap c_growth c_shrink]. rewrite <- EN. replace (v_cap (s_vec s) - 1 + 1) with (v_cap (s_vec s)) by lia.
    destruct (N.eqb_spec n (nlen cs + 1)); [lia|]. destruct (N.ltb_spec (v_cap (s_vec s)) n); [|lia]. cbn [orb]. rewrite <- EK.
    destruct (N.leb_spec 1 k); [reflexivity|lia]. }
  assert (EX : exists w2, run_sop s (SAppend x) (with_oracle w o') = Ok (err_status st, with_vec s (set_cap (s_vec s) k)) w2 /\ nextb w <= nextb w2).
  { eexists. split.
    - cbn [run_sop]. unfold with_view, with_arg. 
      match goal with |- context [sappend s ?q ?w0] => rewrite (sappend_refused (with_oracle w o') s cs st R3 AL w0 q x k) end; [reflexivity|exact (proj1 (argw_rep _ _ _ _ _ _ (proj1 (proj1 R3))))|exact O|reflexivity|lia|].
      unfold sasked, change_of in AK. cbn [ss_chars ss_cap] in AK. replace (v_cap (s_vec s) - 1 + 1) with (v_cap (s_vec s)) in AK by lia. exact AK.
    - cbn. lia. }
  destruct EX as (w2 & E2 & NX). rewrite E in E2. injection E2 as -> ->. exists (with_vec s (set_cap (s_vec s) k)), w2. split; [exact E|].
  cbn [run_sop]. unfold with_view, with_arg. set (wa := mkbuild _ _ _ _ _ _).
  pose proof (rep_blk_lt _ _ _ _ _ RV) as BL. pose proof (srep_size _ _ _ _ _ R) as SZ. unfold ssize in SZ.
  assert (LB : nlen ([] ++ concat (cells (cs ++ [0])) ++ sl ++ []) = v_cap (s_vec s)).
  { cbn [app]. rewrite app_nil_r, nlen_app, concat_cells, SL, nlen_cells, (proj1 RE), nlen_app. change (nlen [0]) with 1.
    pose proof (r_le _ _ _ _ _ RV) as LE. rewrite nlen_cells, nlen_app in LE. change (nlen [0]) with 1 in LE. lia. }
  assert (W : sappend (with_vec s (set_cap (s_vec s) k)) (define_view (Some (mkptr (nextb w2) 0)) (nlen y + 1)) wa = Fault OutOfBounds).
  { unfold sappend. unfold define_view, ssize, sdata. cbn [s_vec with_vec set_cap v_size v_data]. rewrite SZ, LY.
    destruct (N.eqb_spec (nlen x + 1) 0); [lia|]. rewrite wadd_small by lia. rewrite !wsub_small by lia.
    replace (nlen cs + 1 + (nlen x + 1) - 1) with n by lia. replace (nlen cs + 1 - 1) with (nlen cs) by lia.
    replace (nlen x + 1 - 1) with (nlen x) by lia.
    assert (VR : vresize (set_cap (s_vec s) k) n wa = Ok (ST_SUCCESS, set_size (set_cap (s_vec s) k) n) wa).
    { unfold vresize, vresize_ex. cbn [set_cap v_size v_cap v_growth v_shrink]. rewrite SZ. destruct (N.eqb_spec n (nlen cs + 1)); [lia|].
      destruct (N.ltb_spec n (nlen cs + 1)); [lia|]. unfold bind at 1, ret at 1. unfold should_grow, should_shrink.
      destruct (N.ltb_spec k n); [lia|]. rewrite wmul_small by nia. cbn [orb].
      replace (negb (v_shrink (s_vec s) =? 0) && (n * v_shrink (s_vec s) <? k)) with false; [reflexivity|].
      symmetry. destruct (N.eqb_spec (v_shrink (s_vec s)) 0); [reflexivity|]. cbn [negb andb]. apply N.ltb_ge. nia. }
    rewrite (bind_ok _ _ _ _ _ VR). change (st_success ST_SUCCESS) with true. cbn [negb s_vec with_vec set_size set_cap v_data].
    rewrite (r_data _ _ _ _ _ RV). cbn [padd]. change (nlen (@nil N)) with 0.
    assert (HB : heap wa (blk (s_vec s)) = Some ([] ++ concat (cells (cs ++ [0])) ++ sl ++ [])).
    { cbn [heap wa]. unfold hset. destruct (N.eqb_spec (blk (s_vec s)) (nextb w2)); [lia|]. now rewrite HP. }
    assert (RD : mread (Some (mkptr (nextb w2) 0)) (nlen x) wa = Ok y wa).
    { unfold mread. cbn [pb po heap wa]. unfold hset. rewrite N.eqb_refl. destruct (N.leb_spec (0 + nlen x) (nlen (y ++ [0]))).
      - f_equal. rewrite <- LY. apply (nsub_mid 0 (nlen y) [] y [0]); reflexivity.
      - rewrite nlen_app in *. lia. }
    assert (MC : memcpy (Some (mkptr (blk (s_vec s)) (0 + nlen cs))) (Some (mkptr (nextb w2) 0)) (nlen x) wa =
      mwrite (Some (mkptr (blk (s_vec s)) (0 + nlen cs))) y wa).
    { unfold memcpy, overlap. cbn [pb po]. destruct (N.eqb_spec (blk (s_vec s)) (nextb w2)); [lia|]. cbn [andb]. unfold memmove.
      now rewrite (bind_ok _ _ _ _ _ RD). }
    unfold bind at 1. cbn [pb po]. rewrite MC. unfold mwrite. cbn [pb po]. rewrite HB, LB, LY.
    destruct (N.leb_spec (0 + nlen cs + nlen x) (v_cap (s_vec s))); [|reflexivity].
    unfold bind, nullterminate, sdata, ssize. cbn [s_vec with_vec v_data v_size set_size set_cap]. rewrite (r_data _ _ _ _ _ RV). cbn [padd].
    change (nlen (@nil N)) with 0. rewrite wsub_small by lia. unfold mwrite. cbn [pb po heap set_heap]. unfold hset at 1. rewrite N.eqb_refl.
    change (nlen [0]) with 1. match goal with |- context [if ?b then _ else _] => destruct b eqn:B end; [|reflexivity].
    exfalso. rewrite nlen_nsplice in B; rewrite LB in *; lia. }
  now rewrite W.
Qed.

(** Claims refuted for every case: destruction after a refused Resize, lists with wrapping node sizes in a buffer, storage of
    fibers. *)
From Verif Require Import Base NListFacts Status MemFacts VectorModel VectorSpec VectorDriver RefuseSpec
  VectorRep VectorProofs VectorProofs2 VectorProofs3 VectorRefine VectorFail VectorMore VectorFinal OracleProofs RefuseProofs
  ApiModel ApiSpec WinModel WinProofs ListModel Mem.
From Coq Require Import ZifyBool ZifyNat ZifyN.

Section Resize.
  Context {C : Type}.
  Implicit Types (w : Mem.world C) (v : vector C).
  Lemma resize_destroys_twice w v xs f n o' st :
    reached_own w v xs -> v_dtor v = Some f -> n < nlen xs -> v_shrink v <> 0 -> n * v_shrink v < snd (vget_capacity v) ->
    1 <= n \/ 1 < snd (vget_capacity v) -> o' (tick w) = AFail st ->
    exists v1 w1 v2 w2, run_op v (OResize n) (with_oracle w o') = Ok (err_status st, v1) w1 /\
      shows w1 v1 (nfirst n xs ++ map f (nskip n xs)) /\ vdestroy v1 w1 = Ok (ST_SUCCESS, v2) w2 /\
      dlog w2 = dlog w ++ nskip n xs ++ nfirst n xs ++ map f (nskip n xs).
  Proof.
    intros RO D LN SN LC CN O. destruct (reached_own_rep _ _ _ RO) as (R & F & AL & NF). cbn [vget_capacity snd] in *.
    apply (fun R => rep_with_oracle _ _ _ _ _ o' R (fun _ => NF)) in R.
    destruct (growth_bounds _ _ _ _ _ R) as [GB SB].
    destruct (resize_refused (with_oracle w o') v [] xs [] n None st R AL O) as (w1 & E & X).
    { unfold fits in *. pose proof (r_esz _ _ _ _ _ R). nia. }
    { lia. } { apply orb_true_iff. right. lia. } { nia. }
    replace (n <? nlen xs) with true in X by lia. rewrite D in X. destruct X as ((w1' & -> & G) & DL).
    set (k := N.max 1 (n * v_growth v)) in *.
    assert (G' : good (with_oracle w o') v (ticked w1') v [] (nfirst n xs ++ map f (nskip n xs)) []) by now apply good_ticked.
    assert (R1 : vrep (ticked w1') (set_cap (set_cap v k) (v_cap v)) [] (nfirst n xs ++ map f (nskip n xs)) []).
    { rewrite set_cap_back. apply G'. }
    assert (T : 1 <= tick (ticked w1')) by (cbn [ticked tick]; lia).
    destruct (wrong_cap_destroy _ (set_cap v k) _ _ R1 T) as (w2 & v2 & E2 & D2 & _).
    { cbn [set_cap v_cap]. lia. } { exact AL. }
    exists (set_cap v k), (ticked w1'), v2, w2. split; [exact E|]. split.
    - eapply wrong_cap_shows; [exact R1|exact T|]. cbn [set_cap v_cap]. lia.
    - split; [exact E2|]. rewrite D2, DL. unfold destroyed, cfg_of, set_cap. cbn [c_dtor v_dtor]. rewrite D. cbn [dlog with_oracle]. now rewrite <- !app_assoc.
  Qed.
End Resize.

(** ** Fibers *)
Lemma fls_run_snoc : forall cs m f c, fls_run m (cs ++ [(f, c)]) =
  let '(m1, tr) := fls_run m cs in let '(st, r, m2) := fls_step m1 f c in (m2, tr ++ [(f, c, st, r)]).
Proof.
  induction cs as [|[u d] cs IH]; intros m f c; cbn [app fls_run].
  - destruct (fls_step m f c) as [[st r] m1]. reflexivity.
  - destruct (fls_step m u d) as [[st r] m1]. rewrite IH. destruct (fls_run m1 cs) as [m2 tr]. destruct (fls_step m2 f c) as [[st2 r2] m3]. reflexivity.
Qed.
Lemma other_fiber (thread_of : N -> N) cs m0 tr0 m tr k f g x :
  fls_run no_tls cs = (m0, tr0) -> fls_run no_tls (cs ++ [(g, TSet k x 0)]) = (m, tr) ->
  (forall u k' d e, In (u, TSet k' d e) cs -> d < W64) -> x < W64 ->
  key_live k tr0 false = true -> f <> g -> thread_of f = thread_of g ->
  fls_step m f (TGet k) = (ST_SUCCESS, Some (tls_last k f tr0 0), m) /\
  tls_last k (thread_of f) (map (fun '(u, c, st, r) => (thread_of u, c, st, r)) tr) 0 = x.
Proof.
  intros E0 E B BX L NE TH. pose proof E as E'. rewrite fls_run_snoc, E0 in E'.
  destruct (fls_step m0 g (TSet k x 0)) as [[st r] m1] eqn:S. injection E' as <- <-.
  assert (ST : st = ST_SUCCESS).
  { destruct (fls_run_state _ _ _ _ E0) as (V & K & I). specialize (K k). cbn [no_tls keys existsb] in K. rewrite L in K.
    cbn [fls_step] in S. unfold win_tls_set_value in S. cbn [fls_system wanswer] in S. rewrite K in S. change (0 =? 0) with true in S. cbn [andb] in S. now injection S as <- _ _. }
  subst st. split.
  - assert (LV : key_live k (tr0 ++ [(g, TSet k x 0, ST_SUCCESS, r)]) false = true).
    { unfold key_live. rewrite fold_left_app. exact L. }
    rewrite (fls_get_last _ _ _ k f E); [|intros u k' d e I; apply in_app_iff in I as [I|[I|[]]]; [now apply (B u k' d e)|now injection I as _ _ <- _]|exact LV].
    unfold tls_last. rewrite fold_left_app. cbn [fold_left tls_effect]. replace (f =? g) with false by lia. now rewrite andb_false_r.
  - rewrite map_app. unfold tls_last. rewrite fold_left_app. cbn [map fold_left tls_effect]. rewrite TH, !N.eqb_refl. reflexivity.
Qed.

(** ** Lists *)
Lemma wrapping_buffer (w : Mem.world cell) e dtor b pre buf post : W64 - 16 <= e -> e < W64 -> heap w b = Some (pre ++ buf ++ post) ->
  1 <= nlen buf -> e + 16 - W64 <= nlen buf -> nlen buf < 16 ->
  exists l, linit_custom e dtor (Some (mkptr b (nlen pre))) (nlen buf) w = Ok (ST_SUCCESS, Some l) w /\
    if nlen buf + nlen post <? 16 then lemplace_back l None w = Fault OutOfBounds
    else exists w' l' p, lemplace_back l None w = Ok (ST_SUCCESS, l', p) w' /\
           heap w' b = Some (pre ++ enc None ++ enc None ++ nskip 16 (buf ++ post)).
Proof.
  intros L U H B1 B2 B3. exists (mklist false 0 e dtor None None (Some (mkptr b (nlen pre))) (nlen buf) None). split.
  { unfold linit_custom. unfold W64 in L. replace (e =? 0) with false by lia. replace (nlen buf =? 0) with false by lia. reflexivity. }
  assert (NS : wadd NODE_SIZE e = e + 16 - W64).
  { unfold wadd, NODE_SIZE. replace (16 + e) with (e + 16 - W64 + 1 * W64) by (unfold W64 in *; lia). rewrite N.mod_add by discriminate.
    apply N.mod_small. unfold W64 in *. lia. }
  unfold lemplace_back, lalloc_node, lnode_size. cbn [l_alloc l_unused nonnull l_esz l_size l_cap l_buffer l_tail]. rewrite NS.
  change (wmul 0 (e + 16 - W64)) with 0. replace (wadd 0 (e + 16 - W64)) with (e + 16 - W64) by (unfold wadd; rewrite N.add_0_l, N.mod_small; unfold W64 in *; lia).
  destruct (N.ltb_spec (nlen buf) (e + 16 - W64)) as [X|X]; [lia|clear X]. unfold bind at 1, ret at 1. change (negb (st_success ST_SUCCESS)) with false. cbv iota beta.
  cbn [padd pb po]. rewrite N.add_0_r. unfold set_prev, set_next, store_ptr. cbn [padd pb po l_tail].
  destruct (N.ltb_spec (nlen buf + nlen post) 16) as [S|S].
  - unfold bind, mwrite. cbn [pb po]. rewrite H. change (nlen (enc None)) with 8. rewrite !nlen_app.
    destruct (N.leb_spec (nlen pre + 8) (nlen pre + (nlen buf + nlen post))); [|reflexivity].
    unfold set_heap. cbn [heap]. unfold hset at 1. rewrite N.eqb_refl. cbv iota beta.
    rewrite nlen_nsplice by (change (nlen (enc None)) with 8; rewrite !nlen_app; lia). rewrite !nlen_app.
    destruct (N.leb_spec (nlen pre + 8 + 8) (nlen pre + (nlen buf + nlen post))); [lia|reflexivity].
  - destruct (nsplit 8 (buf ++ post)) as (x & r & E & LX); [rewrite nlen_app; lia|].
    destruct (nsplit 8 r) as (y & z & -> & LY); [assert (K : nlen (buf ++ post) = nlen (x ++ r)) by congruence; rewrite !nlen_app in K; lia|].
    assert (E1 := mwrite_mid w b (nlen pre) pre x (enc None) (y ++ z)).
    unfold bind at 1, ret at 1. change (negb (st_success ST_SUCCESS)) with false. cbv iota beta. cbn [l_tail padd pb po].
    rewrite (bind_ok _ _ _ _ _ (E1 ltac:(now rewrite H, E) eq_refl LX)).
    assert (E2 := mwrite_mid (upd w b (pre ++ enc None ++ y ++ z)) b (nlen pre + 8) (pre ++ enc None) y (enc None) z).
    rewrite (bind_ok _ _ _ _ _ (E2 ltac:(rewrite heap_upd_same; now rewrite <- !app_assoc) ltac:(now rewrite nlen_app) LY)).
    eexists _, _, _. split; [reflexivity|]. rewrite heap_upd_same, E. rewrite <- !app_assoc. do 4 f_equal.
    rewrite app_assoc. now rewrite nskip_app_l by (rewrite nlen_app; lia).
Qed.

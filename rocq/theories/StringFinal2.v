(** More lemmas for the string property theorems: case conversion, capacity, duplication, failing allocators. *)
From Verif Require Import Base NListFacts Status Mem MemFacts VectorModel VectorSpec VectorDriver
  VectorRep VectorProofs VectorProofs2 VectorProofs3 VectorRefine VectorFail StringModel StringSpec StringDriver StringBytes
  StringProofs StringSearch StringFinal.
From Coq Require Import ZifyBool ZifyNat ZifyN.

Implicit Types (w : world) (s : str).

(** ** C22 *)
Lemma nnth_map_range f i n (cs : list N) k : i + n <= nlen cs ->
  nnth k (map_range f i n cs) = option_map (fun c => if (i <=? k) && (k <? i + n) then f c else c) (nnth k cs).
Proof.
  intros L. unfold map_range. destruct (nsplit3 i n cs L) as (a & b & c & -> & LA & LB).
  rewrite nsub_mid by assumption.
  rewrite (app_assoc a b c), nskip_app_l by (rewrite nlen_app; lia). rewrite <- app_assoc, nfirst_app_l by assumption.
  destruct (N.lt_ge_cases k i).
  - rewrite !nnth_app1 by lia. destruct (N.leb_spec i k); [lia|]. now destruct (nnth k a).
  - rewrite !(nnth_app2 k a) by lia. destruct (N.leb_spec i k); [|lia]. cbn [andb].
    destruct (N.ltb_spec k (i + n)).
    + rewrite (nnth_app1 _ (map f b)), (nnth_app1 _ b) by (rewrite ?nlen_map; lia).
      unfold nnth. rewrite nth_error_map. now destruct (nth_error b _).
    + rewrite (nnth_app2 _ (map f b)), (nnth_app2 _ b) by (rewrite ?nlen_map; lia). rewrite nlen_map. now destruct (nnth _ c).
Qed.
Lemma nlen_map_range f i n (cs : list N) : i + n <= nlen cs -> nlen (map_range f i n cs) = nlen cs.
Proof.
  intros L. unfold map_range. rewrite !nlen_app, nlen_map. unfold nsub. rewrite !nlen_nfirst, !nlen_nskip. lia.
Qed.
Lemma case_range step f w s cs i n : (forall c, f c = match step c with Some c' => c' | None => c end) ->
  sreached w s cs -> i + n < W64 ->
  exists st w' s' cs', scase_ex step s i n w = Ok (st, s') w' /\ sshows w' s' cs' /\
    if nlen cs <? i + n then st = ST_OUT_OF_RANGE /\ cs' = cs else st = ST_SUCCESS /\ converted f i n cs cs'.
Proof.
  intros HF H J. apply sreached_rep in H as (pre & post & R & _).
  destruct (case_ex_ok step f w s pre cs post i n HF R J) as (r & w' & s' & cs' & E & G & K).
  exists r, w', s', cs'. split; [exact E|]. split; [eapply srep_shows, sgood_rep; eauto|].
  unfold sspec_case in K. destruct (N.ltb_spec (nlen cs) (i + n)) as [|LE]; [exact K|]. destruct K as [K1 ->]. split; [exact K1|].
  split; [now apply nlen_map_range|]. intros k. now apply nnth_map_range.
Qed.
Lemma case_whole step f w s cs : (forall c, f c = match step c with Some c' => c' | None => c end) ->
  sreached w s cs ->
  exists w' s', scase step s w = Ok (ST_SUCCESS, s') w' /\ sshows w' s' (map f cs).
Proof.
  intros HF H. apply sreached_rep in H as (pre & post & R & _).
  destruct (case_all_ok step f w s pre cs post HF R) as (r & w' & s' & cs' & E & G & -> & ->).
  exists w', s'. split; [exact E|]. eapply srep_shows, sgood_rep; eauto.
Qed.

(** ** C23 *)
Lemma srep_capacity w s pre cs post : srep w s pre cs post ->
  sget_capacity s w = Ok (ST_SUCCESS, v_cap (s_vec s) - 1) w /\ nlen cs <= v_cap (s_vec s) - 1.
Proof.
  intros [R _]. pose proof (brep_cap _ _ _ _ _ R) as C. pose proof (brep_le _ _ _ _ _ R) as L.
  rewrite nlen_app in L. change (nlen [0]) with 1 in L. split; [|lia].
  unfold sget_capacity, bind, assert, ret. destruct (N.leb_spec 1 (v_cap (s_vec s))); [|lia]. now rewrite wsub_small by lia.
Qed.
Lemma capacity_bounds_size w s cs : sreached w s cs ->
  exists c, sget_capacity s w = Ok (ST_SUCCESS, c) w /\ nlen cs <= c.
Proof.
  intros H. apply sreached_rep in H as (pre & post & R & _). apply srep_capacity in R as [E L]. eauto.
Qed.
Lemma reserve_capacity w s cs n : sreached_own w s cs -> n < W64 ->
  exists w' s' c, sreserve s n w = Ok (ST_SUCCESS, s') w' /\ sshows w' s' cs /\
    sget_capacity s' w' = Ok (ST_SUCCESS, c) w' /\ n <= c + 1.
Proof.
  intros H L. apply sreached_own_rep in H as (R & NF & AL).
  destruct (sreserve_ok w s [] cs [] n R (nofail_grants _ _ NF) L) as (r & w' & s' & cs' & E & G & K & CP).
  rewrite (limit_own _ AL) in K. cbn in K. destruct K as [-> ->]. rewrite AL in CP.
  pose proof (sgood_rep _ _ _ _ _ _ _ _ R G) as R'. destruct (srep_capacity _ _ _ _ _ R') as [C1 C2].
  exists w', s', (v_cap (s_vec s') - 1). split; [exact E|]. split; [eapply srep_shows; eauto|]. split; [exact C1|]. lia.
Qed.

(** Without a shrink threshold, growing within the capacity is a change of the size field. *)
Lemma vresize_room (v : vector N) n (w : world) : v_shrink v = 0 -> v_size v <= n -> n <= v_cap v ->
  vresize v n w = Ok (ST_SUCCESS, set_size v n) w.
Proof.
  intros S0 L1 L2. unfold vresize, vresize_ex. destruct (N.eqb_spec n (v_size v)) as [->|NE].
  - unfold ret. now rewrite (set_size_self v (v_size v)).
  - destruct (N.ltb_spec n (v_size v)); [lia|]. unfold should_grow, should_shrink. rewrite S0.
    destruct (N.ltb_spec (v_cap v) n); [lia|]. reflexivity.
Qed.
Lemma frame_size w (v : vector N) n : frame w w v (set_size v n).
Proof. split; try reflexivity; auto. intros H. now destruct H. Qed.
Lemma bset_size w v pre l post n : brep w v pre l post -> nlen l <= n -> n <= v_cap v ->
  exists more, nlen more = n - nlen l /\ bgood w v w (set_size v n) pre (l ++ more) post.
Proof.
  intros (R & E & D) L1 L2. pose proof R as R0. rewrite <- (set_size_self v (nlen (cells l))) in R0 by (apply R).
  destruct (rep_extend w v _ pre (cells l) post (n - nlen l) R0) as (ys & LY & KY & R').
  { rewrite nlen_cells. lia. }
  rewrite E in KY. pose proof (cells_of _ KY) as Y. rewrite nlen_cells in R'. replace (nlen l + (n - nlen l)) with n in R' by lia.
  exists (concat ys). split; [rewrite <- nlen_cells, <- Y; exact LY|]. split.
  - split; [|now split]. rewrite cells_app, <- Y. exact R'.
  - now repeat split.
  - apply frame_size.
  - reflexivity.
Qed.
(** Cutting the size field. *)
Lemma bcut_size w v pre a c post : brep w v pre (a ++ c) post -> bgood w v w (set_size v (nlen a)) pre a post.
Proof.
  intros R. pose proof (brep_le _ _ _ _ _ R) as LE. rewrite nlen_app in LE. destruct (brep_heap _ _ _ _ _ R) as (s & SL & H).
  rewrite nlen_app in SL. destruct R as (R & E & D). split.
  - split; [|now split]. destruct R. split; auto; cbn [v_cap v_esz v_size v_data v_alloc v_growth v_shrink v_dtor set_size blk] in *.
    + exists (c ++ s). rewrite concat_cells, nlen_cells, nlen_app, E, N.mul_1_r.
      split; [eapply (spare_plus _ _ _ _ _ (nlen c)); [exact SL|lia|reflexivity]|]. rewrite <- !app_assoc in *. exact H.
    + rewrite E. apply chunked_cells.
    + now rewrite nlen_cells.
    + rewrite nlen_cells. lia.
  - now repeat split.
  - apply frame_size.
  - reflexivity.
Qed.
Lemma wadd_wsub a b : 1 <= a + b <= W64 -> wsub (wadd a b) 1 = a + b - 1.
Proof.
  intros L. destruct (N.eq_dec (a + b) W64) as [E|NE].
  - unfold wadd. rewrite E. reflexivity.
  - rewrite wadd_small, wsub_small by lia. reflexivity.
Qed.
Lemma append_in_room w s pre cs post q x : srep w s pre cs post -> v_shrink (s_vec s) = 0 ->
  nlen cs + nlen x + 1 <= v_cap (s_vec s) -> is_view w q x (blk (s_vec s)) ->
  exists w' s', sappend s q w = Ok (ST_SUCCESS, s') w' /\ sgood w s w' s' pre (cs ++ x) post /\
    blk (s_vec s') = blk (s_vec s) /\ tick w' = tick w.
Proof.
  intros SR S0 RM (p & PD & PS & Q & NB). pose proof SR as [R FL]. pose proof (brep_cap _ _ _ _ _ R) as CAP.
  unfold sappend. rewrite PS, PD, (srep_size _ _ _ _ _ SR).
  destruct (N.eqb_spec (nlen x + 1) 0); [lia|]. rewrite wadd_wsub, !wsub_small by lia.
  replace (nlen cs + 1 + (nlen x + 1) - 1) with (nlen cs + 1 + nlen x) by lia.
  replace (nlen cs + 1 - 1) with (nlen cs) by lia. replace (nlen x + 1 - 1) with (nlen x) by lia.
  pose proof (brep_size _ _ _ _ _ R) as SZ. rewrite nlen_app in SZ. change (nlen [0]) with 1 in SZ.
  rewrite (bind_ok _ _ _ _ _ (vresize_room (s_vec s) (nlen cs + 1 + nlen x) w S0 ltac:(lia) ltac:(lia))). sst.
  destruct (bset_size w (s_vec s) pre (cs ++ [0]) post (nlen cs + 1 + nlen x) R) as (more & LM & G1).
  { rewrite nlen_app. change (nlen [0]) with 1. lia. } { lia. }
  rewrite nlen_app in LM. change (nlen [0]) with 1 in LM.
  set (v1 := set_size (s_vec s) (nlen cs + 1 + nlen x)) in *.
  rewrite <- app_assoc in G1. destruct (nsplit (nlen x) ([0] ++ more)) as (b & c & EB & LB).
  { rewrite nlen_app. lia. }
  destruct (nlen_1 c) as [z ->]. { apply (f_equal nlen) in EB. rewrite !nlen_app in EB. change (nlen [0]) with 1 in EB. lia. }
  rewrite EB in G1.
  destruct (src_frame _ _ _ _ _ _ Q NB (brep_wf _ _ _ _ _ R) (b_frame _ _ _ _ _ _ _ G1)) as [Q1 NB1].
  destruct (bwrite_ok w v1 pre cs b x [z] post) as (w2 & E2 & G2). { apply G1. } { lia. }
  assert (M2 : memcpy (padd (v_data v1) (nlen cs)) (Some p) (nlen x) w = Ok tt w2).
  { rewrite (brep_at _ _ _ _ _ _ (b_rep _ _ _ _ _ _ _ G1)) in *. unfold memcpy.
    rewrite overlap_other by (cbn; congruence). unfold memmove. rewrite (bind_ok _ _ _ _ _ (src_read _ _ _ Q1)). exact E2. }
  unfold sdata at 1. cbn [s_vec with_vec]. rewrite (bind_ok _ _ _ _ _ M2).
  destruct (nullterminate_ok w2 (with_vec s v1) pre (cs ++ x) z post) as (w3 & E3 & G3).
  { cbn [s_vec with_vec]. rewrite <- app_assoc. apply G2. }
  rewrite (bind_ok _ _ _ _ _ E3). exists w3, (with_vec s v1). split; [reflexivity|]. split; [|split; [reflexivity|]].
  - split; [|reflexivity]. eapply bgood_trans; [exact G1|eapply brep_wf; exact R|].
    eapply bgood_trans; [exact G2|eapply brep_wf; apply G1|exact G3].
  - assert (T : forall (p : option ptr) l w w', mwrite p l w = Ok tt w' -> tick w' = tick w).
    { intros pp l wa wb. unfold mwrite. destruct pp as [pp|]; [|discriminate]. destruct (heap wa (pb pp)); [|discriminate].
      destruct (_ <=? _); [|discriminate]. intros X. now injection X as <-. }
    unfold nullterminate in E3. rewrite (T _ _ _ _ E3), (T _ _ _ _ E2). reflexivity.
Qed.
(** After Reserve(n), with shrinking switched off, appending up to n bytes (terminator included) makes no allocator
    request, whatever the allocator would answer. *)
Lemma reserve_then_append w0 cap g s0 w1 ops rs s w cs n orc' x :
  sinit_args_ok w0 cap g 0 -> Forall sums_ok ops -> sroom (sdemands ops) ->
  sinit_ex cap true g 0 w0 = Ok (ST_SUCCESS, Some s0) w1 -> run_sops s0 ops w1 = Ok (rs, s) w -> sshows w s cs ->
  n < W64 -> nlen cs + nlen x + 1 <= n ->
  exists s1 w2 s2 w3,
    sreserve s n w = Ok (ST_SUCCESS, s1) w2 /\
    run_sop s1 (SAppend x) (with_oracle w2 orc') = Ok (ST_SUCCESS, s2) w3 /\
    sshows w3 s2 (cs ++ x) /\ tick w3 = tick w2 /\ sdata s2 = sdata s1.
Proof.
  intros A SO F IE RE SH LN LX.
  destruct (sinit_ok w0 cap g 0 A) as (w1' & s0' & E & R & NF & AL & _ & _ & _ & _ & _ & SHR & _).
  rewrite E in IE. injection IE as -> ->.
  destruct (run_sops_ok ops w1 s0 [] [] [] R NF SO F) as (rs' & w' & s' & cs' & E2 & G & K).
  rewrite RE in E2. injection E2 as -> -> ->. pose proof (sgood_rep _ _ _ _ _ _ _ _ R G) as R'.
  pose proof (sshows_inj _ _ _ _ SH (srep_shows _ _ _ _ _ R')) as EC. subst cs'.
  assert (NF' : snofail w' s') by (eapply bnofail; [exact NF|apply G]).
  assert (AL' : v_alloc (s_vec s') = true) by (destruct G as [[_ GC _ _] _]; destruct GC; congruence).
  assert (SHR' : v_shrink (s_vec s') = 0) by (destruct G as [[_ GC _ _] _]; destruct GC as (_ & _ & GC & _); congruence).
  destruct (sreserve_ok w' s' [] cs [] n R' (nofail_grants _ _ NF') LN) as (r & w2 & s2 & cs2 & ER & G2 & K2 & CP).
  rewrite (limit_own _ AL') in K2. cbn in K2. destruct K2 as [-> ->]. rewrite AL' in CP.
  pose proof (sgood_rep _ _ _ _ _ _ _ _ R' G2) as [R2 FL2].
  assert (SHR2 : v_shrink (s_vec s2) = 0) by (destruct G2 as [[_ GC _ _] _]; destruct GC as (_ & _ & GC & _); congruence).
  assert (R3 : srep (with_oracle w2 orc') s2 [] cs []).
  { split; [|exact FL2]. destruct R2 as (R2a & R2b). split; [|exact R2b]. apply rep_with_oracle; [exact R2a|].
    eapply bnofail; [exact NF'|apply G2]. }
  destruct (arg_view _ _ _ _ _ x R3) as (R4 & V).
  destruct (append_in_room _ s2 [] cs [] _ x R4 SHR2 ltac:(lia) V) as (w4 & s4 & E4 & G4 & BK & TK).
  exists s2, w2, s4, (dropw w4 (nextb w2)). split; [exact ER|].
  split; [|split; [|split]].
  - cbn [run_sop]. unfold with_view, with_arg. cbn [nextb with_oracle heap orc tick dlog].
    unfold argw in E4. cbn [nextb with_oracle heap orc tick dlog] in E4. rewrite E4. reflexivity.
  - eapply srep_shows. eapply sgood_rep; [exact R3|]. destruct G4 as [G4 F4]. split; [|exact F4].
    destruct R3 as [R3 _]. exact (bdropw _ _ _ _ _ _ _ _ _ R3 G4).
  - exact TK.
  - unfold sdata. pose proof (sgood_rep _ _ _ _ _ _ _ _ R4 G4) as [R5 _].
    rewrite (brep_data _ _ _ _ _ R5), (brep_data _ _ _ _ _ R2). now rewrite BK.
Qed.

(** ** C24 *)
(** Copying [x] into a fresh (empty) string with room for it and a terminator. *)
Lemma fill_ok w d pre post q x rest : srep w d pre [] post -> nlen x + 1 <= v_cap (s_vec d) ->
  is_view w q x (blk (s_vec d)) -> rest = v_cap (s_vec d) - (nlen x + 1) ->
  exists w', sduplicate_into (nlen x + 1) q (ST_SUCCESS, Some d) w =
      Ok (ST_SUCCESS, Some (with_vec d (set_size (s_vec d) (nlen x + 1)))) w' /\
    sgood w d w' (with_vec d (set_size (s_vec d) (nlen x + 1))) pre x post.
Proof.
  intros SR LC (p & PD & PS & Q & NB) ->. pose proof SR as [R FL]. pose proof (brep_cap _ _ _ _ _ R) as CAP.
  unfold sduplicate_into. sst. unfold assert at 1, bind at 1. destruct (N.leb_spec (nlen x + 1) (v_cap (s_vec d))); [|lia]. cbn [ret].
  unfold ret at 1. rewrite PS, PD, wsub_small by lia. replace (nlen x + 1 - 1) with (nlen x) by lia.
  destruct (bset_size w (s_vec d) pre [0] post (nlen x + 1) R) as (more & LM & G1).
  { change (nlen [0]) with 1. lia. } { lia. }
  change (nlen [0]) with 1 in LM. set (v1 := set_size (s_vec d) (nlen x + 1)) in *.
  destruct (nsplit (nlen x) ([0] ++ more)) as (b & c & EB & LB).
  { rewrite nlen_app. change (nlen [0]) with 1. lia. }
  destruct (nlen_1 c) as [z ->]. { apply (f_equal nlen) in EB. rewrite !nlen_app in EB. change (nlen [0]) with 1 in EB. lia. }
  rewrite EB in G1.
  destruct (bcopy_ok w v1 pre [] b x [z] post p) as (w2 & E2 & G2); auto. { apply G1. }
  change (nlen (@nil N)) with 0 in E2. change (v_data v1) with (sdata d) in E2.
  replace (padd (sdata d) 0) with (sdata d) in E2.
  2:{ unfold sdata. rewrite (brep_data _ _ _ _ _ R). cbn [padd]. now rewrite N.add_0_r. }
  rewrite (bind_ok _ _ _ _ _ E2).
  destruct (nullterminate_ok w2 (with_vec d v1) pre x z post) as (w3 & E3 & G3). { apply G2. }
  rewrite (bind_ok _ _ _ _ _ E3). exists w3. split; [reflexivity|]. split; [|reflexivity].
  eapply bgood_trans; [exact G1|eapply brep_wf; exact R|]. eapply bgood_trans; [exact G2|eapply brep_wf; apply G1|exact G3].
Qed.
Lemma concat_fill_ok w d pre post q1 q2 x y : srep w d pre [] post -> nlen x + nlen y + 1 <= v_cap (s_vec d) ->
  is_view w q1 x (blk (s_vec d)) -> is_view w q2 y (blk (s_vec d)) ->
  exists w', sconcat_into (nlen x + nlen y + 1) q1 q2 (ST_SUCCESS, Some d) w =
      Ok (ST_SUCCESS, Some (with_vec d (set_size (s_vec d) (nlen x + nlen y + 1)))) w' /\
    sgood w d w' (with_vec d (set_size (s_vec d) (nlen x + nlen y + 1))) pre (x ++ y) post.
Proof.
  intros SR LC (p1 & PD1 & PS1 & Q1 & NB1) (p2 & PD2 & PS2 & Q2 & NB2). pose proof SR as [R FL].
  pose proof (brep_cap _ _ _ _ _ R) as CAP. pose proof (brep_wf _ _ _ _ _ R) as W.
  unfold sconcat_into. sst. unfold assert at 1, bind at 1.
  destruct (N.leb_spec (nlen x + nlen y + 1) (v_cap (s_vec d))); [|lia]. cbn [ret].
  unfold ret at 1. rewrite PS1, PD1, PS2, PD2, !wsub_small by lia. replace (nlen x + 1 - 1) with (nlen x) by lia.
  replace (nlen y + 1 - 1) with (nlen y) by lia.
  destruct (bset_size w (s_vec d) pre [0] post (nlen x + nlen y + 1) R) as (more & LM & G1).
  { change (nlen [0]) with 1. lia. } { lia. }
  change (nlen [0]) with 1 in LM. set (v1 := set_size (s_vec d) (nlen x + nlen y + 1)) in *.
  destruct (nsplit (nlen x) ([0] ++ more)) as (b & c & EB & LB).
  { rewrite nlen_app. change (nlen [0]) with 1. lia. }
  rewrite EB in G1. apply (f_equal nlen) in EB. rewrite !nlen_app in EB. change (nlen [0]) with 1 in EB.
  destruct (nsplit (nlen y) c) as (b2 & c2 & -> & LB2); [lia|]. rewrite nlen_app in EB.
  destruct (nlen_1 c2) as [z ->]; [lia|].
  destruct (bcopy_ok w v1 pre [] b x (b2 ++ [z]) post p1) as (w2 & E2 & G2); auto. { apply G1. }
  change (nlen (@nil N)) with 0 in E2. change (v_data v1) with (sdata d) in E2.
  replace (padd (sdata d) 0) with (sdata d) in E2.
  2:{ unfold sdata. rewrite (brep_data _ _ _ _ _ R). cbn [padd]. now rewrite N.add_0_r. }
  rewrite (bind_ok _ _ _ _ _ E2).
  assert (G12 : bgood w (s_vec d) w2 v1 pre (x ++ b2 ++ [z]) post) by (eapply bgood_trans; eauto).
  destruct (src_frame _ _ _ _ _ _ Q2 NB2 W (b_frame _ _ _ _ _ _ _ G12)) as [Q2' NB2'].
  destruct (bcopy_ok w2 v1 pre x b2 y [z] post p2) as (w3 & E3 & G3); auto. { apply G2. }
  change (v_data v1) with (sdata d) in E3. rewrite (bind_ok _ _ _ _ _ E3).
  destruct (nullterminate_ok w3 (with_vec d v1) pre (x ++ y) z post) as (w4 & E4 & G4).
  { rewrite <- app_assoc. apply G3. }
  rewrite (bind_ok _ _ _ _ _ E4). exists w4. split; [reflexivity|]. split; [|reflexivity].
  eapply bgood_trans; [exact G12|exact W|]. eapply bgood_trans; [exact G3|eapply brep_wf; apply G12|exact G4].
Qed.

Lemma views_src w q x : views_part w q x -> exists p, sdata q = Some p /\ src w p x /\ heap w (pb p) <> None.
Proof.
  intros (_ & _ & R). unfold mread in R. destruct (sdata q) as [p|]; [|discriminate]. exists p. split; [reflexivity|].
  destruct (heap w (pb p)) as [buf|] eqn:HB; [|discriminate].
  destruct (N.leb_spec (po p + nlen x) (nlen buf)) as [LE|]; [|discriminate]. injection R as R.
  destruct (nsplit3 (po p) (nlen x) buf LE) as (u & v & z & -> & LU & LV). rewrite nsub_mid in R by assumption. subst v.
  split; [|congruence]. exists u, z. now split.
Qed.
Lemma views_is_view w w' q x b : views_part w q x -> (forall b', b' <> b -> heap w' b' = heap w b') ->
  (forall p, sdata q = Some p -> pb p <> b) -> is_view w' q x b.
Proof.
  intros V H NB. destruct (views_src _ _ _ V) as (p & PD & (a & c & HP & PO) & _). exists p. split; [exact PD|].
  split; [apply V|]. split; [|now apply NB]. exists a, c. rewrite H by now apply NB. now split.
Qed.
Lemma views_old w w' q x d : views_part w q x -> wfw w -> nextb w <= blk (s_vec d) ->
  (forall b', b' <> blk (s_vec d) -> heap w' b' = heap w b') -> is_view w' q x (blk (s_vec d)).
Proof.
  intros V W B H. eapply views_is_view; eauto. intros p PD E. destruct (views_src _ _ _ V) as (p' & PD' & _ & HL).
  rewrite PD in PD'. injection PD' as <-. apply HL. apply W. lia.
Qed.

Lemma fresh_own w0 w1 d0 w2 d x : srep w1 d0 [] [] [] -> snofail w1 d0 -> v_alloc (s_vec d0) = true ->
  wfw w0 -> nextb w0 <= blk (s_vec d0) -> nextb w0 <= nextb w1 ->
  (forall b, b <> blk (s_vec d0) -> heap w1 b = heap w0 b) -> sgood w1 d0 w2 d [] x [] ->
  fresh_string None (fun _ => True) w0 w2 d x.
Proof.
  intros R NF AL W B1 B2 HP G. pose proof (sgood_rep _ _ _ _ _ _ _ _ R G) as R2.
  assert (NF2 : snofail w2 d) by (eapply bnofail; [exact NF|apply G]).
  assert (AL2 : v_alloc (s_vec d) = true) by (destruct G as [[_ GC _ _] _]; destruct GC; congruence).
  assert (KEEP : forall w' d' y, sgood w1 d0 w' d' [] y [] -> forall b buf, heap w0 b = Some buf -> heap w' b = Some buf).
  { intros w' d' y G' b buf HB. assert (L : b < nextb w0) by (eapply live_lt; eauto). destruct G' as [[_ _ GF _] _].
    rewrite (fr_heap _ _ _ _ GF); [rewrite HP by lia; exact HB|lia|].
    destruct (N.eq_dec (blk (s_vec d')) (blk (s_vec d0))) as [->|NE]; [lia|].
    destruct (fr_old _ _ _ _ GF NE) as (_ & _ & L'). lia. }
  split; [eapply srep_shows; eauto|]. split; [rewrite <- (limit_own _ AL2); eapply srep_behaves; eauto|].
  split; [intros b buf HB _; eapply KEEP; eauto|].
  intros ops rs d' w' SO F E b buf HB _.
  destruct (run_sops_ok ops w2 d [] x [] R2 NF2 SO) as (rs' & w3 & d3 & cs3 & E3 & G3 & _). { exact F. }
  rewrite E in E3. injection E3 as -> -> ->. eapply KEEP; [|exact HB].
  eapply sgood_trans; [exact G|eapply brep_wf; apply R|exact G3].
Qed.
Lemma fresh_buf w0 w1 d0 w2 d x b cap pre post : srep w1 d0 pre [] post -> snofail w1 d0 -> v_alloc (s_vec d0) = false ->
  v_cap (s_vec d0) = cap -> blk (s_vec d0) = b ->
  (forall b', b' <> b -> heap w1 b' = heap w0 b') -> sgood w1 d0 w2 d pre x post ->
  fresh_string (Some (cap - 1)) (fun b' => b' <> b) w0 w2 d x.
Proof.
  intros R NF AL CP BK HP G. pose proof (sgood_rep _ _ _ _ _ _ _ _ R G) as R2.
  assert (NF2 : snofail w2 d) by (eapply bnofail; [exact NF|apply G]).
  assert (AL2 : v_alloc (s_vec d) = false) by (destruct G as [[_ GC _ _] _]; destruct GC; congruence).
  assert (CP2 : v_cap (s_vec d) = cap) by (destruct G as [[_ _ _ GK] _]; rewrite GK; auto).
  assert (KEEP : forall w' d' y, sgood w1 d0 w' d' pre y post -> forall b' buf, heap w0 b' = Some buf -> b' <> b -> heap w' b' = Some buf).
  { intros w' d' y G' b' buf HB NB. destruct G' as [[_ _ GF _] _].
    rewrite (fr_heap _ _ _ _ GF); [rewrite HP by assumption; exact HB|congruence|].
    destruct (N.eq_dec (blk (s_vec d')) (blk (s_vec d0))) as [->|NE]; [congruence|].
    destruct (fr_old _ _ _ _ GF NE) as (X & _). congruence. }
  split; [eapply srep_shows; eauto|]. split; [rewrite <- (limit_fixed _ _ AL2 CP2); eapply srep_behaves; eauto|].
  split; [intros b' buf HB NB; eapply KEEP; eauto|].
  intros ops rs d' w' SO F E b' buf HB NB.
  destruct (run_sops_ok ops w2 d pre x post R2 NF2 SO) as (rs' & w3 & d3 & cs3 & E3 & G3 & _). { exact F. }
  rewrite E in E3. injection E3 as -> -> ->. eapply KEEP; [|exact HB|exact NB].
  eapply sgood_trans; [exact G|eapply brep_wf; apply R|exact G3].
Qed.
Lemma duplicate_own w0 q x cap g t : sinit_args_ok w0 (N.max cap (nlen x)) g t -> views_part w0 q x ->
  exists d w c, sduplicate_ex q cap true g t w0 = Ok (ST_SUCCESS, Some d) w /\
    fresh_string None (fun _ => True) w0 w d x /\ sget_capacity d w = Ok (ST_SUCCESS, c) w /\ N.max cap (nlen x) <= c.
Proof.
  intros A V. pose proof V as (SZ & LT & _). unfold sduplicate_ex. rewrite SZ. destruct (N.eqb_spec (nlen x + 1) 0); [lia|].
  rewrite wsub_small by lia. replace (nlen x + 1 - 1) with (nlen x) by lia.
  destruct (sinit_ok w0 _ g t A) as (w1 & d & E & R & NF & AL & CP & B1 & B2 & OR & _ & _ & HP).
  rewrite (bind_ok _ _ _ _ _ E).
  destruct (fill_ok w1 d [] [] q x _ R ltac:(lia) (views_old w0 w1 q x d V (proj1 A) B1 HP) eq_refl) as (w2 & E2 & G).
  eexists _, w2, _. split; [exact E2|]. pose proof (sgood_rep _ _ _ _ _ _ _ _ R G) as R2.
  split; [eapply (fresh_own w0 w1 d); eauto; apply A|]. split; [apply (srep_capacity _ _ _ _ _ R2)|].
  cbn [s_vec with_vec set_size v_cap]. lia.
Qed.
Lemma concat_own w0 q1 q2 x y cap g t : sinit_args_ok w0 (N.max cap (nlen x + nlen y)) g t ->
  views_part w0 q1 x -> views_part w0 q2 y -> 
  exists d w c, sconcat_ex q1 q2 cap true g t w0 = Ok (ST_SUCCESS, Some d) w /\
    fresh_string None (fun _ => True) w0 w d (x ++ y) /\ sget_capacity d w = Ok (ST_SUCCESS, c) w /\
    N.max cap (nlen x + nlen y) <= c.
Proof.
  intros A V1 V2. pose proof V1 as (SZ1 & LT1 & _). pose proof V2 as (SZ2 & LT2 & _). unfold sconcat_ex. rewrite SZ1, SZ2.
  pose proof A as (_ & _ & _ & _ & LC).
  destruct (N.eqb_spec (nlen x + 1) 0); [lia|]. destruct (N.eqb_spec (nlen y + 1) 0); [lia|]. cbn [orb].
  rewrite wadd_wsub by lia. replace (nlen x + 1 + (nlen y + 1) - 1) with (nlen x + nlen y + 1) by lia.
  rewrite wsub_small by lia. replace (nlen x + nlen y + 1 - 1) with (nlen x + nlen y) by lia.
  destruct (sinit_ok w0 _ g t A) as (w1 & d & E & R & NF & AL & CP & B1 & B2 & OR & _ & _ & HP).
  rewrite (bind_ok _ _ _ _ _ E).
  destruct (concat_fill_ok w1 d [] [] q1 q2 x y R ltac:(lia) (views_old w0 w1 q1 x d V1 (proj1 A) B1 HP)
    (views_old w0 w1 q2 y d V2 (proj1 A) B1 HP)) as (w2 & E2 & G).
  eexists _, w2, _. split; [exact E2|]. pose proof (sgood_rep _ _ _ _ _ _ _ _ R G) as R2.
  split; [eapply (fresh_own w0 w1 d); eauto; apply A|]. split; [apply (srep_capacity _ _ _ _ _ R2)|].
  cbn [s_vec with_vec set_size v_cap]. lia.
Qed.
Lemma duplicate_buf w0 q x cap b pre buf post : sbuffer_args_ok w0 cap b pre buf post -> views_part w0 q x -> outside q b ->
  exists st od w, sduplicate_custom q (Some (mkptr b (nlen pre))) cap w0 = Ok (st, od) w /\
    if cap <? nlen x + 1 then st = ST_INSUFFICIENT_BUFFER_SIZE /\ od = None /\ w = w0
    else st = ST_SUCCESS /\ exists d buf', od = Some d /\ fresh_string (Some (cap - 1)) (fun b' => b' <> b) w0 w d x /\
           sdata d = Some (mkptr b (nlen pre)) /\ heap w b = Some (pre ++ buf' ++ post) /\ nlen buf' = cap.
Proof.
  intros A V O. pose proof V as (SZ & LT & _). unfold sduplicate_custom. rewrite SZ. destruct (N.eqb_spec (nlen x + 1) 0); [lia|].
  destruct (N.ltb_spec cap (nlen x + 1)); [eexists _, _, _; now repeat split|].
  destruct (sinit_custom_ok w0 cap b pre buf post A) as (w1 & d & E & R & NF & AL & CP & BK & NX & OR & HP).
  rewrite (bind_ok _ _ _ _ _ E). subst b.
  destruct (fill_ok w1 d pre post q x _ R ltac:(lia) (views_is_view _ _ _ _ _ V HP O) eq_refl) as (w2 & E2 & G).
  eexists _, _, w2. split; [exact E2|]. split; [reflexivity|]. pose proof (sgood_rep _ _ _ _ _ _ _ _ R G) as [R2 _].
  destruct (brep_heap _ _ _ _ _ R2) as (sl & SL & HH). apply spare_exact in SL; [|intros A'; cbn in A'; congruence].
  pose proof (brep_le _ _ _ _ _ R2) as LE.
  rewrite !nlen_app in *. change (nlen [0]) with 1 in *. cbn [s_vec with_vec set_size v_cap] in *.
  eexists _, (x ++ [0] ++ sl). split; [reflexivity|]. split; [eapply (fresh_buf w0 w1 d); eauto|].
  split; [unfold sdata; exact (brep_data _ _ _ _ _ (proj1 R))|].
  split; [change (blk (s_vec d)) with (blk (set_size (s_vec d) (nlen x + 1))); rewrite HH; now rewrite <- !app_assoc|].
  rewrite !nlen_app. change (nlen [0]) with 1. lia.
Qed.
Lemma concat_buf w0 q1 q2 x y cap b pre buf post : sbuffer_args_ok w0 cap b pre buf post ->
  views_part w0 q1 x -> outside q1 b -> views_part w0 q2 y -> outside q2 b -> nlen x + nlen y + 1 < W64 ->
  exists st od w, sconcat_custom q1 q2 (Some (mkptr b (nlen pre))) cap w0 = Ok (st, od) w /\
    if cap <? nlen x + nlen y + 1 then st = ST_INSUFFICIENT_BUFFER_SIZE /\ od = None /\ w = w0
    else st = ST_SUCCESS /\ exists d buf', od = Some d /\ fresh_string (Some (cap - 1)) (fun b' => b' <> b) w0 w d (x ++ y) /\
           sdata d = Some (mkptr b (nlen pre)) /\ heap w b = Some (pre ++ buf' ++ post) /\ nlen buf' = cap.
Proof.
  intros A V1 O1 V2 O2 LS. pose proof V1 as (SZ1 & LT1 & _). pose proof V2 as (SZ2 & LT2 & _). unfold sconcat_custom. rewrite SZ1, SZ2.
  destruct (N.eqb_spec (nlen x + 1) 0); [lia|]. destruct (N.eqb_spec (nlen y + 1) 0); [lia|]. cbn [orb].
  rewrite wadd_wsub by lia. replace (nlen x + 1 + (nlen y + 1) - 1) with (nlen x + nlen y + 1) by lia.
  destruct (N.ltb_spec cap (nlen x + nlen y + 1)); [eexists _, _, _; now repeat split|].
  destruct (sinit_custom_ok w0 cap b pre buf post A) as (w1 & d & E & R & NF & AL & CP & BK & NX & OR & HP).
  rewrite (bind_ok _ _ _ _ _ E). subst b.
  destruct (concat_fill_ok w1 d pre post q1 q2 x y R ltac:(lia) (views_is_view _ _ _ _ _ V1 HP O1)
    (views_is_view _ _ _ _ _ V2 HP O2)) as (w2 & E2 & G).
  eexists _, _, w2. split; [exact E2|]. split; [reflexivity|]. pose proof (sgood_rep _ _ _ _ _ _ _ _ R G) as [R2 _].
  destruct (brep_heap _ _ _ _ _ R2) as (sl & SL & HH). apply spare_exact in SL; [|intros A'; cbn in A'; congruence].
  pose proof (brep_le _ _ _ _ _ R2) as LE.
  rewrite !nlen_app in *. change (nlen [0]) with 1 in *. cbn [s_vec with_vec set_size v_cap] in *.
  eexists _, (x ++ y ++ [0] ++ sl). split; [reflexivity|]. split; [eapply (fresh_buf w0 w1 d); eauto|].
  split; [unfold sdata; exact (brep_data _ _ _ _ _ (proj1 R))|].
  split; [change (blk (s_vec d)) with (blk (set_size (s_vec d) (nlen x + nlen y + 1))); rewrite HH; now rewrite <- !app_assoc|].
  rewrite !nlen_app. change (nlen [0]) with 1. lia.
Qed.

(** ** A failing allocator *)
Lemma sshows_only_cap w s w' v' cs : sshows w s cs -> only_cap w (s_vec s) w' v' -> sshows w' (with_vec s v') cs.
Proof.
  intros (S1 & S2 & S3) ((c & -> & _) & H & _ & _ & _ & _ & K).
  assert (AS : forall q, assert q w = Ok tt w -> assert q w' = Ok tt w').
  { intros q. unfold assert, ret. destruct q; [reflexivity|]. rewrite K. destruct (checked w); [discriminate|reflexivity]. }
  assert (RD : forall p n x, mread p n w = Ok x w -> mread p n w' = Ok x w').
  { intros p n x. unfold mread. destruct p as [p|]; [|discriminate]. rewrite H.
    destruct (heap w (pb p)); [|discriminate]. destruct (_ <=? _); [|discriminate]. intros X. now injection X as <-. }
  split; [|split].
  - unfold sget_size, bind, ret, ssize in *. cbn [s_vec with_vec set_cap v_size].
    destruct (assert_cases (1 <=? v_size (s_vec s)) w) as [E|E]; rewrite E in S1; [|discriminate].
    rewrite (AS _ E). now injection S1 as ->.
  - intros i LI. specialize (S2 i LI). unfold sget_char, ssize in *. cbn [s_vec with_vec set_cap v_size].
    destruct (v_size (s_vec s) <=? wadd i 1); [unfold ret in *; congruence|].
    unfold vget_pointer, assert_valid, offset, bind, ret in *. cbn [set_cap v_size v_esz v_data] in *.
    destruct (v_size (s_vec s) <=? i).
    { change (negb (st_success ST_OUT_OF_RANGE)) with true in *. cbv beta iota in *.
      destruct (nnth i cs); [discriminate S2|reflexivity]. }
    destruct (assert_cases (negb (v_esz (s_vec s) =? 0)) w) as [E|E]; rewrite E in S2; [|discriminate]. rewrite (AS _ E).
    destruct (assert_cases (nonnull (v_data (s_vec s))) w) as [E'|E']; rewrite E' in S2; [|discriminate]. rewrite (AS _ E').
    change (negb (st_success ST_SUCCESS)) with false in *. cbv beta iota in *. unfold mread1, bind, ret in *.
    match goal with |- context [mread ?p 1 w'] => destruct (mread p 1 w) as [l wl|] eqn:EM; [|discriminate] end.
    assert (wl = w) as ->.
    { clear -EM. unfold mread in EM. destruct (padd _ _) as [p|]; [|discriminate].
      destruct (heap w (pb p)); [|discriminate]. destruct (_ <=? _); [|discriminate]. now injection EM. }
    rewrite (RD _ _ _ EM). destruct l as [|c0 [|]]; try discriminate. congruence.
  - unfold sget_data, sdata in *. cbn [snd s_vec with_vec set_cap v_data] in *. now apply RD.
Qed.
Lemma bresize_fail w v pre l post n st : brep w v pre l post -> v_alloc v = true -> orc w (tick w) = AFail st ->
  v_cap v < n -> n * 256 < W64 ->
  exists v' w', vresize v n w = Ok (err_status st, v') w' /\ only_cap w v w' v'.
Proof.
  intros R AL O LC F. pose proof (brep_size _ _ _ _ _ R) as SZ. pose proof (brep_le _ _ _ _ _ R) as LE.
  unfold vresize, vresize_ex. destruct (N.eqb_spec n (v_size v)); [lia|]. destruct (N.ltb_spec n (v_size v)); [lia|].
  unfold should_grow. destruct (N.ltb_spec (v_cap v) n); [|lia]. cbn [orb]. pose proof R as (VR & _).
  destruct (growth_bounds _ _ _ _ _ VR) as [GB _]. rewrite wmul_small by nia.
  destruct (vreallocate_fail' w v pre (cells l) post (n * v_growth v) st VR AL O) as (v' & w' & E & OC). { left. nia. }
  exists v', w'. split; [|exact OC]. unfold bind at 1. unfold ret at 1. unfold bind at 1 2. unfold assert.
  destruct (N.leb_spec 1 (v_growth v)); [|lia]. unfold ret at 1. rewrite E. unfold ret. now rewrite st_success_err.
Qed.
Lemma append_fail w s cs x orc' st : sreached_own w s cs -> sroom (nlen cs + nlen x) ->
  (forall c, sget_capacity s w = Ok (ST_SUCCESS, c) w -> c < nlen cs + nlen x) -> orc' (tick w) = AFail st ->
  exists s' w', run_sop s (SAppend x) (with_oracle w orc') = Ok (err_status st, s') w' /\ sshows w' s' cs /\
    (forall b, heap w' b = heap w b).
Proof.
  intros H F CP O. apply sreached_own_rep in H as (R & NF & AL). destruct (srep_capacity _ _ _ _ _ R) as [C1 _].
  specialize (CP _ C1). pose proof R as [R2 FL2]. pose proof (brep_cap _ _ _ _ _ R2) as CAP.
  assert (R3 : srep (with_oracle w orc') s [] cs []).
  { split; [|exact FL2]. destruct R2 as (R2a & R2b). split; [|exact R2b]. now apply rep_with_oracle. }
  destruct (arg_view _ _ _ _ _ x R3) as (R4 & V). destruct V as (p & PD & PS & Q & NB).
  destruct (bresize_fail _ (s_vec s) [] (cs ++ [0]) [] (nlen cs + 1 + nlen x) st (proj1 R4) AL) as (v' & w' & E & OC).
  { exact O. } { lia. } { unfold sroom in F. lia. }
  exists (with_vec s v'), (dropw w' (nextb w)). split; [|split].
  - cbn [run_sop]. unfold with_view, with_arg. cbn [nextb with_oracle heap orc tick dlog].
    unfold sappend. unfold define_view, ssize, sdata in *. cbn [s_vec v_size v_data nextb with_oracle] in *.
    pose proof (srep_size _ _ _ _ _ R) as SZ. unfold ssize in SZ. rewrite SZ. destruct (N.eqb_spec (nlen x + 1) 0); [lia|].
    unfold sroom in F. rewrite wadd_wsub by lia. replace (nlen cs + 1 + (nlen x + 1) - 1) with (nlen cs + 1 + nlen x) by lia.
    unfold argw in E. cbn [nextb with_oracle heap orc tick dlog] in E. unfold bind at 1. rewrite E. now rewrite st_success_err.
  - assert (D : sshows (dropw (argw (with_oracle w orc') (x ++ [0])) (nextb w)) s cs).
    { eapply srep_shows. split; [|exact FL2].
      exact (b_rep _ _ _ _ _ _ _ (bdropw _ _ _ _ _ _ _ _ _ (proj1 R3) (bgood_refl _ _ _ _ _ (proj1 R4)))). }
    eapply sshows_only_cap; [exact D|]. destruct OC as (O1 & O2 & O3 & O4 & O5 & O6 & O7).
    split; [exact O1|]. repeat split; auto. intros b. unfold dropw. cbn [heap set_heap]. unfold hset at 1 2.
    destruct (b =? nextb w); [reflexivity|]. apply O2.
  - intros b. destruct OC as (_ & O2 & _). cbn. unfold hset. destruct (N.eqb_spec b (nextb w)) as [->|NE].
    + symmetry. apply (brep_wf _ _ _ _ _ R2). lia.
    + rewrite O2. cbn. unfold hset. destruct (N.eqb_spec b (nextb w)); [contradiction|reflexivity].
Qed.

(** ** A string appended to itself *)
Lemma append_self_faults w s cs : sreached_own w s cs -> sroom (2 * nlen cs) -> 1 <= nlen cs ->
  sappend_self s w = Fault Overlapping.
Proof.
  intros H F N1. apply sreached_own_rep in H as (R & NF & AL). pose proof R as [R2 FL].
  unfold sappend_self. rewrite (srep_size _ _ _ _ _ R). destruct (N.eqb_spec (nlen cs + 1) 0); [lia|].
  unfold sroom in F. rewrite wadd_wsub by lia. replace (nlen cs + 1 + (nlen cs + 1) - 1) with (2 * nlen cs + 1) by lia.
  destruct (bresize_ok w (s_vec s) [] (cs ++ [0]) [] (2 * nlen cs + 1) R2 (nofail_grants _ _ NF)) as (r & w1 & v1 & l1 & E1 & G1 & K).
  { rewrite nlen_app. change (nlen [0]) with 1. lia. } { lia. }
  rewrite (bind_ok _ _ _ _ _ E1). rewrite nlen_app in K. change (nlen [0]) with 1 in K.
  destruct (N.leb_spec (2 * nlen cs + 1) (nlen cs + 1)); [lia|]. unfold bholds in K. rewrite AL in K. cbn [orb] in K.
  destruct K as [-> (new & -> & LN)]. sst. pose proof (b_rep _ _ _ _ _ _ _ G1) as R3.
  unfold sdata, ssize. cbn [s_vec with_vec]. rewrite (brep_data _ _ _ _ _ R3), (brep_size _ _ _ _ _ R3).
  rewrite !nlen_app, LN. change (nlen [0]) with 1. change (nlen (@nil N)) with 0. rewrite !wsub_small by lia. cbn [padd].
  unfold memcpy, bind.
  match goal with |- context [overlap ?a ?b ?c] => replace (overlap a b c) with true end; [reflexivity|].
  unfold overlap. cbn [pb po]. rewrite N.eqb_refl. symmetry. rewrite !andb_true_iff. repeat split; lia.
Qed.

(** ** Range checks *)
Lemma range_checks w s cs o : sreached w s cs -> sums_ok o -> sroom (nlen cs + sdemand o) -> bad_range o cs = true ->
  exists s' w', run_sop s o w = Ok (ST_OUT_OF_RANGE, s') w' /\ sshows w' s' cs.
Proof.
  intros H SO F B. apply sreached_rep in H as (pre & post & R & NF).
  destruct (run_sop_ok w s pre cs post o R (nofail_grants _ _ NF) SO) as (r & w' & s' & cs' & E & G & K). { exact F. }
  assert (X : r = ST_OUT_OF_RANGE /\ cs' = cs).
  { destruct o; cbn [bad_range] in B; try discriminate; cbn [sspec] in K;
      unfold sspec_append, sspec_insert, sspec_delete, sspec_case, refuse in K.
    - rewrite B in K. exact K.
    - destruct (N.eqb_spec i (nlen cs + 1)); [lia|]. destruct (N.ltb_spec (nlen cs) i); [exact K|lia].
    - destruct (N.eqb_spec i (nlen cs + 1)); unfold sspec_append, refuse in K.
      + destruct (N.ltb_spec (nlen x) (j + n)); [exact K|lia].
      + destruct (N.ltb_spec (nlen cs) i); [exact K|]. destruct (N.ltb_spec (nlen x) (j + n)); [exact K|lia].
    - rewrite B in K. exact K.
    - rewrite B in K. exact K.
    - rewrite B in K. exact K.
    - rewrite B in K. exact K.
    - rewrite B in K. exact K. }
  destruct X as [-> ->]. exists s', w'. split; [exact E|]. eapply srep_shows, sgood_rep; eauto.
Qed.

(** ** Statements with the model's comparisons filled in *)
Lemma lpos_ex_cs w hv nv hay needle index count :
  views w hv hay -> views w nv needle -> ~ In 0 needle -> index + count < W64 ->
  exists st r, slpos_ex eq_cs hv nv index count w = Ok (st, r) w /\ lpos_result eq hay needle index count st r.
Proof. apply lpos_ex_correct, decides_cs. Qed.
Lemma lpos_cs w hv nv hay needle : views w hv hay -> views w nv needle -> ~ In 0 needle ->
  exists st r, slpos eq_cs hv nv w = Ok (st, r) w /\ lpos_result eq hay needle 0 (nlen hay) st r.
Proof. apply lpos_correct, decides_cs. Qed.
Lemma rpos_ex_cs w hv nv hay needle index count : views_part w hv hay -> views_part w nv needle ->
  exists st r, srpos_ex eq_cs hv nv index count w = Ok (st, r) w /\ rpos_result eq hay needle index count st r.
Proof. apply rpos_ex_correct, decides_cs. Qed.
Lemma rpos_cs w hv nv hay needle : views_part w hv hay -> views_part w nv needle ->
  exists st r, srpos eq_cs hv nv w = Ok (st, r) w /\ rpos_result eq hay needle (nlen hay) (nlen hay) st r.
Proof. apply rpos_correct, decides_cs. Qed.
Lemma lpos_ex_ci w hv nv hay needle index count : Forall plain hay -> Forall plain needle ->
  views w hv hay -> views w nv needle -> index + count < W64 ->
  exists st r, slpos_ex eq_ci hv nv index count w = Ok (st, r) w /\ lpos_result same_letter hay needle index count st r.
Proof.
  intros P1 P2 V1 V2 J. apply lpos_ex_correct; auto; [now apply decides_ci|].
  intros H. rewrite Forall_forall in P2. specialize (P2 _ H). unfold plain in P2. lia.
Qed.
Lemma rpos_ex_ci w hv nv hay needle index count : Forall plain hay -> Forall plain needle ->
  views_part w hv hay -> views_part w nv needle ->
  exists st r, srpos_ex eq_ci hv nv index count w = Ok (st, r) w /\ rpos_result same_letter hay needle index count st r.
Proof. intros P1 P2. apply rpos_ex_correct. now apply decides_ci. Qed.
Lemma compare_ci w v1 v2 a b : Forall plain a -> Forall plain b -> views w v1 a -> views w v2 b ->
  exists st r, scompare eq_ci v1 v2 w = Ok (st, r) w /\
    ((map to_lower a = map to_lower b /\ st = ST_TRUE /\ r = 0%Z) \/
     (map to_lower a <> map to_lower b /\ st = ST_FALSE /\ (r = 1 \/ r = -1)%Z)).
Proof.
  intros P1 P2 V1 V2. destruct (compare_zero eq_ci same_letter w v1 v2 a b (decides_ci _ _ P1 P2) eq_ci_refl V1 V2) as (st & r & E & K).
  exists st, r. split; [exact E|].
  assert (X : forall x y, Forall2 same_letter x y <-> map to_lower x = map to_lower y).
  { clear. induction x as [|c x IH]; intros [|d y]; cbn; split; intros H; try discriminate; try constructor; inversion H; subst.
    - f_equal; [assumption|]. now apply IH.
    - assumption.
    - now apply IH. }
  now rewrite X in K.
Qed.
Lemma compare_ci_antisym w v1 v2 a b : Forall (fun c => c < 256) a -> Forall (fun c => c < 256) b ->
  views w v1 a -> views w v2 b ->
  exists st st' r, scompare eq_ci v1 v2 w = Ok (st, r) w /\ scompare eq_ci v2 v1 w = Ok (st', (- r)%Z) w.
Proof. apply compare_antisym, class_ci. Qed.
Lemma compare_ci_trans w v1 v2 v3 a b c :
  Forall (fun c => c < 256) a -> Forall (fun c => c < 256) b -> Forall (fun c => c < 256) c ->
  views w v1 a -> views w v2 b -> views w v3 c ->
  exists st12 r12 st23 r23 st13 r13,
    scompare eq_ci v1 v2 w = Ok (st12, r12) w /\ scompare eq_ci v2 v3 w = Ok (st23, r23) w /\
    scompare eq_ci v1 v3 w = Ok (st13, r13) w /\ (r12 <= 0 -> r23 <= 0 -> r13 <= 0)%Z.
Proof. apply compare_trans, class_ci. Qed.
Lemma compare_cs_antisym w v1 v2 a b : Forall bit5 a -> Forall bit5 b -> views w v1 a -> views w v2 b ->
  exists st st' r, scompare eq_cs v1 v2 w = Ok (st, r) w /\ scompare eq_cs v2 v1 w = Ok (st', (- r)%Z) w.
Proof. apply compare_antisym, class_cs. Qed.
Lemma compare_cs_trans w v1 v2 v3 a b c : Forall bit5 a -> Forall bit5 b -> Forall bit5 c ->
  views w v1 a -> views w v2 b -> views w v3 c ->
  exists st12 r12 st23 r23 st13 r13,
    scompare eq_cs v1 v2 w = Ok (st12, r12) w /\ scompare eq_cs v2 v3 w = Ok (st23, r23) w /\
    scompare eq_cs v1 v3 w = Ok (st13, r13) w /\ (r12 <= 0 -> r23 <= 0 -> r13 <= 0)%Z.
Proof. apply compare_trans, class_cs. Qed.
Lemma lower_range w s cs i n : sreached w s cs -> i + n < W64 ->
  exists st w' s' cs', scase_ex lower_step s i n w = Ok (st, s') w' /\ sshows w' s' cs' /\
    if nlen cs <? i + n then st = ST_OUT_OF_RANGE /\ cs' = cs else st = ST_SUCCESS /\ converted to_lower i n cs cs'.
Proof. apply case_range, lower_step_ok. Qed.
Lemma upper_range w s cs i n : sreached w s cs -> i + n < W64 ->
  exists st w' s' cs', scase_ex upper_step s i n w = Ok (st, s') w' /\ sshows w' s' cs' /\
    if nlen cs <? i + n then st = ST_OUT_OF_RANGE /\ cs' = cs else st = ST_SUCCESS /\ converted to_upper i n cs cs'.
Proof. apply case_range, upper_step_ok. Qed.
Lemma lower_whole w s cs : sreached w s cs ->
  exists w' s', scase lower_step s w = Ok (ST_SUCCESS, s') w' /\ sshows w' s' (map to_lower cs).
Proof. apply case_whole, lower_step_ok. Qed.
Lemma upper_whole w s cs : sreached w s cs ->
  exists w' s', scase upper_step s w = Ok (ST_SUCCESS, s') w' /\ sshows w' s' (map to_upper cs).
Proof. apply case_whole, upper_step_ok. Qed.
Lemma append_self_empty w s : sreached w s [] ->
  exists w' s', sappend_self s w = Ok (ST_SUCCESS, s') w' /\ sshows w' s' [].
Proof.
  intros H. apply sreached_rep in H as (pre & post & R & NF). pose proof R as [R2 FL].
  unfold sappend_self. rewrite (srep_size _ _ _ _ _ R). change (nlen (@nil N)) with 0.
  change (0 + 1 =? 0) with false. cbv iota. change (wsub (wadd (0 + 1) (0 + 1)) 1) with 1.
  assert (E : vresize (s_vec s) 1 w = Ok (ST_SUCCESS, s_vec s) w).
  { unfold vresize, vresize_ex. pose proof (srep_size _ _ _ _ _ R) as SZ. unfold ssize in SZ. rewrite SZ. reflexivity. }
  rewrite (bind_ok _ _ _ _ _ E). sst. rewrite with_vec_self, (srep_size _ _ _ _ _ R). change (wsub (0 + 1) 1) with 0.
  change (wsub (nlen [] + 1) 1) with 0.
  assert (E2 : memcpy (padd (sdata s) 0) (sdata s) 0 w = Ok tt w \/ exists w', memcpy (padd (sdata s) 0) (sdata s) 0 w = Ok tt w' /\ bgood w (s_vec s) w' (s_vec s) pre ([] ++ [0]) post).
  { right. unfold sdata. pose proof (bwrite_ok w (s_vec s) pre [] [] [] [0] post R2 eq_refl) as (w' & EW & GW).
    exists w'. split; [|exact GW]. unfold memcpy. rewrite (brep_data _ _ _ _ _ R2) in *. cbn [padd] in *.
    unfold overlap. rewrite (andb_false_r _ : _ && (0 <? 0) = false). unfold memmove.
    rewrite (bind_ok _ _ w [] w); [exact EW|]. 
    destruct (brep_heap _ _ _ _ _ R2) as (sl & SL & HH).
    apply (mread_mid w (blk (s_vec s)) (nlen pre) 0 pre [] ([0] ++ sl ++ post)); [exact HH|reflexivity|reflexivity]. }
  assert (E3 : exists w', memcpy (padd (sdata s) 0) (sdata s) 0 w = Ok tt w' /\ bgood w (s_vec s) w' (s_vec s) pre ([] ++ [0]) post).
  { destruct E2 as [E2|E2]; [exists w; split; [exact E2|now apply bgood_refl]|exact E2]. }
  destruct E3 as (w' & EM & GM). rewrite (bind_ok _ _ _ _ _ EM).
  destruct (nullterminate_ok w' s pre [] 0 post (b_rep _ _ _ _ _ _ _ GM)) as (w2 & E4 & G4).
  rewrite (bind_ok _ _ _ _ _ E4). exists w2, s. split; [reflexivity|]. eapply srep_shows. split; [apply G4|exact FL].
Qed.

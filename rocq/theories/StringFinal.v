(** The lemmas the string property theorems are closed with. *)
From Verif Require Import Base NListFacts Status Mem MemFacts VectorModel VectorSpec VectorDriver
  VectorRep VectorProofs VectorProofs2 VectorProofs3 VectorRefine StringModel StringSpec StringDriver StringBytes
  StringProofs StringSearch.
From Coq Require Import ZifyBool ZifyNat ZifyN.

Implicit Types (w : world) (s : str).

Lemma srep_behaves w s pre cs post : srep w s pre cs post -> snofail w s -> behaves_as (limit_of s) w s cs.
Proof.
  intros R NF ops SO F. destruct (run_sops_ok ops w s pre cs post R NF SO) as (rs & w' & s' & cs' & E & G & K).
  { exact F. }
  exists rs, w', s', cs'. split; [exact E|]. split; [exact K|]. eapply srep_shows, sgood_rep; eauto.
Qed.
Lemma limit_own s : v_alloc (s_vec s) = true -> limit_of s = None.
Proof. unfold limit_of. now intros ->. Qed.
Lemma limit_fixed s cap : v_alloc (s_vec s) = false -> v_cap (s_vec s) = cap -> limit_of s = Some (cap - 1).
Proof. unfold limit_of. now intros -> ->. Qed.

(** ** C13 *)
Lemma growable_string w0 cap g t ops :
  sinit_args_ok w0 cap g t -> Forall sums_ok ops -> sroom (sdemands ops) ->
  exists s0 w1 rs s w cs,
    sinit_ex cap true g t w0 = Ok (ST_SUCCESS, Some s0) w1 /\
    run_sops s0 ops w1 = Ok (rs, s) w /\ sspecs None ops [] rs cs /\ sshows w s cs /\
    (forall b x, heap w0 b = Some x -> heap w b = Some x).
Proof.
  intros A SO F. destruct (sinit_ok w0 cap g t A) as (w1 & s0 & E & R & NF & AL & CP & B1 & B2 & OR & _ & _ & HP).
  destruct (run_sops_ok ops w1 s0 [] [] [] R NF SO F) as (rs & w' & s' & cs' & E2 & G & K).
  rewrite (limit_own _ AL) in K. exists s0, w1, rs, s', w', cs'. split; [exact E|]. split; [exact E2|].
  split; [exact K|]. split; [eapply srep_shows, sgood_rep; eauto|].
  intros b x H. destruct A as (W & _). assert (LT : b < nextb w0) by (eapply live_lt; eauto).
  destruct G as [[GR GC GF GK] GFl]. rewrite (fr_heap _ _ _ _ GF).
  - rewrite HP by lia. exact H.
  - lia.
  - destruct (N.eq_dec (blk (s_vec s')) (blk (s_vec s0))) as [->|NE]; [lia|].
    destruct (fr_old _ _ _ _ GF NE) as (_ & _ & L). lia.
Qed.
Lemma growable_string_destroy w0 cap g t s0 w1 ops rs s w :
  sinit_args_ok w0 cap g t -> Forall sums_ok ops -> sroom (sdemands ops) ->
  sinit_ex cap true g t w0 = Ok (ST_SUCCESS, Some s0) w1 -> run_sops s0 ops w1 = Ok (rs, s) w ->
  exists s' w', sdestroy s w = Ok (ST_SUCCESS, s') w' /\ forall b, heap w' b = heap w0 b.
Proof.
  intros A SO F IE RE. destruct (sinit_ok w0 cap g t A) as (w1' & s0' & E & R & NF & AL & CP & B1 & B2 & OR & _ & _ & HP).
  rewrite E in IE. injection IE as -> ->.
  destruct (run_sops_ok ops w1 s0 [] [] [] R NF SO F) as (rs' & w' & s' & cs' & E2 & G & K).
  rewrite RE in E2. injection E2 as -> -> ->. pose proof (sgood_rep _ _ _ _ _ _ _ _ R G) as [R' FL'].
  pose proof G as [[GR GC GF GK] GFl]. assert (AL' : v_alloc (s_vec s') = true) by (destruct GC; congruence).
  rewrite AL' in FL'. destruct (destroy_ok w' (s_vec s') [] (cells (cs' ++ [0])) [] (proj1 R')) as (w2 & D & _ & D1 & _ & D2).
  unfold sdestroy. rewrite FL'. change (N.land 0 HAS_FIXED_CAPACITY =? 0) with true. cbn [negb].
  rewrite (bind_ok _ _ _ _ _ D). eexists _, w2. split; [reflexivity|]. intros b.
  pose proof (proj1 A) as W.
  destruct (N.eq_dec b (blk (s_vec s'))) as [->|NE].
  - rewrite (D1 AL'). symmetry. apply W. destruct (N.eq_dec (blk (s_vec s')) (blk (s_vec s0))) as [->|NE]; [lia|].
    destruct (fr_old _ _ _ _ GF NE) as (_ & _ & L). lia.
  - rewrite (D2 _ NE). destruct (N.eq_dec b (blk (s_vec s0))) as [->|NE0].
    + destruct (fr_old _ _ _ _ GF ltac:(congruence)) as (_ & -> & _). symmetry. apply W. lia.
    + rewrite (fr_heap _ _ _ _ GF) by assumption. now apply HP.
Qed.

(** ** C14 *)
Lemma fixed_string w0 cap b pre buf post ops :
  sbuffer_args_ok w0 cap b pre buf post -> Forall sums_ok ops -> sroom (sdemands ops) ->
  exists s0 w1 rs s w cs buf',
    sinit_custom (Some (mkptr b (nlen pre))) cap w0 = Ok (ST_SUCCESS, Some s0) w1 /\
    run_sops s0 ops w1 = Ok (rs, s) w /\ sspecs (Some (cap - 1)) ops [] rs cs /\ sshows w s cs /\
    nlen cs <= cap - 1 /\ sdata s = Some (mkptr b (nlen pre)) /\ tick w = tick w0 /\
    heap w b = Some (pre ++ buf' ++ post) /\ nlen buf' = cap /\
    (forall b', b' <> b -> heap w b' = heap w0 b').
Proof.
  intros A SO F. destruct (sinit_custom_ok w0 cap b pre buf post A) as (w1 & s0 & E & R & NF & AL & CP & BK & NX & OR & HP).
  destruct (run_sops_ok ops w1 s0 pre [] post R NF SO F) as (rs & w' & s' & cs' & E2 & G & K).
  rewrite (limit_fixed _ _ AL CP) in K. pose proof (sgood_rep _ _ _ _ _ _ _ _ R G) as R'.
  pose proof G as [[GR GC GF GK] GFl]. specialize (GK AL).
  destruct (brep_heap _ _ _ _ _ GR) as (sl & SL & HH). apply spare_exact in SL; [|destruct GC as (GA & _); intros ?; congruence]. pose proof (brep_le _ _ _ _ _ GR) as LE.
  assert (BK' : blk (s_vec s') = b).
  { destruct (N.eq_dec (blk (s_vec s')) (blk (s_vec s0))) as [->|NE]; [exact BK|].
    destruct (fr_old _ _ _ _ GF NE) as (X & _). congruence. }
  exists s0, w1, rs, s', w', cs', (cs' ++ [0] ++ sl). split; [exact E|]. split; [exact E2|]. split; [exact K|].
  split; [eapply srep_shows; exact R'|]. rewrite nlen_app in LE. change (nlen [0]) with 1 in LE.
  split; [lia|]. split; [unfold sdata; rewrite (brep_data _ _ _ _ _ GR); now rewrite BK'|].
  split.
  { rewrite (fr_tick _ _ _ _ GF AL).
    clear -E. unfold sinit_custom in E. destruct (cap =? 0); [discriminate|].
    unfold vinit_custom in E. destruct (_ || _); [discriminate|]. unfold bind, ret, assert in E.
    cbn [st_success] in E. change (negb (st_success ST_SUCCESS)) with false in E. cbv beta iota in E.
    cbn [v_cap v_esz v_data] in E. rewrite N.eqb_refl in E. change (1 =? 1) with true in E. unfold ret in E.
    unfold mwrite in E. cbn [pb po] in E. destruct (heap w0 b); [|discriminate]. destruct (_ <=? _); [|discriminate].
    now inversion E. }
  split; [rewrite <- BK', HH; now rewrite <- !app_assoc|].
  split; [rewrite !nlen_app; rewrite nlen_app in SL; change (nlen [0]) with 1 in *; lia|].
  intros b' NB. rewrite (fr_heap _ _ _ _ GF) by congruence. now apply HP.
Qed.
Lemma fixed_string_destroy w0 cap b pre buf post s0 w1 ops rs s w :
  sbuffer_args_ok w0 cap b pre buf post -> Forall sums_ok ops -> sroom (sdemands ops) ->
  sinit_custom (Some (mkptr b (nlen pre))) cap w0 = Ok (ST_SUCCESS, Some s0) w1 -> run_sops s0 ops w1 = Ok (rs, s) w ->
  sdestroy s w = Ok (ST_SUCCESS, s) w.
Proof.
  intros A SO F IE RE. destruct (sinit_custom_ok w0 cap b pre buf post A) as (w1' & s0' & E & R & NF & AL & CP & BK & NX & OR & HP).
  rewrite E in IE. injection IE as -> ->.
  destruct (run_sops_ok ops w1 s0 pre [] post R NF SO F) as (rs' & w' & s' & cs' & E2 & G & K).
  rewrite RE in E2. injection E2 as -> -> ->. pose proof (sgood_rep _ _ _ _ _ _ _ _ R G) as [R' FL'].
  pose proof G as [[GR GC GF GK] GFl]. assert (AL' : v_alloc (s_vec s') = false) by (destruct GC; congruence).
  rewrite AL' in FL'. unfold sdestroy. now rewrite FL'.
Qed.

(** A reached string is represented. *)
Lemma sreached_own_rep w s cs : sreached_own w s cs ->
  srep w s [] cs [] /\ snofail w s /\ v_alloc (s_vec s) = true.
Proof.
  intros (w0 & cap & g & t & s0 & w1 & ops & rs & A & SO & F & IE & RE & SH).
  destruct (sinit_ok w0 cap g t A) as (w1' & s0' & E & R & NF & AL & _).
  rewrite E in IE. injection IE as -> ->.
  destruct (run_sops_ok ops w1 s0 [] [] [] R NF SO F) as (rs' & w' & s' & cs' & E2 & G & K).
  rewrite RE in E2. injection E2 as -> -> ->. pose proof (sgood_rep _ _ _ _ _ _ _ _ R G) as R'.
  rewrite (sshows_inj _ _ _ _ SH (srep_shows _ _ _ _ _ R')). split; [exact R'|].
  split; [eapply bnofail; [exact NF|apply G]|]. destruct G as [[_ GC _ _] _]. destruct GC. congruence.
Qed.
Lemma sreached_buf_rep w s cs : sreached_buf w s cs ->
  exists pre post, srep w s pre cs post /\ snofail w s /\ v_alloc (s_vec s) = false.
Proof.
  intros (w0 & cap & b & pre & buf & post & s0 & w1 & ops & rs & A & SO & F & IE & RE & SH).
  destruct (sinit_custom_ok w0 cap b pre buf post A) as (w1' & s0' & E & R & NF & AL & _).
  rewrite E in IE. injection IE as -> ->.
  destruct (run_sops_ok ops w1 s0 pre [] post R NF SO F) as (rs' & w' & s' & cs' & E2 & G & K).
  rewrite RE in E2. injection E2 as -> -> ->. pose proof (sgood_rep _ _ _ _ _ _ _ _ R G) as R'.
  rewrite (sshows_inj _ _ _ _ SH (srep_shows _ _ _ _ _ R')). exists pre, post. split; [exact R'|].
  split; [eapply bnofail; [exact NF|apply G]|]. destruct G as [[_ GC _ _] _]. destruct GC. congruence.
Qed.
Lemma sreached_rep w s cs : sreached w s cs -> exists pre post, srep w s pre cs post /\ snofail w s.
Proof.
  intros [H|H].
  - apply sreached_own_rep in H as (R & NF & _). now exists [], [].
  - apply sreached_buf_rep in H as (pre & post & R & NF & _). now exists pre, post.
Qed.
Lemma srep_views w s pre cs post : srep w s pre cs post -> views w s cs.
Proof.
  intros R. split; [exact (srep_size _ _ _ _ _ R)|]. split; [exact (srep_lt _ _ _ _ _ R)|].
  exact (proj2 (proj2 (srep_shows _ _ _ _ _ R))).
Qed.
(** A string can be used as a view of its own characters. *)
Lemma string_views w s cs : sreached w s cs -> views w s cs.
Proof. intros H. apply sreached_rep in H as (pre & post & R & _). eapply srep_views; eauto. Qed.

(** ** C15, C16: views *)
Lemma index_of_nul_app x z : ~ In 0 x -> index_of_nul (x ++ 0 :: z) = Some (nlen x).
Proof.
  induction x as [|c x IH]; intros NI; [reflexivity|]. cbn [app index_of_nul].
  destruct (N.eqb_spec c 0) as [->|NE]; [exfalso; apply NI; now left|].
  rewrite IH by (intros H; apply NI; now right). cbn [option_map]. f_equal. now rewrite nlen_cons.
Qed.
Lemma inside_buffer_ok w old b a x z : heap w b = Some (a ++ x ++ 0 :: z) -> ~ In 0 x -> nlen x + 1 < W64 ->
  exists q, view_inside_buffer old (Some (mkptr b (nlen a))) w = Ok (ST_SUCCESS, q) w /\
    view_get_size q w = Ok (ST_SUCCESS, nlen x) w /\ view_get_data q = (ST_SUCCESS, Some (mkptr b (nlen a))) /\ views w q x.
Proof.
  intros H NI L. unfold view_inside_buffer. cbn [nonnull negb].
  assert (E : mstrlen (Some (mkptr b (nlen a))) w = Ok (nlen x) w).
  { unfold mstrlen. cbn [pb po]. rewrite H, nskip_app_l by reflexivity. now rewrite index_of_nul_app. }
  rewrite (bind_ok _ _ _ _ _ E). rewrite wadd_small by exact L. eexists. split; [reflexivity|].
  split; [|split; [reflexivity|]].
  - unfold view_get_size, set_view, ssize. cbn [s_vec with_vec set_size set_data v_size]. unfold bind, assert, ret.
    destruct (N.leb_spec 1 (nlen x + 1)); [|lia]. rewrite wsub_small by lia. do 2 f_equal. lia.
  - split; [reflexivity|]. split; [exact L|]. apply (mread_mid w b (nlen a) (nlen x + 1) a (x ++ [0]) z).
    + rewrite H. now rewrite <- app_assoc.
    + reflexivity.
    + now rewrite nlen_app.
Qed.
Lemma inside_buffer_ex_ok w old b a x z : heap w b = Some (a ++ x ++ z) -> 1 <= nlen x -> nlen x + 1 < W64 ->
  exists q, view_inside_buffer_ex old (Some (mkptr b (nlen a))) (nlen x) = (ST_SUCCESS, q) /\
    view_get_size q w = Ok (ST_SUCCESS, nlen x) w /\ view_get_data q = (ST_SUCCESS, Some (mkptr b (nlen a))) /\
    views_part w q x.
Proof.
  intros H N1 L. unfold view_inside_buffer_ex. cbn [nonnull negb orb]. destruct (N.eqb_spec (nlen x) 0); [lia|].
  rewrite wadd_small by exact L. eexists. split; [reflexivity|].
  split; [|split; [reflexivity|]].
  - unfold view_get_size, set_view, ssize. cbn [s_vec with_vec set_size set_data v_size]. unfold bind, assert, ret.
    destruct (N.leb_spec 1 (nlen x + 1)); [|lia]. rewrite wsub_small by lia. do 2 f_equal. lia.
  - split; [reflexivity|]. split; [exact L|]. now apply (mread_mid w b (nlen a) (nlen x) a x z).
Qed.
Lemma get_char_view w q x i : views_part w q x -> v_esz (s_vec q) = 1 -> i < W64 ->
  sget_char q i w = Ok (match nnth i x with Some c => (ST_SUCCESS, Some c) | None => (ST_OUT_OF_RANGE, None) end) w.
Proof.
  intros V ES LI. pose proof V as (SZ & LT & RD). unfold sget_char. rewrite SZ.
  destruct (N.lt_ge_cases i (nlen x)) as [L|L].
  - destruct (nnth_exists _ _ L) as [c NC]. rewrite NC, wadd_small by lia.
    destruct (N.leb_spec (nlen x + 1) (i + 1)); [lia|]. unfold vget_pointer.
    change (v_size (s_vec q)) with (ssize q). rewrite SZ. destruct (N.leb_spec (nlen x + 1) i); [lia|].
    pose proof (views_part_read1 _ _ _ _ _ V NC) as R1. unfold sdata in *.
    destruct (v_data (s_vec q)) as [p|] eqn:ED; [|discriminate].
    unfold assert_valid, offset. rewrite ED, ES. unfold bind at 1 2 3, assert, ret at 1 2.
    cbn [nonnull]. change (negb (1 =? 0)) with true. cbv iota. unfold ret at 1 2. sst.
    rewrite wmul_small by lia. rewrite N.mul_1_r. cbn [padd] in *.
    rewrite (bind_ok _ _ _ _ _ R1). reflexivity.
  - rewrite nnth_ge by assumption. destruct (N.eq_dec i (W64 - 1)) as [->|NE].
    + replace (wadd (W64 - 1) 1) with 0 by reflexivity.
      destruct (N.leb_spec (nlen x + 1) 0); [lia|]. unfold vget_pointer, bind.
      change (v_size (s_vec q)) with (ssize q). rewrite SZ.
      destruct (N.leb_spec (nlen x + 1) (W64 - 1)); [|lia]. reflexivity.
    + rewrite wadd_small by lia. destruct (N.leb_spec (nlen x + 1) (i + 1)); [reflexivity|lia].
Qed.
Lemma inside_view_ok w old q x : views w q x ->
  exists r, view_inside_view old q = (ST_SUCCESS, r) /\ views w r x /\ view_get_size r w = Ok (ST_SUCCESS, nlen x) w.
Proof.
  intros (H1 & H2 & H3). eexists. split; [reflexivity|]. split; [now repeat split|].
  unfold view_get_size, set_view, ssize in *. cbn [s_vec with_vec set_size set_data v_size]. rewrite H1.
  unfold bind, assert, ret. destruct (N.leb_spec 1 (nlen x + 1)); [|lia]. rewrite wsub_small by lia. do 2 f_equal. lia.
Qed.
(** What holds of InsideViewEx: range check and address; the size is one too small. *)
Lemma inside_view_ex_ok w old q x i n : views w q x -> i + n < W64 ->
  exists st r, view_inside_view_ex old q i n = (st, r) /\
    (if nlen x <? i + n then st = ST_OUT_OF_RANGE /\ r = old
     else st = ST_SUCCESS /\ mread (sdata r) n w = Ok (nsub i n x) w /\
          (1 <= n -> view_get_size r w = Ok (ST_SUCCESS, n - 1) w)).
Proof.
  intros V J. pose proof V as (H1 & H2 & _). apply views_views_part in V as (_ & _ & H3). unfold view_inside_view_ex. rewrite H1, wadd_small by exact J.
  destruct (N.leb_spec (nlen x + 1) (i + n)); destruct (N.ltb_spec (nlen x) (i + n)); try lia.
  - eexists _, _. split; [reflexivity|]. now split.
  - eexists _, _. split; [reflexivity|]. split; [reflexivity|]. split.
    + unfold set_view, sdata at 1. cbn [s_vec with_vec set_size set_data v_data]. unfold mread in *.
      destruct (sdata q) as [p|]; [|discriminate]. cbn [padd pb po].
      destruct (heap w (pb p)) as [buf|]; [|discriminate].
      destruct (N.leb_spec (po p + nlen x) (nlen buf)) as [LE|]; [|discriminate]. injection H3 as H3.
      destruct (N.leb_spec (po p + i + n) (nlen buf)) as [|]; [|lia]. f_equal.
      destruct (nsplit3 (po p) (nlen x) buf LE) as (u & v & z & -> & LU & LV).
      rewrite nsub_mid in H3 by assumption. subst v.
      destruct (nsplit3 i n x) as (a & b & c & -> & LA & LB); [lia|].
      rewrite (nsub_mid i n) by assumption. rewrite <- !app_assoc, (app_assoc u a).
      apply nsub_mid; [rewrite nlen_app; lia|assumption].
    + intros N1. unfold view_get_size, set_view, ssize. cbn [s_vec with_vec set_size set_data v_size].
      unfold bind, assert, ret. destruct (N.leb_spec 1 n); [|lia]. rewrite wsub_small by lia. reflexivity.
Qed.

(** ** C17 - C19: searching *)
Lemma occurs_ext (R R' : N -> N -> Prop) hay needle i :
  (forall a b, In a hay -> In b needle -> (R a b <-> R' a b)) -> occurs R hay needle i <-> occurs R' hay needle i.
Proof.
  intros H. rewrite !occurs_agree.
  assert (IN : forall (l : list N) k c, nnth k l = Some c -> In c l).
  { intros l k c NC. unfold nnth in NC. eapply nth_error_In; eauto. }
  split; intros [L A]; (split; [exact L|]); intros t T; destruct (A t T) as (x & y & X & Y & XY); exists x, y;
    (split; [exact X|]; split; [exact Y|]); apply (H x y); eauto.
Qed.
Lemma first_occurrence_ext (R R' : N -> N -> Prop) hay needle lo hi r :
  (forall a b, In a hay -> In b needle -> (R a b <-> R' a b)) ->
  first_occurrence R hay needle lo hi r -> first_occurrence R' hay needle lo hi r.
Proof.
  intros H. destruct r as [i|]; cbn.
  - intros (A & B & O & NO). split; [exact A|]. split; [exact B|]. split; [now apply (occurs_ext R R')|].
    intros j J. rewrite <- (occurs_ext R R') by exact H. now apply NO.
  - intros NO j J1 J2. rewrite <- (occurs_ext R R') by exact H. now apply NO.
Qed.
Lemma last_occurrence_ext (R R' : N -> N -> Prop) hay needle lo hi r :
  (forall a b, In a hay -> In b needle -> (R a b <-> R' a b)) ->
  last_occurrence R hay needle lo hi r -> last_occurrence R' hay needle lo hi r.
Proof.
  intros H. destruct r as [i|]; cbn.
  - intros (A & B & O & NO). split; [exact A|]. split; [exact B|]. split; [now apply (occurs_ext R R')|].
    intros j J1 J2. rewrite <- (occurs_ext R R') by exact H. now apply NO.
  - intros NO j J1 J2. rewrite <- (occurs_ext R R') by exact H. now apply NO.
Qed.

(** [R] is what the comparison of characters [eqc] decides, on the characters at hand. *)
Definition decides (eqc : N -> N -> bool) (R : N -> N -> Prop) (hay needle : list N) : Prop :=
  forall a b, In a hay -> In b needle -> (eqc a b = true <-> R a b).
Lemma lpos_ex_correct eqc R w hv nv hay needle index count : decides eqc R hay needle ->
  views w hv hay -> views w nv needle -> ~ In 0 needle -> index + count < W64 ->
  exists st r, slpos_ex eqc hv nv index count w = Ok (st, r) w /\ lpos_result R hay needle index count st r.
Proof.
  intros D VH VN NN J. destruct (slpos_ex_ok eqc w hv nv hay needle index count VH VN NN J) as (st & r & E & K).
  exists st, r. split; [exact E|]. unfold lpos_answer in K. unfold lpos_result. destruct (_ <? _); [exact K|].
  destruct (_ =? _); [exact K|]. destruct K as [K1 K2]. split; [exact K1|]. eapply first_occurrence_ext; [exact D|exact K2].
Qed.
Lemma lpos_correct eqc R w hv nv hay needle : decides eqc R hay needle ->
  views w hv hay -> views w nv needle -> ~ In 0 needle ->
  exists st r, slpos eqc hv nv w = Ok (st, r) w /\ lpos_result R hay needle 0 (nlen hay) st r.
Proof.
  intros D VH VN NN. pose proof VH as (SH & LH & _). unfold slpos. rewrite SH, wsub_small by lia.
  replace (nlen hay + 1 - 1) with (nlen hay) by lia. apply lpos_ex_correct; auto. lia.
Qed.
Lemma rpos_ex_correct eqc R w hv nv hay needle index count : decides eqc R hay needle ->
  views_part w hv hay -> views_part w nv needle ->
  exists st r, srpos_ex eqc hv nv index count w = Ok (st, r) w /\ rpos_result R hay needle index count st r.
Proof.
  intros D VH VN. destruct (srpos_ex_ok eqc w hv nv hay needle index count VH VN) as (st & r & E & K).
  exists st, r. split; [exact E|]. unfold rpos_answer in K. unfold rpos_result. destruct (_ || _); [exact K|].
  destruct (_ =? _); [exact K|]. destruct K as [K1 K2]. split; [exact K1|]. eapply last_occurrence_ext; [exact D|exact K2].
Qed.
Lemma rpos_correct eqc R w hv nv hay needle : decides eqc R hay needle ->
  views_part w hv hay -> views_part w nv needle ->
  exists st r, srpos eqc hv nv w = Ok (st, r) w /\ rpos_result R hay needle (nlen hay) (nlen hay) st r.
Proof.
  intros D VH VN. pose proof VH as (SH & LH & _). unfold srpos. rewrite SH, wsub_small by lia.
  replace (nlen hay + 1 - 1) with (nlen hay) by lia. apply rpos_ex_correct; auto.
Qed.
Lemma decides_cs hay needle : decides eq_cs eq hay needle.
Proof. intros a b _ _. unfold eq_cs. apply N.eqb_eq. Qed.

Lemma lxor32 a : 32 <= a < 128 -> N.lxor a 32 = if (64 <=? a) && (a <? 96) then a + 32 else a - 32.
Proof.
  intros H. replace a with (32 + N.of_nat (N.to_nat (a - 32))) by lia.
  assert (B : (N.to_nat (a - 32) < 96)%nat) by lia. generalize dependent (N.to_nat (a - 32)).
  clear H. intros k B. do 96 (destruct k as [|k]; [reflexivity|]). lia.
Qed.
Lemma eq_ci_plain a b : plain a -> plain b -> eq_ci a b = true <-> same_letter a b.
Proof.
  unfold plain, eq_ci, same_letter, to_lower. intros PA PB. rewrite lxor32 by lia.
  destruct ((64 <=? a) && (a <? 96)) eqn:E1; destruct ((65 <=? a) && (a <=? 90)) eqn:E2;
    destruct ((65 <=? b) && (b <=? 90)) eqn:E3; rewrite orb_true_iff, !N.eqb_eq; lia.
Qed.
Lemma decides_ci hay needle : Forall plain hay -> Forall plain needle -> decides eq_ci same_letter hay needle.
Proof.
  intros H1 H2 a b A B. rewrite Forall_forall in H1, H2. apply eq_ci_plain; auto.
Qed.

(** ** C20, C21: comparing *)
Lemma eq_cs_refl c : eq_cs c c = true.
Proof. apply N.eqb_refl. Qed.
Lemma eq_ci_refl c : eq_ci c c = true.
Proof. unfold eq_ci. now rewrite N.eqb_refl. Qed.
Lemma forall2_nlen (Q : N -> N -> Prop) a b : Forall2 Q a b -> nlen a = nlen b.
Proof. intros F. unfold nlen. f_equal. induction F; cbn; congruence. Qed.
Lemma forall2_eq (a : list N) : forall b, Forall2 eq a b <-> a = b.
Proof.
  induction a as [|x a IH]; intros b; split.
  - intros H. now inversion H.
  - intros <-. constructor.
  - intros H. inversion H; subst. f_equal. now apply IH.
  - intros <-. constructor; [reflexivity|]. now apply IH.
Qed.
Lemma forall2_iff (R R' : N -> N -> Prop) a b : (forall x y, In x a -> In y b -> (R x y <-> R' x y)) ->
  Forall2 R a b -> Forall2 R' a b.
Proof.
  intros H F. induction F as [|x y a b XY F IH]; constructor.
  - apply H; auto; now left.
  - apply IH. intros u v U V. apply H; now right.
Qed.
Lemma first_diff_not eqc a b x y : first_diff eqc a b x y -> ~ Forall2 (fun u v => eqc u v = true) a b.
Proof.
  intros (k & L & A & X & Y & D) F. apply forall2_nnth in F as [LN F]. destruct (F k) as (x' & y' & X' & Y' & XY); [lia|].
  rewrite X in X'. rewrite Y in Y'. injection X' as ->. injection Y' as ->. congruence.
Qed.
(** Compare and CompareI return 0 exactly when the strings match character by character. *)
Lemma compare_zero eqc R w v1 v2 a b : decides eqc R a b -> (forall c, eqc c c = true) ->
  views w v1 a -> views w v2 b ->
  exists st r, scompare eqc v1 v2 w = Ok (st, r) w /\
    ((Forall2 R a b /\ st = ST_TRUE /\ r = 0%Z) \/ (~ Forall2 R a b /\ st = ST_FALSE /\ (r = 1 \/ r = -1)%Z)).
Proof.
  intros D RF V1 V2. destruct (scompare_ok eqc w v1 v2 a b V1 V2 RF) as (st & r & E & K).
  exists st, r. split; [exact E|].
  assert (LEN : forall Q, Forall2 Q a b -> nlen a = nlen b).
  { intros Q F. eapply forall2_nlen; eauto. }
  destruct K as [(L & -> & ->)|[(L & -> & ->)|[(F & -> & ->)|(L & -> & x & y & FD & ->)]]].
  - right. split; [|split; [reflexivity|now right]]. intros F. apply LEN in F. lia.
  - right. split; [|split; [reflexivity|now left]]. intros F. apply LEN in F. lia.
  - left. split; [|now split]. eapply forall2_iff; [|exact F]. exact D.
  - right. split; [|split; [reflexivity|]].
    + intros F. apply first_diff_not in FD. apply FD. eapply forall2_iff; [|exact F].
      intros u v U V. symmetry. now apply D.
    + destruct (_ <? _)%Z; [now right|now left].
Qed.
Lemma compare_correct w v1 v2 a b : views w v1 a -> views w v2 b ->
  exists st r, scompare eq_cs v1 v2 w = Ok (st, r) w /\
    ((a = b /\ st = ST_TRUE /\ r = 0%Z) \/ (a <> b /\ st = ST_FALSE /\ (r = 1 \/ r = -1)%Z)).
Proof.
  intros V1 V2. destruct (compare_zero eq_cs eq w v1 v2 a b (decides_cs a b) eq_cs_refl V1 V2) as (st & r & E & K).
  exists st, r. split; [exact E|]. rewrite forall2_eq in K. exact K.
Qed.

(** The order the comparison functions implement: by length, then by the first characters that differ in their
    value as signed characters with bit 5 set. *)
Definition fold32 (c : N) : Z := schar (N.lor c 32).
Fixpoint lex_sign (a b : list N) : Z :=
  match a, b with
  | x :: a', y :: b' =>
      if (fold32 x <? fold32 y)%Z then (-1)%Z else if (fold32 y <? fold32 x)%Z then 1%Z else lex_sign a' b'
  | _, _ => 0%Z
  end.
Definition order_sign (a b : list N) : Z :=
  if nlen a <? nlen b then (-1)%Z else if nlen b <? nlen a then 1%Z else lex_sign a b.
Lemma lex_sign_eq a : forall b, Forall2 (fun x y => fold32 x = fold32 y) a b -> lex_sign a b = 0%Z.
Proof.
  induction a as [|x a IH]; intros b F; inversion F as [|? y ? b' E F']; subst; [reflexivity|]. cbn. rewrite E.
  rewrite Z.ltb_irrefl. now apply IH.
Qed.
Lemma lex_sign_diff x y : fold32 x <> fold32 y -> forall k a b,
  agree (fun x y => fold32 x = fold32 y) a b 0 0 k -> nnth k a = Some x -> nnth k b = Some y ->
  lex_sign a b = if (fold32 x <? fold32 y)%Z then (-1)%Z else 1%Z.
Proof.
  intros D k. induction k as [|k IH] using N.peano_ind; intros a b A X Y.
  - destruct a as [|x' a], b as [|y' b]; try discriminate. injection X as ->. injection Y as ->. cbn.
    destruct (Z.ltb_spec (fold32 x) (fold32 y)); [reflexivity|]. destruct (Z.ltb_spec (fold32 y) (fold32 x)); lia.
  - destruct a as [|x' a]; [rewrite nnth_ge in X by (change (nlen (@nil N)) with 0; lia); discriminate|]. destruct b as [|y' b]; [rewrite nnth_ge in Y by (change (nlen (@nil N)) with 0; lia); discriminate|].
    rewrite <- N.add_1_r, N.add_comm in *. rewrite nnth_cons in X, Y.
    destruct (A 0) as (u & v & U & V & UV); [lia|]. cbn in U, V. injection U as <-. injection V as <-.
    cbn. rewrite UV, Z.ltb_irrefl. apply IH; auto.
    intros t T. destruct (A (1 + t)) as (u & v & U & V & UV2); [lia|].
    rewrite !N.add_0_l in *. rewrite nnth_cons in U, V. now exists u, v.
Qed.
Lemma compare_order eqc w v1 v2 a b : decides eqc (fun x y => fold32 x = fold32 y) a b -> (forall c, eqc c c = true) ->
  views w v1 a -> views w v2 b ->
  exists st, scompare eqc v1 v2 w = Ok (st, order_sign a b) w.
Proof.
  intros D RF V1 V2. destruct (scompare_ok eqc w v1 v2 a b V1 V2 RF) as (st & r & E & K).
  exists st. rewrite E. do 2 f_equal. unfold order_sign.
  destruct K as [(L & _ & ->)|[(L & _ & ->)|[(F & _ & ->)|(L & _ & x & y & (k & LK & A & X & Y & NE) & ->)]]].
  - destruct (N.ltb_spec (nlen a) (nlen b)); [reflexivity|lia].
  - destruct (N.ltb_spec (nlen a) (nlen b)); [lia|]. destruct (N.ltb_spec (nlen b) (nlen a)); [reflexivity|lia].
  - assert (LEN : nlen a = nlen b). { eapply forall2_nlen; eauto. }
    rewrite LEN, N.ltb_irrefl. symmetry. apply lex_sign_eq. eapply forall2_iff; [|exact F]. exact D.
  - rewrite L, N.ltb_irrefl. symmetry.
    assert (IN : forall (l : list N) i c, nnth i l = Some c -> In c l).
    { intros l i c NC. unfold nnth in NC. eapply nth_error_In; eauto. }
    apply (lex_sign_diff x y) with (k := k); auto.
    + intros Q. apply (D x y) in Q; eauto. congruence.
    + intros t T. destruct (A t T) as (u & v & U & V & UV). exists u, v. split; [exact U|]. split; [exact V|].
      apply (D u v); eauto.
Qed.
Lemma lex_sign_sym a : forall b, lex_sign b a = (- lex_sign a b)%Z.
Proof.
  induction a as [|x a IH]; intros [|y b]; try reflexivity. cbn.
  destruct (Z.ltb_spec (fold32 x) (fold32 y)), (Z.ltb_spec (fold32 y) (fold32 x)); rewrite ?IH; lia.
Qed.
Lemma order_sign_sym a b : order_sign b a = (- order_sign a b)%Z.
Proof.
  unfold order_sign. destruct (N.ltb_spec (nlen a) (nlen b)), (N.ltb_spec (nlen b) (nlen a)); try lia; try reflexivity.
  apply lex_sign_sym.
Qed.
Lemma lex_sign_trans a : forall b c, nlen a = nlen b -> nlen b = nlen c ->
  (lex_sign a b <= 0 -> lex_sign b c <= 0 -> lex_sign a c <= 0)%Z.
Proof.
  induction a as [|x a IH]; intros [|y b] [|z c] L1 L2; try (rewrite !nlen_cons in *; change (nlen (@nil N)) with 0 in *; lia).
  { cbn. lia. }
  cbn. rewrite !nlen_cons in *. specialize (IH b c ltac:(lia) ltac:(lia)).
  destruct (Z.ltb_spec (fold32 x) (fold32 y)), (Z.ltb_spec (fold32 y) (fold32 x)), (Z.ltb_spec (fold32 y) (fold32 z)),
    (Z.ltb_spec (fold32 z) (fold32 y)), (Z.ltb_spec (fold32 x) (fold32 z)), (Z.ltb_spec (fold32 z) (fold32 x)); lia.
Qed.
Lemma order_sign_trans a b c : (order_sign a b <= 0 -> order_sign b c <= 0 -> order_sign a c <= 0)%Z.
Proof.
  unfold order_sign. destruct (N.ltb_spec (nlen a) (nlen b)), (N.ltb_spec (nlen b) (nlen a)), (N.ltb_spec (nlen b) (nlen c)),
    (N.ltb_spec (nlen c) (nlen b)), (N.ltb_spec (nlen a) (nlen c)), (N.ltb_spec (nlen c) (nlen a)); try lia.
  apply lex_sign_trans; lia.
Qed.

(** The comparison functions are a total preorder on any three strings of a class on which "equal" characters are
    those with equal folded values. *)
Definition class_ok (eqc : N -> N -> bool) (P : N -> Prop) : Prop :=
  (forall c, eqc c c = true) /\ forall x y, P x -> P y -> (eqc x y = true <-> fold32 x = fold32 y).
Lemma class_decides eqc P a b : class_ok eqc P -> Forall P a -> Forall P b -> decides eqc (fun x y => fold32 x = fold32 y) a b.
Proof. intros [_ H] FA FB x y X Y. rewrite Forall_forall in FA, FB. apply H; auto. Qed.
Lemma compare_antisym eqc P w v1 v2 a b : class_ok eqc P -> Forall P a -> Forall P b -> views w v1 a -> views w v2 b ->
  exists st st' r, scompare eqc v1 v2 w = Ok (st, r) w /\ scompare eqc v2 v1 w = Ok (st', (- r)%Z) w.
Proof.
  intros C FA FB V1 V2. destruct (compare_order eqc w v1 v2 a b (class_decides _ _ _ _ C FA FB) (proj1 C) V1 V2) as [st E].
  destruct (compare_order eqc w v2 v1 b a (class_decides _ _ _ _ C FB FA) (proj1 C) V2 V1) as [st' E'].
  rewrite order_sign_sym in E'. eauto.
Qed.
Lemma compare_trans eqc P w v1 v2 v3 a b c : class_ok eqc P -> Forall P a -> Forall P b -> Forall P c ->
  views w v1 a -> views w v2 b -> views w v3 c ->
  exists st12 r12 st23 r23 st13 r13,
    scompare eqc v1 v2 w = Ok (st12, r12) w /\ scompare eqc v2 v3 w = Ok (st23, r23) w /\
    scompare eqc v1 v3 w = Ok (st13, r13) w /\ (r12 <= 0 -> r23 <= 0 -> r13 <= 0)%Z.
Proof.
  intros C FA FB FC V1 V2 V3.
  destruct (compare_order eqc w v1 v2 a b (class_decides _ _ _ _ C FA FB) (proj1 C) V1 V2) as [s1 E1].
  destruct (compare_order eqc w v2 v3 b c (class_decides _ _ _ _ C FB FC) (proj1 C) V2 V3) as [s2 E2].
  destruct (compare_order eqc w v1 v3 a c (class_decides _ _ _ _ C FA FC) (proj1 C) V1 V3) as [s3 E3].
  exists s1, (order_sign a b), s2, (order_sign b c), s3, (order_sign a c). repeat (split; [eassumption|]).
  apply order_sign_trans.
Qed.

Lemma all_bytes (P : N -> bool) : forallb P (map N.of_nat (seq 0 256)) = true -> forall c, c < 256 -> P c = true.
Proof.
  intros H c L. rewrite forallb_forall in H. apply H. replace c with (N.of_nat (N.to_nat c)) by lia. apply in_map, in_seq. lia.
Qed.
(** CompareI: any bytes. *)
Lemma class_ci : class_ok eq_ci (fun c => c < 256).
Proof.
  split; [exact eq_ci_refl|]. intros x y X Y.
  pose proof (all_bytes (fun x => forallb (fun y => Bool.eqb (eq_ci x y) (fold32 x =? fold32 y)%Z) (map N.of_nat (seq 0 256)))
    ltac:(vm_compute; reflexivity) x X) as H. cbv beta in H.
  pose proof (all_bytes _ H y Y) as K. cbv beta in K. apply Bool.eqb_prop in K. rewrite K. apply Z.eqb_eq.
Qed.
(** Compare: bytes with bit 5 set. *)
Lemma class_cs : class_ok eq_cs bit5.
Proof.
  split; [exact eq_cs_refl|]. intros x y [X BX] [Y BY].
  pose proof (all_bytes (fun x => forallb (fun y => implb (N.testbit x 5 && N.testbit y 5)
     (Bool.eqb (eq_cs x y) (fold32 x =? fold32 y)%Z)) (map N.of_nat (seq 0 256)))
    ltac:(vm_compute; reflexivity) x X) as H. cbv beta in H.
  pose proof (all_bytes _ H y Y) as K. cbv beta in K. rewrite BX, BY in K. cbn [andb implb] in K.
  apply Bool.eqb_prop in K. rewrite K. apply Z.eqb_eq.
Qed.

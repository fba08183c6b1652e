(** Proofs about the list: whole histories of calls. *)
From Coq Require Import Permutation.
From Verif Require Import Base NListFacts Status Mem MemFacts VectorModel VectorDriver ListModel ListSpec ListDriver ListHeap ListRep ListProofs ListProofs2.
From Coq Require Import ZifyBool ZifyNat ZifyN.
Implicit Types (w : world) (h : memory) (p q : ptr).

Section Final.
  Variables (e : N) (d : option (list cell -> list cell)) (m : mode).
  Notation lrep := (lrep e d m).
  Notation step := (step m).
  Notation limit := (limit_of e m).

  (** ** Arguments of the caller *)
  Definition argw w (x : list cell) : world := mkbuild (hset (heap w) (nextb w) (Some x)) (nextb w + 1) (orc w) (tick w) (dlog w) (checked w).
  Definition dropw w (b : N) : world := set_heap w (hset (heap w) b None).
  Lemma with_arg_ok {A} x (k : option ptr -> M A) w a w' : k (Some (mkptr (nextb w) 0)) (argw w x) = Ok a w' ->
    with_arg x k w = Ok a (dropw w' (nextb w)).
  Proof. unfold with_arg, argw, dropw. now intros ->. Qed.
  Lemma free_heap h h' us : (forall q, In q us -> h' (pb q) = h (pb q)) -> free e h us -> free e h' us.
  Proof.
    induction us as [|u us IH]; intros S; [trivial|]. intros ((r1 & x & (a & c & H & L) & LL) & F). split.
    - exists r1, x. split; [|exact LL]. exists a, c. split; [|exact L]. rewrite S by now left. exact H.
    - apply IH; auto. intros q I. apply S. now right.
  Qed.
  Lemma pool_blocks base w un ps us : world_ok w -> pool e m base (heap w) un ps us ->
    (forall q, In q (ps ++ us) -> pb q <> nextb w) /\ base (nextb w) = None /\
    match m with Grow => True | Fixed b _ _ _ => b <> nextb w end.
  Proof.
    intros WO P. unfold pool in P. destruct m as [|b pre post cap].
    - destruct P as (A & -> & C & D & E). rewrite app_nil_r. assert (X : forall q, In q ps -> pb q <> nextb w).
      { intros q I EQ. destruct (D q I) as (_ & _ & x & H & _). rewrite EQ, WO in H by lia. discriminate. }
      split; [exact X|]. split; [|exact I]. rewrite <- E; [apply WO; lia|]. intros I. apply in_map_iff in I as (q & EQ & I). now apply (X q).
    - destruct P as (A & (buf & B & _) & (k & K & C) & D & E).
      assert (NB : b <> nextb w) by (intros ->; rewrite WO in B by lia; discriminate).
      split; [|split; [rewrite <- E by congruence; apply WO; lia|exact NB]].
      intros q I. assert (IS : In q (slots e b pre k)) by (eapply Permutation_in; eauto).
      destruct (slot_inside _ _ _ _ _ _ IS K) as (-> & _). exact NB.
  Qed.
  Lemma enter base w l ps xs us x : lrep base w l ps xs us -> nlen x = e ->
    lrep (hset base (nextb w) (Some x)) (argw w x) l ps xs us /\ outside e m (hset base (nextb w) (Some x)) (mkptr (nextb w) 0) x.
  Proof.
    intros (WO & CF & SZ & SZW & HD & TL & CH & P) LX. destruct (pool_blocks _ _ _ _ _ WO P) as (NB & BN & MB).
    assert (SAME : forall k, k <> nextb w -> heap (argw w x) k = heap w k).
    { intros k NK. cbn. unfold hset. now destruct (N.eqb_spec k (nextb w)). }
    assert (NEW : heap (argw w x) (nextb w) = Some x) by (cbn; unfold hset; now rewrite N.eqb_refl).
    split.
    - split. { intros k K. cbn in K. rewrite SAME by lia. apply WO. lia. }
      split; [exact CF|]. split; [exact SZ|]. split; [exact SZW|]. split; [exact HD|]. split; [exact TL|]. split.
      + eapply chain_heap; [|exact CH]. intros q I. apply SAME. apply NB. apply in_or_app. now left.
      + unfold pool in *. destruct m as [|b pre post cap].
        * destruct P as (A & -> & C & D & E). rewrite app_nil_r in NB. split; [exact A|]. split; [reflexivity|]. split; [exact C|]. split.
          -- intros p I. destruct (D p I) as (D1 & D2 & D3). rewrite SAME by now apply NB. split; [exact D1|]. split; [|exact D3].
             unfold hset. destruct (N.eqb_spec (pb p) (nextb w)) as [EQ|]; [|exact D2]. now apply NB in EQ.
          -- intros k NI. unfold hset at 1. destruct (N.eqb_spec k (nextb w)) as [->|NE]; [exact NEW|]. rewrite SAME by exact NE. now apply E.
        * destruct P as (A & B & C & D & E). split; [exact A|]. split; [rewrite SAME by exact MB; exact B|]. split; [exact C|]. split.
          -- eapply free_heap; [|exact D]. intros q I. apply SAME. apply NB. apply in_or_app. now right.
          -- intros k NK. unfold hset at 1. destruct (N.eqb_spec k (nextb w)) as [->|NE]; [exact NEW|]. rewrite SAME by exact NE. now apply E.
    - split; [cbn; unfold hset; now rewrite N.eqb_refl|]. split; [reflexivity|]. split; [exact LX|]. destruct m; [exact I|]. cbn. congruence.
  Qed.
  Lemma leave base k x w l ps xs us : base k = None -> lrep (hset base k (Some x)) w l ps xs us ->
    match m with Grow => True | Fixed b _ _ _ => b <> k end -> lrep base (dropw w k) l ps xs us.
  Proof.
    intros BN (WO & CF & SZ & SZW & HD & TL & CH & P) MB.
    assert (SAME : forall j, j <> k -> heap (dropw w k) j = heap w j).
    { intros j NJ. cbn. unfold hset. now destruct (N.eqb_spec j k). }
    assert (GONE : heap (dropw w k) k = None) by (cbn; unfold hset; now rewrite N.eqb_refl).
    assert (NB : forall q, In q (ps ++ us) -> pb q <> k).
    { unfold pool in P. destruct m as [|b pre post cap].
      - destruct P as (A & -> & C & D & E). rewrite app_nil_r. intros q I EQ. destruct (D q I) as (_ & D2 & _).
        unfold hset in D2. rewrite EQ, N.eqb_refl in D2. discriminate.
      - destruct P as (A & _ & (n & K & C) & D & E). intros q I. assert (IS : In q (slots e b pre n)) by (eapply Permutation_in; eauto).
        destruct (slot_inside _ _ _ _ _ _ IS K) as (-> & _). exact MB. }
    split. { intros j J. destruct (N.eq_dec j k) as [->|NE]; [exact GONE|]. rewrite SAME by exact NE. now apply WO. }
    split; [exact CF|]. split; [exact SZ|]. split; [exact SZW|]. split; [exact HD|]. split; [exact TL|]. split.
    - eapply chain_heap; [|exact CH]. intros q I. apply SAME. apply NB. apply in_or_app. now left.
    - unfold pool in *. destruct m as [|b pre post cap].
      + destruct P as (A & -> & C & D & E). rewrite app_nil_r in NB. split; [exact A|]. split; [reflexivity|]. split; [exact C|]. split.
        * intros p I. destruct (D p I) as (D1 & D2 & D3). rewrite SAME by now apply NB. split; [exact D1|]. split; [|exact D3].
          unfold hset in D2. destruct (N.eqb_spec (pb p) k) as [EQ|]; [discriminate|exact D2].
        * intros j NI. destruct (N.eq_dec j k) as [->|NE]; [now rewrite GONE, BN|]. rewrite SAME by exact NE. rewrite E by exact NI.
          unfold hset. now destruct (N.eqb_spec j k).
      + destruct P as (A & B & C & D & E). split; [exact A|]. split; [rewrite SAME by exact MB; exact B|]. split; [exact C|]. split.
        * eapply free_heap; [|exact D]. intros q I. apply SAME. apply NB. apply in_or_app. now right.
        * intros j NJ. destruct (N.eq_dec j k) as [->|NE]; [now rewrite GONE, BN|]. rewrite SAME by exact NE. rewrite E by exact NJ.
          unfold hset. now destruct (N.eqb_spec j k).
  Qed.

  (** ** One call *)
  Lemma run_lop_ok base w l ps xs us o : lrep base w l ps xs us -> larg_ok e o -> nlen xs + ldemand o < W64 ->
    exists w' l' r ps' us' xs' gone new, run_lop l o w = Ok (r, l') w' /\ lspec e limit (fails w) o xs r xs' gone new /\
      lrep base w' l' ps' xs' us' /\ step w w' (seen d gone) /\ lnodes o r ps ps'.
  Proof.
    intros REP AO SW. pose proof REP as (WO & CF & SZ & SZW & HD & TL & CH & P).
    destruct (pool_blocks _ _ _ _ _ WO P) as (_ & BN & MB).
    destruct o as [x|x|f s|f s| | | |n init|i x]; cbn [run_lop larg_ok ldemand lspec lnodes] in *.
    - destruct (enter _ _ _ _ _ _ x REP AO) as [REP1 O1].
      destruct (push_back_ok e d m _ _ _ _ _ _ _ _ REP1 SW O1) as (w' & l' & r & ps' & us' & xs' & new & E & AD & REP' & S & ND).
      exists (dropw w' (nextb w)), l', r, ps', us', xs', [], new. split; [now apply with_arg_ok|]. rewrite seen_nil.
      split; [split; [exact AD|reflexivity]|]. split; [eapply leave; eauto|]. split; [exact S|exact ND].
    - destruct (enter _ _ _ _ _ _ x REP AO) as [REP1 O1].
      destruct (push_front_ok e d m _ _ _ _ _ _ _ _ REP1 SW O1) as (w' & l' & r & ps' & us' & xs' & new & E & AD & REP' & S & ND).
      exists (dropw w' (nextb w)), l', r, ps', us', xs', [], new. split; [now apply with_arg_ok|]. rewrite seen_nil.
      split; [split; [exact AD|reflexivity]|]. split; [eapply leave; eauto|]. split; [exact S|exact ND].
    - destruct AO as [CO SO].
      destruct (emplace_back_ok e d m _ _ _ _ _ _ f s REP SW CO SO) as (w' & l' & r & ps' & us' & xs' & new & x & E & EM & AD & REP' & S & ND).
      exists w', l', r, ps', us', xs', [], new. rewrite seen_nil. split; [exact E|]. split; [split; [reflexivity|eauto]|].
      split; [exact REP'|]. split; [exact S|exact ND].
    - destruct AO as [CO SO].
      destruct (emplace_front_ok e d m _ _ _ _ _ _ f s REP SW CO SO) as (w' & l' & r & ps' & us' & xs' & new & x & E & EM & AD & REP' & S & ND).
      exists w', l', r, ps', us', xs', [], new. rewrite seen_nil. split; [exact E|]. split; [split; [reflexivity|eauto]|].
      split; [exact REP'|]. split; [exact S|exact ND].
    - destruct (snoc_case ps) as [->|(ps0 & t & ->)].
      + destruct xs; [|contradiction]. exists w, l, ST_INVALID_OPERATION, [], us, [], [], [].
        split. { unfold lpop_back. rewrite TL. reflexivity. }
        split; [split; [reflexivity|left; now repeat split]|]. split; [exact REP|]. split; [rewrite seen_nil; apply step_refl|reflexivity].
      + destruct (split_snoc _ _ _ _ _ _ _ CH) as (xs0 & z & -> & _ & _).
        destruct (pop_back_ok e d m _ _ _ _ _ _ _ _ REP) as (w' & l' & us' & E & REP' & S).
        exists w', l', ST_SUCCESS, ps0, us', xs0, [z], []. split; [exact E|]. split; [split; [reflexivity|right; exists z; split; [reflexivity|split; reflexivity]]|].
        split; [exact REP'|]. split; [exact S|]. cbn. eauto.
    - destruct ps as [|p ps], xs as [|z xs]; try contradiction.
      + exists w, l, ST_INVALID_OPERATION, [], us, [], [], [].
        split. { unfold lpop_front. rewrite HD. reflexivity. }
        split; [split; [reflexivity|left; now repeat split]|]. split; [exact REP|]. split; [rewrite seen_nil; apply step_refl|reflexivity].
      + destruct (pop_front_ok e d m _ _ _ _ _ _ _ _ REP) as (w' & l' & us' & E & REP' & S).
        exists w', l', ST_SUCCESS, ps, us', xs, [z], []. split; [exact E|]. split; [split; [reflexivity|right; exists z; split; [reflexivity|split; reflexivity]]|].
        split; [exact REP'|]. split; [exact S|]. cbn. eauto.
    - destruct (resize_ok e d m base w l ps xs us 0 None None REP) as (w' & l' & r & ps' & us' & xs' & gone & new & E & SP & REP' & S & ND); [reflexivity|exact I|].
      exists w', l', r, ps', us', xs', gone, new. split; [exact E|]. split; [exact SP|]. split; [exact REP'|]. split; [exact S|].
      cbn [lnodes] in ND. replace (0 <=? nlen ps) with true in ND by (symmetry; apply N.leb_le; lia). exact ND.
    - assert (NW : n < W64) by lia. destruct init as [x|]; cbn [with_opt].
      + destruct (enter _ _ _ _ _ _ x REP AO) as [REP1 O1].
        destruct (resize_ok e d m _ _ _ _ _ _ n (Some (mkptr (nextb w) 0)) (Some x) REP1 NW O1)
          as (w' & l' & r & ps' & us' & xs' & gone & new & E & SP & REP' & S & ND).
        exists (dropw w' (nextb w)), l', r, ps', us', xs', gone, new. split; [now apply with_arg_ok|].
        split; [exact SP|]. split; [eapply leave; eauto|]. split; [exact S|exact ND].
      + destruct (resize_ok e d m base w l ps xs us n None None REP NW I) as (w' & l' & r & ps' & us' & xs' & gone & new & E & SP & REP' & S & ND).
        exists w', l', r, ps', us', xs', gone, new. split; [exact E|]. split; [exact SP|]. split; [exact REP'|]. split; [exact S|exact ND].
    - unfold nth_node, lget_head. cbn [snd]. rewrite HD. rewrite (bind_ok _ _ _ _ _ (walk_ok e (N.to_nat i) w _ _ _ CH)).
      pose proof (chain_length _ _ _ _ _ _ CH) as LP.
      destruct (nnth i xs) as [y|] eqn:EN.
      + apply nnth_some in EN as (xs1 & xs2 & -> & LI).
        rewrite app_length in LP. cbn in LP. assert (LI' : (N.to_nat i < length ps)%nat) by (unfold nlen in LI; lia).
        destruct (nth_error ps (N.to_nat i)) as [p|] eqn:EP; [|apply nth_error_None in EP; lia].
        apply nth_error_split in EP as (ps1 & ps2 & -> & LP1).
        assert (LE : length ps1 = length xs1) by (unfold nlen in LI; lia).
        destruct (enter _ _ _ _ _ _ x REP AO) as [REP1 O1].
        destruct (set_data_ok e d m _ _ _ _ _ _ _ _ _ _ _ _ LE REP1 O1) as (w' & E & REP' & S).
        exists (dropw w' (nextb w)), l, ST_SUCCESS, (ps1 ++ p :: ps2), us, (xs1 ++ x :: xs2), [y], [x].
        split; [apply with_arg_ok; now rewrite (bind_ok _ _ _ _ _ E)|]. split.
        { split; [reflexivity|]. split; [|now split]. rewrite nfirst_app_l by exact LI.
          change (xs1 ++ y :: xs2) with (xs1 ++ [y] ++ xs2). rewrite (app_assoc xs1 [y] xs2), nskip_app_l; [reflexivity|].
          rewrite nlen_app. change (nlen [y]) with 1. lia. }
        split; [eapply leave; eauto|]. split; [exact S|reflexivity].
      + assert (GE : nth_error ps (N.to_nat i) = None).
        { apply nth_error_None. unfold nnth in EN. apply nth_error_None in EN. lia. }
        rewrite GE. destruct (enter _ _ _ _ _ _ x REP AO) as [REP1 O1].
        exists (dropw (argw w x) (nextb w)), l, ST_INVALID_ARGUMENT, ps, us, xs, [], [].
        split; [now apply with_arg_ok|]. split; [now repeat split|]. split; [eapply leave; eauto|]. split; [rewrite seen_nil; exact (step_refl m w)|reflexivity].
  Qed.

  (** The number of elements grows by the demand at most. *)
  Lemma lspec_size (f : Prop) (o : op) xs r xs' gone new : lspec e limit f o xs r xs' gone new -> nlen xs' <= nlen xs + ldemand o.
  Proof.
    destruct o as [x|x|g s|g s| | | |n init|i x]; cbn [lspec ldemand].
    - intros ([(_ & _ & -> & _)|(_ & -> & _)] & _); [rewrite nlen_app; change (nlen [x]) with 1|]; lia.
    - intros ([(_ & _ & -> & _)|(_ & -> & _)] & _); [rewrite nlen_cons|]; lia.
    - intros (_ & x & _ & [(_ & _ & -> & _)|(_ & -> & _)]); [rewrite nlen_app; change (nlen [x]) with 1|]; lia.
    - intros (_ & x & _ & [(_ & _ & -> & _)|(_ & -> & _)]); [rewrite nlen_cons|]; lia.
    - intros (_ & [(-> & _ & -> & _)|(x & -> & _)]); [lia|]. rewrite nlen_app. lia.
    - intros (_ & [(-> & _ & -> & _)|(x & -> & _)]); [lia|]. rewrite nlen_cons. lia.
    - intros (_ & -> & _). apply N.le_0_l.
    - destruct (N.eqb_spec n 0); [intros (_ & -> & _); apply N.le_0_l|]. destruct (N.leb_spec n (nlen xs)).
      + intros (_ & -> & _). rewrite nlen_nfirst. lia.
      + intros (_ & _ & _ & [(L & _)|(L & _)]); lia.
    - destruct (nnth i xs) as [y|] eqn:EN; [|intros (_ & -> & _); lia]. intros (_ & -> & _).
      apply nnth_some in EN as (a & c & -> & LI). rewrite nfirst_app_l by exact LI.
      change (a ++ y :: c) with (a ++ [y] ++ c). rewrite (app_assoc a [y] c), nskip_app_l by (rewrite nlen_app; change (nlen [y]) with 1; lia).
      rewrite !nlen_app. change (nlen [x]) with 1. change (nlen [y]) with 1. lia.
  Qed.

  Lemma run_lops_ok base ops : forall w l ps xs us, lrep base w l ps xs us -> Forall (larg_ok e) ops -> nlen xs + ldemands ops < W64 ->
    exists w' l' rs ps' us' xs' gone new, run_lops l ops w = Ok (rs, l') w' /\ lspecs e limit (fails w) ops xs rs xs' gone new /\
      lrep base w' l' ps' xs' us' /\ step w w' (seen d gone).
  Proof.
    induction ops as [|o ops IH]; intros w l ps xs us REP AO SW.
    - exists w, l, [], ps, us, xs, [], []. split; [reflexivity|]. split; [constructor|]. split; [exact REP|]. rewrite seen_nil. apply step_refl.
    - apply Forall_cons_iff in AO as [AO AOS]. cbn [ldemands] in SW.
      destruct (run_lop_ok base w l ps xs us o REP AO) as (w1 & l1 & r & ps1 & us1 & xs1 & gone1 & new1 & E & SP & REP1 & S1 & _); [lia|].
      pose proof (lspec_size _ _ _ _ _ _ _ SP) as LS.
      destruct (IH w1 l1 ps1 xs1 us1 REP1 AOS) as (w2 & l2 & rs & ps2 & us2 & xs2 & gone2 & new2 & E2 & SP2 & REP2 & S2); [lia|].
      exists w2, l2, (r :: rs), ps2, us2, xs2, (gone1 ++ gone2), (new1 ++ new2). cbn [run_lops].
      rewrite (bind_ok _ _ _ _ _ E). split; [now rewrite (bind_ok _ _ _ _ _ E2)|]. split.
      { econstructor; [exact SP|]. replace (fails w) with (fails w1); [exact SP2|]. unfold fails. destruct S1 as (-> & _). reflexivity. }
      split; [exact REP2|]. rewrite seen_app. eapply step_trans; eauto.
  Qed.

  (** ** Traversal *)
  Lemma forward_ok w : forall ps xs pv, chain e (heap w) pv ps xs None -> traverse lget_next_node e (front ps None) (length xs) w = Ok (combine ps xs) w.
  Proof.
    induction ps as [|p ps IH]; intros [|x xs] pv CH; try contradiction; [reflexivity|]. destruct CH as [R C].
    cbn [front length traverse]. unfold lget_node_data. cbn [nonnull]. rewrite (bind_ok _ _ _ _ _ (data_read _ _ _ _ _ _ R)).
    unfold lget_next_node at 1. cbn [nonnull negb]. unfold bind at 1 2. rewrite (get_next_ok _ _ _ _ _ _ R). unfold ret at 1. cbv beta iota.
    change (negb (ST_SUCCESS =? ST_SUCCESS)) with false. cbv iota. rewrite (bind_ok _ _ _ _ _ (IH _ _ C)). reflexivity.
  Qed.
  Lemma backward_ok w : forall ps xs nx, chain e (heap w) None ps xs nx ->
    traverse lget_prev_node e (back None ps) (length xs) w = Ok (rev (combine ps xs)) w.
  Proof.
    induction ps as [|p ps IH] using rev_ind; intros xs nx CH.
    - destruct xs; [reflexivity|contradiction].
    - destruct (split_snoc _ _ _ _ _ _ _ CH) as (xs0 & x & -> & C & R). rewrite back_snoc, app_length. cbn [length].
      rewrite Nat.add_1_r. cbn [traverse]. unfold lget_node_data. cbn [nonnull]. rewrite (bind_ok _ _ _ _ _ (data_read _ _ _ _ _ _ R)).
      unfold lget_prev_node at 1. cbn [nonnull negb]. unfold bind at 1 2. rewrite (get_prev_ok _ _ _ _ _ _ R). unfold ret at 1. cbv beta iota.
      change (negb (ST_SUCCESS =? ST_SUCCESS)) with false. cbv iota. rewrite (bind_ok _ _ _ _ _ (IH _ _ C)). unfold ret. do 2 f_equal. pose proof (chain_length _ _ _ _ _ _ C) as L.
      assert (EC : combine (ps ++ [p]) (xs0 ++ [x]) = combine ps xs0 ++ [(p, x)]).
      { clear - L. revert xs0 L. induction ps as [|q ps IH]; intros [|y ys] L; try discriminate; [reflexivity|]. cbn. f_equal. apply IH. cbn in L. lia. }
      now rewrite EC, rev_app_distr.
  Qed.
  Lemma lrep_shows base w l ps xs us : lrep base w l ps xs us -> lshows w l ps xs.
  Proof.
    intros (WO & CF & SZ & SZW & HD & TL & CH & P). split; [eapply chain_length; eauto|]. split; [unfold lget_size; now rewrite SZ|]. split; [reflexivity|]. split; [reflexivity|].
    assert (EE : l_esz l = e) by apply CF. unfold lget_head, lget_tail. cbn [snd]. rewrite EE, HD, TL.
    split; [eapply forward_ok; eauto|eapply backward_ok; eauto].
  Qed.
  Lemma combine_inj {A B} (ps ps' : list A) (xs xs' : list B) : length ps = length xs -> length ps' = length xs' ->
    combine ps xs = combine ps' xs' -> ps = ps' /\ xs = xs'.
  Proof.
    revert xs ps' xs'. induction ps as [|p ps IH]; intros [|x xs] [|p' ps'] [|x' xs'] L L' E; try discriminate; [now split|].
    cbn in E. injection E as -> -> E. destruct (IH xs ps' xs') as [-> ->]; auto.
  Qed.
  Lemma shows_unique w l ps xs ps' xs' : lshows w l ps xs -> lshows w l ps' xs' -> ps = ps' /\ xs = xs'.
  Proof.
    intros (L & S & _ & _ & F & _) (L' & S' & _ & _ & F' & _). rewrite S in S'. injection S' as S'.
    assert (EL : length xs = length xs') by (unfold nlen in S'; lia). rewrite EL, F' in F. injection F as F.
    symmetry in F. now apply combine_inj.
  Qed.

  (** ** Destruction *)
  Lemma ldestroy_ok base w l ps xs us : lrep base w l ps xs us ->
    exists w', ldestroy l w = Ok (ST_SUCCESS, l) w' /\ world_ok w' /\ pool e m base (heap w') None [] [] /\ step w w' (seen d xs).
  Proof.
    intros REP. destruct (destroy_all_ok e d m base w l ps xs us REP) as (w' & E & WO & P & S).
    destruct REP as (_ & (EE & _ & _ & E0 & _) & _). exists w'. split; [|auto]. unfold ldestroy. rewrite EE.
    replace (negb (e =? 0)) with true by lia. unfold assert. unfold bind at 1. unfold ret at 1. cbv beta iota.
    now rewrite (bind_ok _ _ _ _ _ E).
  Qed.

  (** ** Every element that comes goes or stays *)
  Lemma lspec_balance (f : Prop) (o : op) xs r xs' gone new : lspec e limit f o xs r xs' gone new -> Permutation (xs ++ new) (gone ++ xs').
  Proof.
    destruct o as [x|x|g s|g s| | | |n init|i x]; cbn [lspec].
    - intros ([(_ & _ & -> & ->)|(_ & -> & ->)] & ->); rewrite ?app_nil_r; reflexivity.
    - intros ([(_ & _ & -> & ->)|(_ & -> & ->)] & ->); rewrite ?app_nil_r; [apply (Permutation_app_comm xs [x])|reflexivity].
    - intros (-> & x & _ & [(_ & _ & -> & ->)|(_ & -> & ->)]); rewrite ?app_nil_r; reflexivity.
    - intros (-> & x & _ & [(_ & _ & -> & ->)|(_ & -> & ->)]); rewrite ?app_nil_r; [apply (Permutation_app_comm xs [x])|reflexivity].
    - intros (-> & [(-> & _ & -> & ->)|(x & -> & _ & ->)]); rewrite ?app_nil_r; [reflexivity|apply Permutation_app_comm].
    - intros (-> & [(-> & _ & -> & ->)|(x & -> & _ & ->)]); rewrite ?app_nil_r; reflexivity.
    - intros (_ & -> & -> & ->). reflexivity.
    - destruct (N.eqb_spec n 0); [intros (_ & -> & -> & ->); reflexivity|]. destruct (N.leb_spec n (nlen xs)).
      + intros (_ & -> & -> & ->). rewrite app_nil_r. rewrite <- Permutation_rev.
        rewrite <- (nfirst_skip n xs) at 1. apply Permutation_app_comm.
      + intros (-> & -> & _). reflexivity.
    - destruct (nnth i xs) as [y|] eqn:EN; [|intros (_ & -> & -> & ->); now rewrite app_nil_r]. intros (_ & -> & -> & ->).
      apply nnth_some in EN as (a & c & -> & LI). rewrite nfirst_app_l by exact LI.
      change (a ++ y :: c) with (a ++ [y] ++ c). rewrite (app_assoc a [y] c), nskip_app_l by (rewrite nlen_app; change (nlen [y]) with 1; lia).
      rewrite <- !app_assoc. cbn [app]. rewrite <- Permutation_middle. cbn. constructor. apply Permutation_app_head.
      apply (Permutation_app_comm c [x]).
  Qed.
  Lemma lspecs_balance (f : Prop) (ops : list op) : forall xs rs xs' gone new, lspecs e limit f ops xs rs xs' gone new ->
    Permutation (xs ++ new) (gone ++ xs').
  Proof.
    induction ops as [|o ops IH]; intros xs rs xs' gone new H; inversion H; subst; [now rewrite app_nil_r|].
    rewrite app_assoc. rewrite (lspec_balance _ _ _ _ _ _ _ H2). rewrite <- app_assoc. rewrite (IH _ _ _ _ _ H8). now rewrite app_assoc.
  Qed.
End Final.

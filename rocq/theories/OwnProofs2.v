(** Proofs about vectors whose elements own memory: programs, destruction, copies. *)
From Verif Require Import Base NListFacts Status Mem MemFacts VectorModel VectorSpec VectorDriver
  VectorRep VectorProofs VectorProofs2 VectorProofs3 VectorRefine VectorSearch VectorFail VectorMore
  OracleProofs RefuseSpec RefuseProofs OwnModel OwnDriver OwnProofs OwnSwap.
From Coq Require Import Permutation.
From Coq Require Import ZifyBool ZifyNat ZifyN.

Section OwnProofs2.
  Context {C : Type}.
  Notation vec := (vector C).
  Implicit Types (w : world C) (v : vec) (ps : list (N * list C)).
  Variables (e : N) (name : N -> list C) (own : list C -> N).
  Hypothesis NM : names_ok e name own.
  Notation d := (release e own).
  Notation elems ps := (map (fun p : N * list C => name (fst p)) ps).
  Variables (al : bool) (pre post : list C) (cap bb : N).
  Notation holds := (holds e name al pre post cap bb).
  (** What is expected of such a vector. *)
  Definition wsp (o : wop) (l : list (list C)) : status * list (list C) := if al then wspec o l else wbspec cap o l.

  Lemma mem_perm w0 w v ps ps' : mem w0 w v ps -> Permutation ps ps' -> mem w0 w v ps'.
  Proof.
    intros [B NA NW NV NX RS] PM. assert (PF : Permutation (map fst ps) (map fst ps')) by now apply Permutation_map.
    split; [| | |exact NV|exact NX|].
    - rewrite Forall_forall in *. intros p I. apply B. eapply Permutation_in; [symmetry; exact PM|exact I].
    - eapply Permutation_NoDup; [|exact NA]. now constructor.
    - intros b I. apply NW. eapply Permutation_in; [|exact I]. now symmetry.
    - intros b N1 N2. apply RS; [exact N1|]. intros I. apply N2. eapply Permutation_in; [exact PF|exact I].
  Qed.

  Lemma insert_step w0 w v ps i buf (o : N -> vop C) :
    (o = (fun b => OPushBack (name b)) /\ i = nlen ps \/ o = (fun b => OInsert i (name b)) \/
     o = (fun b => OEmplaceEx i (Some (fun _ => (ST_SUCCESS, name b))))) ->
    holds w0 w v ps -> wfw w0 -> fits (nlen ps + 1) e ->
    exists r v' w' ps', (let* b := new_object buf in let* rv := run_op v (o b) in unless_taken b rv) w = Ok (r, v') w' /\
      holds w0 w' v' ps' /\ wsp (WInsert i buf) (map snd ps) = (r, map snd ps').
  Proof.
    intros HO H W0 F. unfold wsp, wbspec. cbn [wspec wfull]. rewrite nlen_snd.
    set (a := nfirst i ps). set (c := nskip i ps).
    assert (AC : ps = a ++ c) by (symmetry; apply nfirst_skip).
    rewrite AC in H. destruct (holds_new _ _ _ _ _ _ _ _ _ _ _ _ buf H) as (R1 & G1 & M1).
    destruct (h_cfg _ _ _ _ _ _ _ _ _ _ _ H) as (VA & VE & VD).
    set (w1 := argw w buf) in *.
    assert (NW : new_object buf w = Ok (nextb w) w1) by reflexivity.
    destruct (run_op_ok w1 v pre (elems (a ++ c)) post (o (nextb w)) R1) as (r & w2 & v2 & xs2 & E2 & G & S).
    { intros AL. apply G1. congruence. }
    { rewrite VE. destruct HO as [[-> _]|[->| ->]]; cbn [arg_ok]; [apply NM|apply NM|]. intros x _. split; [reflexivity|apply NM]. }
    { rewrite VE, nlen_elems, <- AC. destruct HO as [[-> _]|[->| ->]]; exact F. }
    assert (SP : spec_insert (cfg_of v) i [name (nextb w)] (mkst (elems (a ++ c)) (v_cap v) (dlog w1)) r (mkst xs2 (v_cap v2) (dlog w2))).
    { destruct HO as [[-> ->]|[->| ->]]; cbn [vspec s_elems] in S;
        [|exact S|destruct S as (old & x & _ & _ & (k & EX) & S); injection EX as _ <-; exact S]. rewrite nlen_elems, <- AC in S. now rewrite <- AC. }
    clear S. unfold spec_insert in SP. cbn [s_elems s_cap s_log] in SP. rewrite nlen_elems, <- AC in SP.
    rewrite (bind_ok _ _ _ _ _ NW), (bind_ok _ _ _ _ _ E2).
    pose proof (mem_good _ _ _ _ _ _ _ _ _ _ _ _ M1 W0 R1 G) as M2. pose proof G as [RG CG FG].
    assert (BP : al = false -> blk v2 = bb).
    { intros FX. rewrite <- (h_blk _ _ _ _ _ _ _ _ _ _ _ H FX). eapply good_blk; [exact G|congruence]. }
    destruct (N.ltb_spec (nlen ps) i) as [L|L].
    - destruct SP as [-> SP]. injection SP as -> SP2 SP3.
      assert (c = []) as C0 by (apply nskip_all; lia).
      rewrite C0 in *. rewrite app_nil_r in AC. rewrite app_nil_r in H. rewrite <- AC in *.
      assert (CP : al = false -> v_cap v2 = cap) by (intros FX; rewrite SP2; now apply (h_cap _ _ _ _ _ _ _ _ _ _ _ H)).
      destruct (take_back e name al pre post cap bb w0 w v v2 ps buf w2 H W0 CG RG (fr_orc _ _ _ _ FG) M2 CP BP) as (w' & EU & HU).
      exists ST_OUT_OF_RANGE, v2, w', ps. split; [now apply EU|]. split; [exact HU|]. replace (i <=? nlen ps) with false by lia. now destruct al.
    - replace (i <=? nlen ps) with true by lia. cbn [andb].
      unfold regrow in SP. cbn [cfg_of c_fixed c_growth] in SP. rewrite VA in SP. change (nlen [name (nextb w)]) with 1 in SP.
      assert (SP' : (al = false /\ cap < nlen ps + 1 /\ r = ST_INSUFFICIENT_BUFFER_SIZE /\ xs2 = elems ps /\ v_cap v2 = v_cap v) \/
        ((al = true \/ nlen ps + 1 <= cap) /\ r = ST_SUCCESS /\ xs2 = linsert i [name (nextb w)] (elems (a ++ c)) /\ (al = false -> v_cap v2 = v_cap v))).
      { pose proof (h_cap _ _ _ _ _ _ _ _ _ _ _ H) as HC. rewrite <- AC in *. destruct (N.leb_spec (nlen ps + 1) (v_cap v)) as [LC|LC].
        - destruct SP as [-> SP]; injection SP as -> SC _. right. split; [|auto]. destruct al; [now left|]. right. now rewrite <- HC.
        - destruct al; cbn [negb] in SP; destruct SP as [-> SP]; injection SP as -> SC _.
          + right. split; [now left|]. split; [reflexivity|]. split; [reflexivity|discriminate].
          + left. rewrite <- HC by reflexivity. auto. }
      destruct SP' as [(FX & FL & -> & -> & CP)|(FL & -> & -> & CP)].
      + assert (CP' : al = false -> v_cap v2 = cap) by (intros FX'; rewrite CP; now apply (h_cap _ _ _ _ _ _ _ _ _ _ _ H)).
        assert (M3 : mem w0 w2 v2 (ps ++ [(nextb w, buf)] ++ [])).
        { eapply mem_perm; [exact M2|]. rewrite AC, app_nil_r. rewrite <- app_assoc. apply Permutation_app_head. apply Permutation_app_comm. }
        rewrite <- AC in H.
        destruct (take_back e name al pre post cap bb w0 w v v2 ps buf w2 H W0 CG RG (fr_orc _ _ _ _ FG) M3 CP' BP) as (w' & EU & HU).
        exists ST_INSUFFICIENT_BUFFER_SIZE, v2, w', ps. split; [now apply EU|]. split; [exact HU|]. rewrite FX. now replace (cap <? nlen ps + 1) with true by lia.
      + exists ST_SUCCESS, v2, w2, (a ++ [(nextb w, buf)] ++ c). split; [reflexivity|]. split.
        * assert (EQ : linsert i [name (nextb w)] (elems (a ++ c)) = elems (a ++ [(nextb w, buf)] ++ c)).
          { unfold linsert. rewrite <- AC. rewrite !map_app. unfold a, c, nfirst, nskip. now rewrite <- firstn_map, <- skipn_map. }
          rewrite EQ in RG. destruct CG as (CA & _ & _ & CE & CD). split; [exact RG| | |exact BP| |exact M2].
          -- now rewrite CA, CE, CD.
          -- intros FX. rewrite CP by exact FX. now apply (h_cap _ _ _ _ _ _ _ _ _ _ _ H).
          -- intros AL t. rewrite (fr_orc _ _ _ _ FG). now apply G1.
        * replace (if al then _ else _) with (ST_SUCCESS, nfirst i (map snd ps) ++ [buf] ++ nskip i (map snd ps)).
          2: { destruct al; [reflexivity|]. now replace (cap <? nlen ps + 1) with false by (destruct FL; [discriminate|lia]). }
          rewrite !map_app. unfold a, c, nfirst, nskip. now rewrite <- firstn_map, <- skipn_map.
  Qed.

  Lemma set_step w0 w v ps i buf : holds w0 w v ps -> wfw w0 ->
    exists r v' w' ps', (let* b := new_object buf in let* rv := with_arg (name b) (fun p => oset d v i p) in unless_taken b rv) w = Ok (r, v') w' /\
      holds w0 w' v' ps' /\ wspec (WSet i buf) (map snd ps) = (r, map snd ps').
  Proof.
    intros H W0. cbn [wspec]. rewrite nlen_snd.
    pose proof (h_rep _ _ _ _ _ _ _ _ _ _ _ H) as R. assert (SZ : v_size v = nlen ps) by (now rewrite (r_size _ _ _ _ _ R), nlen_elems).
    destruct (h_cfg _ _ _ _ _ _ _ _ _ _ _ H) as (VA & VE & VD).
    set (w1 := argw w buf). assert (NW : new_object buf w = Ok (nextb w) w1) by reflexivity.
    rewrite (bind_ok _ _ _ _ _ NW).
    destruct (N.leb_spec (nlen ps) i) as [L|L].
    - rewrite <- (app_nil_r ps) in H. destruct (holds_new _ _ _ _ _ _ _ _ _ _ _ _ buf H) as (R1 & G1 & M1). fold w1 in R1, G1, M1.
      rewrite app_nil_r in H, R1.
      set (x := name (nextb w)).
      assert (E2 : with_arg x (fun p => oset d v i p) w1 = Ok (ST_OUT_OF_RANGE, v) (dropw (argw w1 x) (nextb w1))).
      { unfold with_arg, oset. cbn [nonnull negb]. rewrite SZ. now replace (nlen ps <=? i) with true by lia. }
      rewrite (bind_ok _ _ _ _ _ E2).
      assert (GD : good w1 v (dropw (argw w1 x) (nextb w1)) v pre (elems ps) post).
      { eapply dropw_good; [exact R1|]. apply good_refl. now apply argw_rep. }
      pose proof (mem_good _ _ _ _ _ _ _ _ _ _ _ _ M1 W0 R1 GD) as M2.
      destruct (take_back e name al pre post cap bb w0 w v v ps buf _ H W0 (same_cfg_refl v) (g_rep _ _ _ _ _ _ _ GD) eq_refl M2 (h_cap _ _ _ _ _ _ _ _ _ _ _ H) (h_blk _ _ _ _ _ _ _ _ _ _ _ H)) as (w' & EU & HU).
      exists ST_OUT_OF_RANGE, v, w', ps. split; [now apply EU|]. now split.
    - destruct (nsplit1 i ps L) as (a & p & c & -> & LA).
      change (p :: c) with ([p] ++ c) in *.
      destruct (holds_new _ _ _ _ _ _ _ _ _ _ _ _ buf H) as (R1 & G1 & _). fold w1 in R1, G1.
      pose proof (h_mem _ _ _ _ _ _ _ _ _ _ _ H) as MM.
      assert (LB : heap w (blk v) <> None) by (destruct (r_heap _ _ _ _ _ R) as (sl & _ & ->); discriminate).
      (* the new object, listed behind the one it replaces *)
      assert (M1 : mem w0 w1 v (a ++ [p] ++ ([(nextb w, buf)] ++ c))).
      { replace (a ++ [p] ++ [(nextb w, buf)] ++ c) with ((a ++ [p]) ++ [(nextb w, buf)] ++ c) by (now rewrite <- app_assoc).
        apply mem_new_object; [now rewrite <- app_assoc|apply R|exact LB]. }
      set (x := name (nextb w)).
      destruct (argw_rep _ _ _ _ _ x R1) as (R2 & S2 & N2). set (w2 := argw w1 x) in *.
      assert (HP : heap w1 (fst p) = Some (snd p)).
      { pose proof (m_bufs _ _ _ _ M1) as B. rewrite Forall_forall in B. apply B. rewrite !in_app_iff. right. left. now left. }
      assert (NP : fst p <> nextb w1).
      { intros E. assert (heap w1 (fst p) = None) as E0 by (rewrite E; apply R1; lia). congruence. }
      assert (NB : fst p <> blk v).
      { pose proof (m_apart _ _ _ _ M1) as A. apply NoDup_cons_iff in A as [A _]. intros E. apply A. rewrite <- E, !map_app, !in_app_iff.
        right. left. now left. }
      destruct (release_ok e name own NM pre post w2 v (a ++ [p] ++ c) (nlen a) p R2 VE) as (w3 & E3 & WO & R3).
      { now apply nnth_mid. }
      { replace (heap w2 (fst p)) with (heap w1 (fst p)); [congruence|]. unfold w2, argw. cbn [heap]. unfold hset.
        destruct (N.eqb_spec (fst p) (nextb w1)); [contradiction|reflexivity]. }
      { exact NB. }
      assert (S3 : src w3 (mkptr (nextb w1) 0) x).
      { destruct S2 as (l & t & HS & LS). exists l, t. split; [|exact LS]. cbn [pb] in *. destruct WO as (_ & K & _). rewrite K; [exact HS|].
        intros [E|[]]. congruence. }
      destruct (set_ok w3 v pre (elems (a ++ [p] ++ c)) post i x (mkptr (nextb w1) 0) R3) as (r & w4 & v' & xs' & E4 & G4 & SP).
      { rewrite VE. apply NM. } { exact S3. } { cbn [pb]. exact N2. }
      cbn [vspec s_elems s_cap s_log] in SP.
      assert (NN : nnth i (elems (a ++ [p] ++ c)) = Some (name (fst p))).
      { rewrite <- LA. unfold nnth. rewrite nth_error_map. change (nth_error (a ++ [p] ++ c) (N.to_nat (nlen a))) with (nnth (nlen a) (a ++ p :: c)).
        now rewrite nnth_mid. }
      rewrite NN in SP. destruct SP as [-> SP]. injection SP as -> SC _.
      assert (EQ : lset i x (elems (a ++ [p] ++ c)) = elems (a ++ [(nextb w, buf)] ++ c)).
      { unfold lset. rewrite !map_app. cbn [map fst]. fold x. rewrite <- LA.
        rewrite nfirst_app_l by apply nlen_elems. f_equal. f_equal. rewrite app_assoc. apply nskip_app_l.
        rewrite nlen_app, nlen_elems. reflexivity. }
      change (p :: c) with ([p] ++ c) in G4. rewrite EQ in G4. clear EQ.
      assert (E5 : with_arg x (fun p => oset d v i p) w1 = Ok (ST_SUCCESS, v') (dropw w4 (nextb w1))).
      { unfold with_arg. fold (argw w1 x). fold w2. unfold oset. cbn [nonnull negb]. rewrite SZ.
        replace (nlen (a ++ [p] ++ c) <=? i) with false by lia. rewrite (bind_ok _ _ _ _ _ (rep_assert_valid _ _ _ _ _ R2)).
        rewrite <- LA. rewrite (bind_ok _ _ _ _ _ E3). revert E4. unfold vset. cbn [nonnull negb]. rewrite SZ.
        replace (nlen (a ++ [p] ++ c) <=? i) with false by lia. rewrite (bind_ok _ _ _ _ _ (rep_assert_valid _ _ _ _ _ R3)), VD.
        unfold bind at 1. unfold ret at 1. rewrite <- LA. intros ->. reflexivity. }
      rewrite (bind_ok _ _ _ _ _ E5). unfold unless_taken. cbn [fst]. change (st_success ST_SUCCESS) with true. cbv iota.
      exists ST_SUCCESS, v', (dropw w4 (nextb w1)), (a ++ [(nextb w, buf)] ++ c). split; [reflexivity|].
      pose proof G4 as [RG CG FG].
      (* memory: without the old object, then the vector's change, then without the argument *)
      set (q := [(nextb w, buf)] ++ c) in *. set (g := (nextb w1, x)).
      assert (LB1 : heap w1 (blk v) <> None) by (destruct (r_heap _ _ _ _ _ R1) as (sl & _ & ->); discriminate).
      assert (M2 : mem w0 w2 v (a ++ [p] ++ (q ++ [g]))).
      { replace (a ++ [p] ++ q ++ [g]) with ((a ++ [p] ++ q) ++ [g] ++ []) by (rewrite <- !app_assoc; reflexivity).
        apply mem_new_object; [now rewrite app_nil_r|apply R1|exact LB1]. }
      pose proof (mem_without _ _ _ _ _ _ _ M2 W0 WO) as M3.
      pose proof (mem_good _ _ _ _ _ _ _ _ _ _ _ _ M3 W0 R3 G4) as M4.
      assert (WD : without w4 (dropw w4 (nextb w1)) (map fst [g])).
      { split; [|split; [|now repeat split]].
        - intros b [<-|[]]. unfold dropw, set_heap. cbn [heap]. unfold hset. now rewrite N.eqb_refl.
        - intros b NI. unfold dropw, set_heap. cbn [heap]. unfold hset. destruct (N.eqb_spec b (nextb w1)) as [->|]; [destruct NI; now left|reflexivity]. }
      assert (M5 : mem w0 (dropw w4 (nextb w1)) v' (a ++ q)).
      { rewrite <- (app_nil_r (a ++ q)). eapply mem_without; [|exact W0|exact WD].
        replace ((a ++ q) ++ [g] ++ []) with (a ++ q ++ [g]) by (rewrite <- app_assoc; reflexivity). exact M4. }
      destruct CG as (CA & _ & _ & CE & CD). split.
      + split; [| | | | |exact M5].
        * eapply rep_other; [exact RG| |eapply without_wf; [exact WD|apply RG]|reflexivity]. apply WD. intros [E|[]]. cbn in E.
          pose proof (m_apart _ _ _ _ M4) as A. apply NoDup_cons_iff in A as [A _]. apply A. rewrite <- E, !map_app, !in_app_iff.
          right. right. now left.
        * now rewrite CA, CE, CD.
        * intros FX. rewrite SC. now apply (h_cap _ _ _ _ _ _ _ _ _ _ _ H).
        * intros FX. rewrite <- (h_blk _ _ _ _ _ _ _ _ _ _ _ H FX). eapply good_blk; [exact G4|congruence].
        * intros AL t. change (orc (dropw w4 (nextb w1))) with (orc w4). rewrite (fr_orc _ _ _ _ FG). destruct WO as (_ & _ & _ & -> & _). now apply G1.
      + unfold q. rewrite !map_app. cbn [map snd]. rewrite <- LA. rewrite nfirst_app_l by apply nlen_snd. f_equal. f_equal. f_equal.
        rewrite app_assoc. apply nskip_app_l. rewrite nlen_app, nlen_snd. reflexivity.
  Qed.

  (** Calls that remove nothing. *)
  Lemma reserve_step w0 w v ps n : holds w0 w v ps -> wfw w0 -> n * e < W64 ->
    exists r v' w', vreserve v n w = Ok (r, v') w' /\ holds w0 w' v' ps /\
      (al = false /\ cap < n /\ r = ST_INSUFFICIENT_BUFFER_SIZE \/ (al = true \/ n <= cap) /\ n <= v_cap v' /\ r = ST_SUCCESS).
  Proof.
    intros H W0 F. destruct (h_cfg _ _ _ _ _ _ _ _ _ _ _ H) as (VA & VE & VD). pose proof (h_cap _ _ _ _ _ _ _ _ _ _ _ H) as HC.
    destruct (reserve_ok w v pre (elems ps) post n (h_rep _ _ _ _ _ _ _ _ _ _ _ H)) as (r & w' & v' & xs' & E & G & S).
    { apply (holds_nofail _ _ _ _ _ _ _ _ _ _ _ H). } { now rewrite VE. }
    cbn [vspec s_elems s_cap s_log] in S. unfold cfg_of in S. cbn [c_fixed] in S. rewrite VA in S.
    exists r, v', w'. split; [exact E|].
    destruct (N.leb_spec n (v_cap v)) as [L|L]; [|destruct al eqn:AL]; cbn [negb] in S; destruct S as [-> S]; injection S as -> SC _; (split; [eapply holds_good; eauto|]).
    - rewrite SC. exact HC.
    - right. split; [|split; [lia|reflexivity]]. destruct al; [now left|]. right. now rewrite <- HC.
    - discriminate.
    - right. split; [now left|]. split; [lia|reflexivity].
    - rewrite SC. exact HC.
    - left. rewrite <- HC by reflexivity. auto.
  Qed.
  Lemma shrink_step w0 w v ps : holds w0 w v ps -> wfw w0 -> fits (nlen ps) e ->
    exists v' w', vshrink_to_fit v w = Ok (ST_SUCCESS, v') w' /\ holds w0 w' v' ps.
  Proof.
    intros H W0 F. destruct (h_cfg _ _ _ _ _ _ _ _ _ _ _ H) as (VA & VE & VD). pose proof (h_cap _ _ _ _ _ _ _ _ _ _ _ H) as HC.
    destruct (run_op_ok w v pre (elems ps) post OShrinkToFit (h_rep _ _ _ _ _ _ _ _ _ _ _ H)) as (r & w' & v' & xs' & E & G & S).
    { apply (holds_nofail _ _ _ _ _ _ _ _ _ _ _ H). } { exact Logic.I. } { rewrite VE, nlen_elems. cbn [demand]. eapply fits_le; [|exact F]. lia. }
    cbn [vspec s_elems s_cap s_log] in S. unfold cfg_of in S. cbn [c_fixed] in S. rewrite VA in S.
    destruct al eqn:AL; cbn [negb] in S; destruct S as [-> S]; injection S as -> SC _; exists v', w'; (split; [exact E|]); eapply holds_good; eauto.
    - discriminate.
    - rewrite SC. exact HC.
  Qed.

  Lemma holds_perm w0 w v ps ps' : holds w0 w v ps -> wfw w0 -> forall w' v', good w v w' v' pre (elems ps') post -> Permutation ps ps' ->
    (al = false -> v_cap v' = cap) -> holds w0 w' v' ps'.
  Proof.
    intros [R (A & E & D) _ BK G MM] W0 w' v' GD PM CP. pose proof GD as [R' (CA & CG & CS & CE & CD) F]. split; [exact R'| |exact CP| | |].
    - now rewrite CA, CE, CD.
    - intros FX. rewrite <- (BK FX). eapply good_blk; [exact GD|congruence].
    - intros AL t. rewrite (fr_orc _ _ _ _ F). now apply G.
    - eapply mem_perm; [eapply mem_good; eauto|exact PM].
  Qed.
  Lemma swap_step w0 w v ps i j : holds w0 w v ps -> wfw w0 -> i <> j -> fits (nlen ps + 1) e ->
    exists r v' w' ps', (let* (r, v) := vreserve v (snd (vget_size v) + 1) in if st_success r then vswap v i j else ret (r, v)) w = Ok (r, v') w' /\
      holds w0 w' v' ps' /\ wsp (WSwap i j) (map snd ps) = (r, map snd ps').
  Proof.
    intros H W0 NE F. assert (SZ : v_size v = nlen ps) by (now rewrite (r_size _ _ _ _ _ (h_rep _ _ _ _ _ _ _ _ _ _ _ H)), nlen_elems).
    unfold vget_size at 1. cbn [snd]. rewrite SZ. unfold wsp, wbspec. cbn [wfull wspec]. rewrite nlen_snd.
    destruct (reserve_step w0 w v ps (nlen ps + 1) H W0) as (r & v1 & w1 & E1 & H1 & CS); [unfold fits in F; nia|].
    rewrite (bind_ok _ _ _ _ _ E1). destruct CS as [(FX & FL & ->)|(FL & CP & ->)].
    { exists ST_INSUFFICIENT_BUFFER_SIZE, v1, w1, ps. split; [reflexivity|]. split; [exact H1|]. rewrite FX. now replace (cap <? nlen ps + 1) with true by lia. }
    change (st_success ST_SUCCESS) with true. cbv iota.
    replace (if al then _ else _) with (if (nlen ps <=? i) || (nlen ps <=? j) then (ST_OUT_OF_RANGE, map snd ps) else (ST_SUCCESS, lswap i j (map snd ps))).
    2: { destruct al; [reflexivity|]. now replace (cap <? nlen ps + 1) with false by (destruct FL; [discriminate|lia]). }
    destruct (h_cfg _ _ _ _ _ _ _ _ _ _ _ H1) as (VA1 & VE1 & VD1). pose proof (h_cap _ _ _ _ _ _ _ _ _ _ _ H1) as HC.
    destruct (run_op_ok w1 v1 pre (elems ps) post (OSwap i j) (h_rep _ _ _ _ _ _ _ _ _ _ _ H1)) as (r & w2 & v2 & xs2 & E2 & G2 & S2).
    { apply (holds_nofail _ _ _ _ _ _ _ _ _ _ _ H1). } { exact NE. } { rewrite VE1, nlen_elems. cbn [demand]. eapply fits_le; [|exact F]. lia. }
    cbn [run_op] in E2. cbn [vspec s_elems s_cap s_log] in S2. rewrite nlen_elems in S2.
    destruct (N.leb_spec (nlen ps) i) as [LI|LI], (N.leb_spec (nlen ps) j) as [LJ|LJ]; cbn [orb] in *.
    4: { replace (nlen ps =? v_cap v1) with false in S2 by lia. destruct S2 as [-> S2]. injection S2 as -> SC _.
      exists ST_SUCCESS, v2, w2, (gswap i j ps). split; [exact E2|]. split.
      - eapply holds_perm; [exact H1|exact W0| |apply gswap_perm; auto|]; [rewrite gswap_map; exact G2|]. now rewrite SC.
      - now rewrite gswap_lswap, gswap_map. }
    all: destruct S2 as [-> S2]; injection S2 as -> SC _; exists ST_OUT_OF_RANGE, v2, w2, ps; split; [exact E2|]; split; [|reflexivity];
      eapply holds_good; eauto; now rewrite SC.
  Qed.

  Lemma wsp_all o l : (forall k, wfull k o l = false) -> wsp o l = wspec o l.
  Proof. intros H. unfold wsp, wbspec. rewrite H. now destruct al. Qed.

  Lemma step w0 w v ps o : holds w0 w v ps -> wfw w0 -> warg_ok o -> fits (nlen ps + wdemand o) e ->
    exists r v' w' ps', run_wop e name own v o w = Ok (r, v') w' /\ holds w0 w' v' ps' /\ wsp o (map snd ps) = (r, map snd ps').
  Proof.
    intros H W0 A F.
    assert (F0 : fits (nlen ps) e) by (eapply fits_le; [|exact F]; lia).
    assert (SZ : v_size v = nlen ps) by (now rewrite (r_size _ _ _ _ _ (h_rep _ _ _ _ _ _ _ _ _ _ _ H)), nlen_elems).
    destruct o; cbn [run_wop warg_ok wdemand] in *.
    - destruct (insert_step w0 w v ps (nlen ps) buf (fun b => OPushBack (name b))) as (r & v' & w' & ps' & E & H' & S); auto.
      exists r, v', w', ps'. split; [exact E|]. split; [exact H'|]. rewrite <- S. unfold wsp, wbspec. cbn [wspec wfull]. rewrite nlen_snd.
      rewrite N.ltb_irrefl, N.leb_refl. cbn [andb]. rewrite <- nlen_snd, nfirst_all, nskip_all by lia. reflexivity.
    - now apply (insert_step w0 w v ps i buf (fun b => OInsert i (name b))); auto.
    - destruct (insert_step w0 w v ps i buf (fun b => OEmplaceEx i (Some (fun _ => (ST_SUCCESS, name b))))) as (r & v' & w' & ps' & E & H' & S); auto.
      exists r, v', w', ps'. auto.
    - now apply swap_step.
    - rewrite wsp_all by reflexivity. now apply set_step.
    - rewrite wsp_all by reflexivity. now apply (delete_step e name own NM).
    - rewrite wsp_all by reflexivity. now apply (pop_step e name own NM).
    - destruct (resize_step e name own NM al pre post cap bb w0 w v ps 0 H W0) as (v' & w' & ps' & E & H' & S); [lia|exact F0|].
      exists ST_SUCCESS, v', w', ps'. split; [exact E|]. split; [exact H'|]. rewrite wsp_all by reflexivity. cbn [wspec]. now rewrite <- S.
    - cbn [vget_size snd]. rewrite SZ.
      destruct (resize_step e name own NM al pre post cap bb w0 w v ps (N.min n (nlen ps)) H W0) as (v' & w' & ps' & E & H' & S); [lia|exact F0|].
      exists ST_SUCCESS, v', w', ps'. split; [exact E|]. split; [exact H'|]. rewrite wsp_all by reflexivity. cbn [wspec]. rewrite <- S. f_equal.
      destruct (N.min_spec n (nlen ps)) as [[_ ->]|[L ->]]; [reflexivity|]. now rewrite !nfirst_all by (rewrite nlen_snd; lia).
    - destruct (reserve_step w0 w v ps n H W0) as (r & v' & w' & E & H' & CS); [unfold fits in F; nia|].
      exists r, v', w', ps. split; [exact E|]. split; [exact H'|]. unfold wsp, wbspec. cbn [wfull wspec]. destruct CS as [(FX & FL & ->)|(FL & _ & ->)].
      + rewrite FX. now replace (cap <? n) with true by lia.
      + destruct al; [reflexivity|]. now replace (cap <? n) with false by (destruct FL; [discriminate|lia]).
    - destruct (shrink_step w0 w v ps H W0 F0) as (v' & w' & E & H'). exists ST_SUCCESS, v', w', ps. rewrite wsp_all by reflexivity. auto.
  Qed.

  Lemma wspec_len o (l : list (list C)) : nlen (snd (wspec o l)) <= nlen l + wdemand o.
  Proof.
    destruct o; cbn [wspec wdemand].
    - cbn [snd]. rewrite nlen_app. change (nlen [buf]) with 1. lia.
    - destruct (nlen l <? i); cbn [snd]; [lia|]. rewrite !nlen_app, nlen_nfirst, nlen_nskip. change (nlen [buf]) with 1. lia.
    - destruct (nlen l <? i); cbn [snd]; [lia|]. rewrite !nlen_app, nlen_nfirst, nlen_nskip. change (nlen [buf]) with 1. lia.
    - destruct (N.leb_spec (nlen l) i), (N.leb_spec (nlen l) j); cbn [orb snd]; try lia. rewrite gswap_lswap.
      destruct (N.eq_dec i j) as [->|NE].
      + unfold gswap. destruct (nnth j l); [|lia]. unfold gset. rewrite !nlen_app, !nlen_nfirst, !nlen_nskip, !nlen_app, !nlen_nfirst, !nlen_nskip.
        rewrite !nlen_cons. change (nlen (@nil (list C))) with 0. lia.
      + pose proof (Permutation_length (gswap_perm l i j ltac:(lia) ltac:(lia) NE)) as PL. unfold nlen. lia.
    - destruct (N.leb_spec (nlen l) i); cbn [snd]; [lia|]. rewrite !nlen_app, nlen_nfirst, nlen_nskip. change (nlen [buf]) with 1. lia.
    - destruct (n =? 0); cbn [snd]; [lia|]. destruct (N.ltb_spec (nlen l) (i + n)); cbn [snd]; [lia|].
      rewrite nlen_app, nlen_nfirst, nlen_nskip. lia.
    - destruct (nlen l =? 0); cbn [snd]; [lia|]. rewrite nlen_nfirst. lia.
    - cbn [snd]. change (nlen (@nil (list C))) with 0. lia.
    - cbn [snd]. rewrite nlen_nfirst. lia.
    - cbn [snd]. lia.
    - cbn [snd]. lia.
  Qed.

  Definition wsps (ops : list wop) (l : list (list C)) : list status * list (list C) := if al then wspecs ops l else wbspecs cap ops l.

  Lemma steps w0 : wfw w0 -> forall ops w v ps, holds w0 w v ps -> Forall warg_ok ops -> fits (nlen ps + wdemands ops) e ->
    exists rs v' w' ps', run_wops e name own v ops w = Ok (rs, v') w' /\ holds w0 w' v' ps' /\ wsps ops (map snd ps) = (rs, map snd ps').
  Proof.
    intros W0. induction ops as [|o ops IH]; intros w v ps H A F.
    { exists [], v, w, ps. split; [reflexivity|]. split; [exact H|]. unfold wsps. now destruct al. }
    apply Forall_cons_iff in A as [A1 A2]. cbn [wdemands] in F.
    destruct (step w0 w v ps o H W0 A1) as (r & v1 & w1 & ps1 & E1 & H1 & S1); [eapply fits_le; [|exact F]; lia|].
    assert (L : nlen ps1 <= nlen ps + wdemand o).
    { rewrite <- !nlen_snd. replace (map snd ps1) with (snd (wsp o (map snd ps))) by (now rewrite S1). unfold wsp, wbspec.
      pose proof (wspec_len o (map snd ps)). destruct al; [assumption|]. destruct (wfull cap o (map snd ps)); [cbn [snd]; lia|assumption]. }
    destruct (IH w1 v1 ps1 H1 A2) as (rs & v2 & w2 & ps2 & E2 & H2 & S2); [eapply fits_le; [|exact F]; lia|].
    exists (r :: rs), v2, w2, ps2. split; [|split; [exact H2|]].
    - cbn [run_wops]. rewrite (bind_ok _ _ _ _ _ E1), (bind_ok _ _ _ _ _ E2). reflexivity.
    - revert S1 S2. unfold wsps, wsp. destruct al; cbn [wspecs wbspecs]; intros -> ->; reflexivity.
  Qed.

  Lemma holds_owns w0 w v ps : holds w0 w v ps -> owns own w v (map snd ps).
  Proof.
    intros H. pose proof (h_rep _ _ _ _ _ _ _ _ _ _ _ H) as R. destruct (rep_shows _ _ _ _ _ R) as [SZ RD].
    split; [now rewrite nlen_snd, <- (nlen_elems name)|]. intros i. unfold read_object, bind. rewrite RD.
    unfold nnth. rewrite !nth_error_map. destruct (nth_error ps (N.to_nat i)) as [p|] eqn:E; cbn [option_map]; [|reflexivity].
    destruct NM as [_ OW]. rewrite OW. pose proof (m_bufs _ _ _ _ (h_mem _ _ _ _ _ _ _ _ _ _ _ H)) as B. rewrite Forall_forall in B.
    now rewrite (B p (nth_error_In _ _ E)).
  Qed.

  Lemma destroy_all w0 w v ps : holds w0 w v ps -> wfw w0 ->
    exists v' w', odestroy d v w = Ok (ST_SUCCESS, v') w' /\ (forall b, (al = false -> b <> bb) -> heap w' b = heap w0 b) /\
      (al = false -> heap w' bb = heap w bb).
  Proof.
    intros H W0. pose proof (h_rep _ _ _ _ _ _ _ _ _ _ _ H) as R. destruct (h_cfg _ _ _ _ _ _ _ _ _ _ _ H) as (VA & VE & VD).
    assert (SZ : v_size v = nlen ps) by (now rewrite (r_size _ _ _ _ _ R), nlen_elems).
    assert (H' : holds w0 w v ([] ++ ps ++ [])) by (cbn [app]; now rewrite app_nil_r).
    destruct (part_released e name own NM _ _ _ _ _ _ _ _ _ _ _ H') as (w1 & E1 & WO & R1).
    destruct (destroy_ok w1 v pre _ post R1) as (w' & E2 & _ & D2 & _ & K2).
    exists (idle v), w'. split.
    - unfold odestroy. rewrite (bind_ok _ _ _ _ _ (rep_assert_valid _ _ _ _ _ R)), SZ. unfold nlen at 1. rewrite Nat2N.id.
      change 0 with (nlen (@nil (N * list C))) at 1. rewrite (bind_ok _ _ _ _ _ E1).
      revert E2. unfold vdestroy, destroy_range. rewrite VD. now rewrite (bind_ok _ _ _ _ _ (rep_assert_valid _ _ _ _ _ R1)).
    - pose proof (mem_without _ _ _ _ _ _ _ (h_mem _ _ _ _ _ _ _ _ _ _ _ H') W0 WO) as MM. split.
      + intros b NB. destruct (N.eq_dec b (blk v)) as [->|NE].
        * destruct al eqn:AL; [|now destruct NB; [|apply (h_blk _ _ _ _ _ _ _ _ _ _ _ H)]].
          rewrite D2 by exact VA. symmetry. apply W0. now apply (m_vec _ _ _ _ MM).
        * rewrite K2 by exact NE. apply (m_rest _ _ _ _ MM); [exact NE|intros []].
      + intros FX. rewrite <- (h_blk _ _ _ _ _ _ _ _ _ _ _ H FX). revert E2. unfold vdestroy, destroy_range.
        rewrite VD, VA, FX. rewrite (bind_ok _ _ _ _ _ (rep_assert_valid _ _ _ _ _ R1)). cbn [andb]. unfold bind, ret. intros E2. injection E2 as <-.
        apply WO. intros I. pose proof (m_apart _ _ _ _ (h_mem _ _ _ _ _ _ _ _ _ _ _ H)) as AP. apply NoDup_cons_iff in AP as [AP _]. contradiction.
  Qed.

  (** A fixed buffer keeps its length, and its surroundings. *)
  Lemma buffer_kept w0 w v ps : holds w0 w v ps -> al = false -> exists buf, nlen buf = cap * e /\ heap w bb = Some (pre ++ buf ++ post).
  Proof.
    intros H FX. pose proof (h_rep _ _ _ _ _ _ _ _ _ _ _ H) as R. destruct (h_cfg _ _ _ _ _ _ _ _ _ _ _ H) as (VA & VE & VD).
    destruct (r_heap _ _ _ _ _ R) as (sl & (_ & SL) & HP). exists (concat (elems ps) ++ sl). split.
    - rewrite nlen_app, SL by (unfold nofail; congruence). rewrite (nlen_concat _ _ (r_chunk _ _ _ _ _ R)).
      pose proof (r_le _ _ _ _ _ R). rewrite <- (h_cap _ _ _ _ _ _ _ _ _ _ _ H FX), <- VE. nia.
    - rewrite <- (h_blk _ _ _ _ _ _ _ _ _ _ _ H FX), HP. now rewrite <- app_assoc.
  Qed.
End OwnProofs2.

Section Growable.
  Context {C : Type}.
  Notation vec := (vector C).
  Implicit Types (w : world C) (v : vec) (ps : list (N * list C)).
  Variables (e : N) (name : N -> list C) (own : list C -> N).
  Hypothesis NM : names_ok e name own.
  Notation d := (release e own).
  Notation elems ps := (map (fun p : N * list C => name (fst p)) ps).
  Notation holds := (holds e name true [] [] 0 0).

  Lemma start w0 cap g s : names_ok e name own -> init_args_ok w0 e cap None g s ->
    exists v w, vinit_ex e cap None true g s w0 = Ok (ST_SUCCESS, Some v) w /\ holds w0 w v [].
  Proof.
    intros _ (W & AO & E1 & DK & GB & SB & MX). destruct (AO (tick w0)) as [fill O].
    destruct (init_ok w0 e cap None g s fill) as (w & v & E & R & CP & ES & AL & CF & L & OO & BL & NB & K); auto.
    exists v, w. split; [exact E|]. split; [exact R| | | | |].
    - unfold cfg_of in CF. injection CF as _ _ _ _ CD. auto.
    - discriminate.
    - discriminate.
    - intros _ t. rewrite OO. apply AO.
    - split; [constructor|constructor; [intros []|constructor]|intros b []|now intros _|exact NB|].
      intros b NE _. now apply K.
  Qed.

  Lemma life_of_owners w0 cap g s ops : init_args_ok w0 e cap None g s -> Forall warg_ok ops -> room (wdemands ops) e ->
    exists v0 w1 v w, vinit_ex e cap None true g s w0 = Ok (ST_SUCCESS, Some v0) w1 /\
      run_wops e name own v0 ops w1 = Ok (fst (wspecs ops []), v) w /\ owns own w v (snd (wspecs ops [])) /\
      (exists bs, NoDup bs /\ nlen bs = 1 + nlen (snd (wspecs ops [])) /\ (forall b, In b bs -> heap w0 b = None /\ heap w b <> None) /\
         forall b, ~ In b bs -> heap w b = heap w0 b) /\
      exists v' w', odestroy d v w = Ok (ST_SUCCESS, v') w' /\ forall b, heap w' b = heap w0 b.
  Proof.
    intros I A F. destruct (start w0 cap g s NM I) as (v0 & w1 & E0 & H0). destruct I as (W0 & _).
    destruct (steps e name own NM true [] [] 0 0 w0 W0 ops w1 v0 [] H0 A) as (rs & v & w & ps & E & H & S).
    { change (nlen (@nil (N * list C))) with 0. exact F. }
    unfold wsps in S; cbn [map] in S. exists v0, w1, v, w. rewrite S. cbn [fst snd]. split; [exact E0|]. split; [exact E|]. split; [eapply holds_owns; eauto|].
    split; [|destruct (destroy_all e name own NM _ _ _ _ _ _ _ _ _ H W0) as (v' & w' & ED & KD & _); exists v', w'; split; [exact ED|]; intros b; now apply KD].
    destruct (h_mem _ _ _ _ _ _ _ _ _ _ _ H) as [B AP NW NV NX RS] eqn:EM. exists (blk v :: map fst ps). split; [exact AP|]. split; [|split].
    - rewrite nlen_cons, nlen_snd. f_equal. unfold nlen. now rewrite map_length.
    - intros b IB. split; [apply W0; destruct IB as [<-|IB]; [apply NV, (h_cfg _ _ _ _ _ _ _ _ _ _ _ H)|now apply NW]|]. destruct IB as [<-|IB]; [|eapply mem_live; [apply H|exact IB]].
      destruct (r_heap _ _ _ _ _ (h_rep _ _ _ _ _ _ _ _ _ _ _ H)) as (sl & _ & ->). discriminate.
    - intros b NI. apply RS; [intros ->; apply NI; now left|]. intros IB. apply NI. now right.
  Qed.

  (** A copy of the vector has the same elements, so the objects are released twice. *)
  Lemma copies_share w0 cap g s ops v0 w1 v w rs cap' g' s' :
    init_args_ok w0 e cap None g s -> Forall warg_ok ops -> room (wdemands ops) e ->
    vinit_ex e cap None true g s w0 = Ok (ST_SUCCESS, Some v0) w1 ->
    run_wops e name own v0 ops w1 = Ok (rs, v) w -> snd (wspecs ops []) <> [] ->
    N.max 1 (N.max cap' (nlen (snd (wspecs ops [])))) * e < W64 -> 1 <= g' < 256 -> s' < 256 ->
    exists c w2 c' w3, vduplicate_ex v cap' true g' s' w = Ok (ST_SUCCESS, Some c) w2 /\
      odestroy d c w2 = Ok (ST_SUCCESS, c') w3 /\ odestroy d v w3 = Fault UseAfterFree.
  Proof.
    intros I A F E0 E NE MX GB SB. destruct (start w0 cap g s NM I) as (v0' & w1' & E0' & H0). rewrite E0 in E0'. injection E0' as <- <-.
    destruct I as (W0 & AO & _).
    destruct (steps e name own NM true [] [] 0 0 w0 W0 ops w1 v0 [] H0 A) as (rs' & v' & w' & ps & E' & H & S).
    { change (nlen (@nil (N * list C))) with 0. exact F. }
    rewrite E in E'. injection E' as <- <- <-. unfold wsps in S; cbn [map] in S. rewrite S in NE, MX. cbn [snd] in NE, MX. rewrite nlen_snd in MX.
    pose proof (h_rep _ _ _ _ _ _ _ _ _ _ _ H) as R. destruct (h_cfg _ _ _ _ _ _ _ _ _ _ _ H) as (VA & VE & VD).
    destruct (h_grant _ _ _ _ _ _ _ _ _ _ _ H eq_refl (tick w)) as [fill O].
    destruct (duplicate_ok w v [] (elems ps) [] cap' g' s' fill R O) as (w2 & c & ED & RC & RV & NB & CC & CF & DL & OO & FB & K); auto.
    { now rewrite VE, nlen_elems. }
    unfold cfg_of in CF. injection CF as CA CG CS CE CD.
    pose proof (h_mem _ _ _ _ _ _ _ _ _ _ _ H) as MM.
    assert (LV : forall p, In p ps -> heap w2 (fst p) = Some (snd p) /\ fst p <> blk c /\ fst p <> blk v).
    { intros p IP. pose proof (m_bufs _ _ _ _ MM) as B. rewrite Forall_forall in B. specialize (B p IP).
      assert (fst p <> blk c) by congruence. split; [now rewrite K|]. split; [assumption|].
      intros EB. pose proof (m_apart _ _ _ _ MM) as AP. apply NoDup_cons_iff in AP as [AP _]. apply AP. rewrite <- EB. now apply in_map. }
    assert (ND : NoDup (map fst ps)). { pose proof (m_apart _ _ _ _ MM) as AP. now apply NoDup_cons_iff in AP. }
    destruct (own_loop_ok e name own NM [] [] c ps w2 [] []) as (w3 & E3 & WO & R3).
    { cbn [app]. now rewrite app_nil_r. } { congruence. }
    { rewrite Forall_forall. intros p IP. destruct (LV p IP) as [-> _]. discriminate. }
    { constructor; [|exact ND]. intros IB. apply in_map_iff in IB as (p & EB & IP). destruct (LV p IP) as (_ & X & _). congruence. }
    assert (SC : v_size c = nlen ps) by (now rewrite (r_size _ _ _ _ _ RC), nlen_elems).
    destruct (destroy_ok w3 c [] _ [] R3) as (w4 & E4 & _ & D4 & _ & K4).
    assert (W4 : w4 = set_heap w3 (hset (heap w3) (blk c) None)).
    { revert E4. unfold vdestroy, destroy_range. rewrite CD, VD. rewrite (bind_ok _ _ _ _ _ (rep_assert_valid _ _ _ _ _ R3)).
      replace (v_alloc c) with true by (destruct (v_alloc c); [reflexivity|discriminate]).
      pose proof (r_cap _ _ _ _ _ R3). pose proof (r_esz _ _ _ _ _ R3). destruct (r_heap _ _ _ _ _ R3) as (sl & _ & HC).
      replace (negb (v_cap c =? 0)) with true by lia. cbn [andb]. unfold bind, ret, dealloc.
      replace ((v_esz c =? 0) || (v_cap c =? 0)) with false by lia. rewrite (r_data _ _ _ _ _ R3). cbn [pb po andb]. rewrite HC.
      change (negb (nlen (@nil C) =? 0)) with false. cbv iota. change (st_success ST_SUCCESS) with true. cbv iota.
      intros E4. now injection E4 as <-. }
    exists c, w2, (idle c), w4. split; [exact ED|]. split.
    - unfold odestroy. rewrite (bind_ok _ _ _ _ _ (rep_assert_valid _ _ _ _ _ RC)), SC. unfold nlen at 1. rewrite Nat2N.id.
      change 0 with (nlen (@nil (N * list C))) at 1. rewrite (bind_ok _ _ _ _ _ E3).
      revert E4. unfold vdestroy, destroy_range. rewrite CD, VD. now rewrite (bind_ok _ _ _ _ _ (rep_assert_valid _ _ _ _ _ R3)).
    - destruct ps as [|p ps]; [now destruct NE|].
      destruct (LV p (or_introl eq_refl)) as (_ & P1 & P2).
      assert (RV4 : vrep w4 v [] (elems (p :: ps)) []).
      { eapply rep_other; [exact RV| | |].
        - rewrite K4 by congruence. apply WO. intros IB. apply in_map_iff in IB as (q & EB & IQ). destruct (LV q IQ) as (_ & _ & X). congruence.
        - rewrite W4. intros b LB. unfold set_heap in *. cbn [heap nextb] in *. unfold hset. destruct (N.eqb_spec b (blk c)); [reflexivity|].
          now apply R3.
        - rewrite W4. unfold set_heap. cbn [orc]. destruct WO as (_ & _ & _ & -> & _). reflexivity. }
      assert (SV : v_size v = nlen (p :: ps)) by (now rewrite (r_size _ _ _ _ _ R), nlen_elems).
      unfold odestroy. rewrite (bind_ok _ _ _ _ _ (rep_assert_valid _ _ _ _ _ RV4)), SV.
      unfold nlen. rewrite Nat2N.id. cbn [length own_loop].
      assert (ER : d (offset v 0) w4 = Fault UseAfterFree).
      { unfold release. rewrite <- VE. assert (N0 : nnth 0 (elems (p :: ps)) = Some (name (fst p))) by reflexivity.
        rewrite (bind_ok _ _ _ _ _ (elem_read _ _ _ _ _ _ _ RV4 N0)). destruct NM as [_ OW]. rewrite OW. unfold bind, dealloc.
        cbn [N.eqb orb andb pb po]. rewrite K4 by exact P1. destruct WO as (D & _). now rewrite D by (now left). }
      unfold bind. now rewrite ER.
  Qed.

  (** The destructors stop at an element whose object is gone. *)
  Lemma own_loop_gone v : forall (a : list (N * list C)) w pre z c post (p : N * list C),
    vrep w v pre (elems (z ++ a ++ p :: c)) post -> v_esz v = e ->
    Forall (fun p => heap w (fst p) <> None) a -> NoDup (blk v :: map fst a) -> heap w (fst p) = None ->
    forall k, own_loop d v (nlen z) (length a + Datatypes.S k) w = Fault UseAfterFree.
  Proof using NM.
    induction a as [|q a IH]; intros w pre z c post p R E L ND G k.
    - cbn [app length Nat.add own_loop] in *.
      assert (ER : d (offset v (nlen z)) w = Fault UseAfterFree).
      { unfold release. rewrite <- E.
        assert (N0 : nnth (nlen z) (elems (z ++ p :: c)) = Some (name (fst p))).
        { unfold nnth. rewrite nth_error_map. change (nth_error (z ++ p :: c) (N.to_nat (nlen z))) with (nnth (nlen z) (z ++ p :: c)).
          now rewrite nnth_mid. }
        rewrite (bind_ok _ _ _ _ _ (elem_read _ _ _ _ _ _ _ R N0)). destruct NM as [_ OW]. rewrite OW. unfold bind, dealloc.
        cbn [N.eqb orb andb pb po]. now rewrite G. }
      unfold bind. now rewrite ER.
    - apply NoDup_cons_iff in ND as [N1 N2]. cbn [map] in N1, N2. apply NoDup_cons_iff in N2 as [N2 N3].
      apply Forall_cons_iff in L as [L1 L2].
      destruct (release_ok e name own NM pre post w v (z ++ (q :: a) ++ p :: c) (nlen z) q R E) as (w1 & E1 & WO & R1).
      { now apply nnth_mid. } { exact L1. } { intros Eq. apply N1. now left. }
      cbn [length Nat.add own_loop]. rewrite (bind_ok _ _ _ _ _ E1).
      assert (LT : nlen z + 1 < W64).
      { pose proof (rep_cap_lt _ _ _ _ _ R). pose proof (r_le _ _ _ _ _ R) as LE. unfold nlen in *.
        rewrite map_length, !app_length in LE. cbn [length] in LE. lia. }
      rewrite wadd_small by exact LT. replace (nlen z + 1) with (nlen (z ++ [q])) by (unfold nlen; rewrite app_length; cbn [length]; lia).
      apply (IH w1 pre (z ++ [q]) c post p).
      + now rewrite <- app_assoc.
      + exact E.
      + rewrite Forall_forall in *. intros x I. destruct WO as (_ & K & _). rewrite K; [now apply L2|].
        intros [Eq|[]]. apply N2. rewrite Eq. now apply in_map.
      + constructor; [|exact N3]. intros I. apply N1. now right.
      + destruct WO as (D & K & _). destruct (N.eq_dec (fst p) (fst q)) as [->|NE]; [apply D; now left|].
        rewrite K; [exact G|]. intros [Eq|[]]. congruence.
  Qed.
  Lemma own_loop_cap v k : forall n i, own_loop d (set_cap v k) i n = own_loop d v i n.
  Proof. induction n as [|n IH]; intros i; cbn [own_loop]; [reflexivity|]. rewrite IH. reflexivity. Qed.

  Lemma refused_twice w0 cap g s ops v0 w1 v w rs n o' st :
    init_args_ok w0 e cap None g s -> Forall warg_ok ops -> room (wdemands ops) e ->
    vinit_ex e cap None true g s w0 = Ok (ST_SUCCESS, Some v0) w1 ->
    run_wops e name own v0 ops w1 = Ok (rs, v) w -> n < nlen (snd (wspecs ops [])) ->
    v_shrink v <> 0 -> n * v_shrink v < snd (vget_capacity v) -> 1 <= n \/ 1 < snd (vget_capacity v) -> o' (tick w) = AFail st ->
    exists v1 w2, oresize d v n (with_oracle w o') = Ok (err_status st, v1) w2 /\ vget_size v1 = (ST_SUCCESS, nlen (snd (wspecs ops []))) /\
      odestroy d v1 w2 = Fault UseAfterFree.
  Proof.
    intros I A F E0 E LN SN LC CN O. destruct (start w0 cap g s NM I) as (v0' & w1' & E0' & H0). rewrite E0 in E0'. injection E0' as <- <-.
    destruct I as (W0 & AO & _).
    destruct (steps e name own NM true [] [] 0 0 w0 W0 ops w1 v0 [] H0 A) as (rs' & v' & w' & ps & E' & H & S).
    { change (nlen (@nil (N * list C))) with 0. exact F. }
    rewrite E in E'. injection E' as <- <- <-. unfold wsps in S; cbn [map] in S.
    assert (LF : nlen (snd (wspecs ops [])) <= wdemands ops).
    { assert (X : forall ops (l : list (list C)), nlen (snd (wspecs ops l)) <= nlen l + wdemands ops).
      { clear. induction ops as [|o ops IH]; intros l; cbn [wspecs wdemands snd]; [lia|]. pose proof (wspec_len o l) as L1.
        destruct (wspec o l) as [r l1]. cbn [snd] in L1. specialize (IH l1). destruct (wspecs ops l1) as [rs l2]. cbn [snd] in *. lia. }
      specialize (X ops []). change (nlen (@nil (list C))) with 0 in X. lia. }
    rewrite S in *. cbn [snd] in *. rewrite nlen_snd in *.
    pose proof (h_rep _ _ _ _ _ _ _ _ _ _ _ H) as R. destruct (h_cfg _ _ _ _ _ _ _ _ _ _ _ H) as (VA & VE & VD).
    destruct (holds_nofail _ _ _ _ _ _ _ _ _ _ _ H) as [NF _]. apply (fun R => rep_with_oracle _ _ _ _ _ o' R NF) in R.
    cbn [vget_capacity snd] in *. destruct (growth_bounds _ _ _ _ _ R) as [GB SB].
    assert (SZ : v_size v = nlen ps) by (now rewrite (r_size _ _ _ _ _ R), nlen_elems).
    destruct (nsplit1 n ps LN) as (a & p & c & -> & LA).
    pose proof (h_mem _ _ _ _ _ _ _ _ _ _ _ H) as MM.
    assert (ND : NoDup (blk v :: map fst a) /\ NoDup (blk v :: map fst (p :: c))).
    { pose proof (m_apart _ _ _ _ MM) as AP. rewrite map_app in AP. apply NoDup_cons_iff in AP as [A1 A2]. rewrite in_app_iff in A1.
      split; constructor; try tauto; clear -A2.
      - induction (map fst a) as [|y k IH]; [constructor|]. cbn [app] in A2. inversion A2; subst. constructor; auto.
        intros X. apply H1. apply in_or_app. now left.
      - induction (map fst a) as [|y k IH]; [exact A2|]. cbn [app] in A2. inversion A2; auto. }
    destruct ND as [NDa NDc].
    assert (LV : forall q, In q (a ++ p :: c) -> heap w (fst q) <> None).
    { intros q IQ. eapply mem_live; [exact MM|]. now apply in_map. }
    destruct (own_loop_ok e name own NM [] [] v (p :: c) (with_oracle w o') a []) as (w2 & E2 & WO & R2).
    { now rewrite app_nil_r. } { exact VE. }
    { rewrite Forall_forall. intros q IQ. apply LV. rewrite in_app_iff. now right. } { exact NDc. }
    rewrite app_nil_r in R2.
    assert (LL : nlen (a ++ p :: c) = n + N.of_nat (length (p :: c))) by (unfold nlen in *; rewrite app_length; lia).
    destruct (resize_refused w2 v [] _ [] n None st R2 VA) as (w3 & E3 & X).
    { destruct WO as (_ & _ & _ & -> & -> & _). exact O. }
    { rewrite VE. eapply fits_le; [|exact F]. lia. } { rewrite nlen_elems. lia. }
    { apply orb_true_iff. right. lia. } { nia. }
    replace (n <? nlen (elems (a ++ p :: c))) with true in X by (rewrite nlen_elems; lia). rewrite VD in X.
    destruct X as ((w2' & -> & G) & _). rewrite nfirst_skip in G.
    set (k := N.max 1 (n * v_growth v)) in *.
    exists (set_cap v k), (ticked w2'). split; [|split].
    - unfold oresize. rewrite SZ. replace (n =? nlen (a ++ p :: c)) with false by lia. replace (n <? nlen (a ++ p :: c)) with true by lia.
      replace (N.to_nat (nlen (a ++ p :: c) - n)) with (length (p :: c)) by lia. rewrite <- LA at 1. rewrite (bind_ok _ _ _ _ _ E2).
      etransitivity; [|exact E3]. unfold vresize_ex, destroy_range. rewrite VD, SZ.
      replace (n =? nlen (a ++ p :: c)) with false by lia. replace (n <? nlen (a ++ p :: c)) with true by lia.
      cbn [nonnull andb]. unfold bind, ret, assert.
      destruct (should_grow n (v_cap v) || should_shrink n (v_cap v) (v_shrink v)); [|reflexivity].
      destruct (negb (1 <=? v_growth v) && checked w2); [reflexivity|].
      destruct (vreallocate v (wmul n (v_growth v)) w2) as [[st' v1] w4|f]; [|reflexivity]. destruct (negb (st_success st')); reflexivity.
    - unfold vget_size, set_cap. cbn [v_size]. now rewrite SZ.
    - destruct G as [RG _ FG].
      assert (RT : vrep (ticked w2') v [] (elems (a ++ p :: c)) []) by (destruct RG; split; auto).
      assert (HG : forall b, b <> blk v -> heap (ticked w2') b = heap w2 b) by (intros b NB; now apply (fr_heap _ _ _ _ FG)).
      unfold odestroy. assert (AV : assert_valid (set_cap v k) (ticked w2') = Ok tt (ticked w2')) by exact (rep_assert_valid _ _ _ _ _ RT).
      rewrite (bind_ok _ _ _ _ _ AV). cbn [set_cap v_size]. rewrite SZ, LL. rewrite own_loop_cap.
      replace (N.to_nat (n + N.of_nat (length (p :: c)))) with (length a + Datatypes.S (length c))%nat by (unfold nlen in LA; cbn [length]; lia).
      change 0 with (nlen (@nil (N * list C))). unfold bind at 1. rewrite (own_loop_gone v a (ticked w2') [] [] c [] p RT VE); [reflexivity| | |].
      + rewrite Forall_forall. intros q IQ. rewrite HG.
        * destruct WO as (_ & K & _). rewrite K; [apply LV; rewrite in_app_iff; now left|]. intros IB.
          pose proof (m_apart _ _ _ _ MM) as AP. apply NoDup_cons_iff in AP as [_ A2]. rewrite map_app in A2.
          apply (in_map fst) in IQ. apply in_split in IQ as (x & y & EQ). rewrite EQ, <- app_assoc in A2. cbn [app] in A2.
          apply NoDup_remove_2 in A2. apply A2. rewrite !in_app_iff. right. now right.
        * intros EB. apply NoDup_cons_iff in NDa as [X _]. apply X. rewrite <- EB. now apply in_map.
      + exact NDa.
      + rewrite HG; [|intros EB; apply NoDup_cons_iff in NDc as [X _]; apply X; rewrite <- EB; now left].
        destruct WO as (D & _). apply D. now left.
  Qed.
End Growable.

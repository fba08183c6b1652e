(** Proofs about vectors whose elements own memory: one refused request. *)
From Verif Require Import Base NListFacts Status Mem MemFacts VectorModel VectorSpec VectorDriver
  VectorRep VectorProofs VectorProofs2 VectorProofs3 VectorRefine VectorSearch VectorFail VectorMore
  OracleProofs RefuseSpec RefuseProofs OwnModel OwnDriver OwnProofs OwnSwap OwnProofs2 OwnKeep.
From Coq Require Import Permutation.
From Coq Require Import ZifyBool ZifyNat ZifyN.

Section OwnRefuse.
  Context {C : Type}.
  Notation vec := (vector C).
  Implicit Types (w : world C) (v : vec) (ps : list (N * list C)).
  Variables (e : N) (name : N -> list C) (own : list C -> N).
  Hypothesis NM : names_ok e name own.
  Notation d := (release e own).
  Notation elems ps := (map (fun p : N * list C => name (fst p)) ps).

  (** What a refused call leaves: the objects, in a vector of which the capacity may be wrong. *)
  Record left w0 w v ps : Prop := mkleft {
    l_rep : exists c, vrep w (set_cap v c) [] (elems ps) [];
    l_cfg : v_alloc v = true /\ v_esz v = e /\ v_dtor v = None;
    l_cap : 1 <= v_cap v;
    l_tick : 1 <= tick w;
    l_mem : mem w0 w v ps
  }.

  Lemma mem_set_cap w0 w v c ps : mem w0 w (set_cap v c) ps -> mem w0 w v ps.
  Proof. intros [B A NW NV NX RS]. split; assumption. Qed.

  Lemma over_left w0 w v w' v' ps k : vrep w v [] (elems ps) [] -> wfw w0 -> (v_alloc v = true /\ v_esz v = e /\ v_dtor v = None) ->
    forall ps', mem w0 w v ps' -> overstated w v w' v' [] (elems ps') [] k -> 1 <= k -> 1 <= tick w' -> left w0 w' v' ps'.
  Proof.
    intros R W0 (VA & VE & VD) ps' MM [K G] K1 T. pose proof (mem_good _ _ _ _ _ _ _ _ _ _ _ _ MM W0 R G) as M2.
    destruct G as [RG (CA & CG & CS & CE & CD) _]. cbn [set_cap v_alloc v_esz v_dtor] in CA, CE, CD.
    split; [now exists (v_cap v)| |lia|exact T|now apply mem_set_cap in M2]. rewrite CA, CE, CD. auto.
  Qed.

  Lemma left_owns w0 w v ps : left w0 w v ps -> owns own w v (map snd ps).
  Proof.
    intros [[c R] _ _ _ MM]. destruct (rep_shows _ _ _ _ _ R) as [SZ RD].
    split; [rewrite nlen_snd, <- (nlen_elems name); exact SZ|]. intros i. unfold read_object, bind.
    change (read_elem v i w) with (read_elem (set_cap v c) i w). rewrite RD.
    unfold nnth. rewrite !nth_error_map. destruct (nth_error ps (N.to_nat i)) as [p|] eqn:E; cbn [option_map]; [|reflexivity].
    destruct NM as [_ OW]. rewrite OW. pose proof (m_bufs _ _ _ _ MM) as B. rewrite Forall_forall in B.
    now rewrite (B p (nth_error_In _ _ E)).
  Qed.

  Lemma left_blocks w0 w v ps : left w0 w v ps -> wfw w0 ->
    exists bs, NoDup bs /\ nlen bs = 1 + nlen (map snd ps) /\ (forall b, In b bs -> heap w0 b = None /\ heap w b <> None) /\
      forall b, ~ In b bs -> heap w b = heap w0 b.
  Proof.
    intros [[c R] (VA & _) _ _ MM] W0. pose proof (fun b => mem_live _ _ _ _ b MM) as LV. destruct MM as [B AP NW NV NX RS].
    exists (blk v :: map fst ps). split; [exact AP|]. split; [|split].
    - rewrite nlen_cons, nlen_snd. f_equal. unfold nlen. now rewrite map_length.
    - intros b IB. split; [apply W0; destruct IB as [<-|IB]; [now apply NV|now apply NW]|]. destruct IB as [<-|IB]; [|now apply LV].
      destruct (r_heap _ _ _ _ _ R) as (sl & _ & HH). change (blk (set_cap v c)) with (blk v) in HH. rewrite HH. discriminate.
    - intros b NI. apply RS; [intros ->; apply NI; now left|]. intros IB. apply NI. now right.
  Qed.

  Lemma left_destroy w0 w v ps : left w0 w v ps -> wfw w0 ->
    exists v' w', odestroy d v w = Ok (ST_SUCCESS, v') w' /\ forall b, heap w' b = heap w0 b.
  Proof.
    intros [[c R] (VA & VE & VD) K1 T MM] W0.
    assert (SZ : v_size v = nlen ps) by (pose proof (r_size _ _ _ _ _ R) as X; cbn [set_cap v_size] in X; now rewrite X, nlen_elems).
    pose proof (m_apart _ _ _ _ MM) as AP.
    destruct (own_loop_ok e name own NM [] [] (set_cap v c) ps w [] []) as (w1 & E1 & WO & R1).
    { cbn [app]. now rewrite app_nil_r. } { exact VE. }
    { rewrite Forall_forall. intros p I. eapply mem_live; [exact MM|]. now apply in_map. } { exact AP. }
    rewrite own_loop_cap in E1. cbn [app] in R1. rewrite app_nil_r in R1.
    assert (T1 : 1 <= tick w1) by (destruct WO as (_ & _ & _ & _ & -> & _); exact T).
    destruct (wrong_cap_destroy w1 v c _ R1 T1 K1 VA) as (w' & v' & E2 & _ & D2 & K2).
    assert (AV : forall w pre xs post, vrep w (set_cap v c) pre xs post -> assert_valid v w = Ok tt w).
    { intros u pre xs post RU. exact (rep_assert_valid _ _ _ _ _ RU). }
    exists v', w'. split.
    - unfold odestroy. rewrite (bind_ok _ _ _ _ _ (AV _ _ _ _ R)), SZ. unfold nlen at 1. rewrite Nat2N.id.
      change 0 with (nlen (@nil (N * list C))) at 1. rewrite (bind_ok _ _ _ _ _ E1).
      revert E2. unfold vdestroy, destroy_range. rewrite VD. now rewrite (bind_ok _ _ _ _ _ (AV _ _ _ _ R1)).
    - assert (M1 : mem w0 w1 v ([] ++ [])).
      { eapply mem_without; [|exact W0|exact WO]. cbn [app]. now rewrite app_nil_r. }
      intros b. destruct (N.eq_dec b (blk v)) as [->|NE].
      + rewrite D2. symmetry. apply W0. now apply (m_vec _ _ _ _ M1).
      + rewrite K2 by exact NE. apply (m_rest _ _ _ _ M1); [exact NE|intros []].
  Qed.

  (** The client takes back the object a refused call did not store. *)
  Lemma take_back_refused w0 w2 v c ps b buf r : vrep w2 (set_cap v c) [] (elems ps) [] ->
    (v_alloc v = true /\ v_esz v = e /\ v_dtor v = None) -> 1 <= v_cap v -> 1 <= tick w2 -> mem w0 w2 v (ps ++ [(b, buf)] ++ []) ->
    wfw w0 -> st_success r = false -> exists w', unless_taken b (r, v) w2 = Ok (r, v) w' /\ left w0 w' v ps.
  Proof.
    intros R CF K1 T MM W0 ER.
    assert (L : heap w2 b = Some buf).
    { pose proof (m_bufs _ _ _ _ MM) as B. rewrite Forall_forall in B. apply (B (b, buf)). rewrite !in_app_iff. right. left. now left. }
    assert (NB : b <> blk v).
    { pose proof (m_apart _ _ _ _ MM) as A. apply NoDup_cons_iff in A as [A _]. intros E. apply A. rewrite <- E, !map_app, !in_app_iff.
      right. left. now left. }
    set (w' := set_heap w2 (hset (heap w2) b None)).
    assert (WO : without w2 w' (map fst [(b, buf)])).
    { split; [|split; [|now repeat split]].
      - intros x [<-|[]]. cbn. unfold hset. now rewrite N.eqb_refl.
      - intros x NI. cbn. unfold hset. destruct (N.eqb_spec x b) as [->|]; [destruct NI; now left|reflexivity]. }
    exists w'. split.
    - unfold unless_taken. cbn [fst]. rewrite ER. unfold bind, dealloc. cbn [N.eqb orb andb pb po negb]. now rewrite L.
    - split; [|exact CF|exact K1|exact T|].
      + exists c. eapply rep_other; [exact R| |eapply without_wf; [exact WO|apply R]|reflexivity]. apply WO. intros [E|[]]. now apply NB.
      + rewrite <- (app_nil_r ps). eapply mem_without; [exact MM|exact W0|exact WO].
  Qed.

  Lemma insert_kept w0 w v ps i buf (o : N -> vop C) st :
    (o = (fun b => OPushBack (name b)) /\ i = nlen ps \/ o = (fun b => OInsert i (name b)) \/
     o = (fun b => OEmplaceEx i (Some (fun _ => (ST_SUCCESS, name b))))) ->
    vrep w v [] (elems ps) [] -> (v_alloc v = true /\ v_esz v = e /\ v_dtor v = None) -> mem w0 w v ps -> wfw w0 -> fits (nlen ps + 1) e ->
    i <= nlen ps -> v_cap v < nlen ps + 1 -> orc w (tick w) = AFail st ->
    exists v' w', (let* b := new_object buf in let* rv := run_op v (o b) in unless_taken b rv) w = Ok (err_status st, v') w' /\ left w0 w' v' ps.
  Proof.
    intros HO R CF MM W0 F LI LC O. pose proof CF as (VA & VE & VD).
    destruct (argw_rep _ _ _ _ _ buf R) as (R1 & _ & _). set (w1 := argw w buf) in *.
    assert (NW : new_object buf w = Ok (nextb w) w1) by reflexivity.
    assert (M1 : mem w0 w1 v (ps ++ [(nextb w, buf)] ++ [])).
    { apply mem_new_object; [now rewrite app_nil_r|apply R|]. destruct (r_heap _ _ _ _ _ R) as (s & _ & ->). discriminate. }
    assert (AO : arg_ok (v_esz v) (o (nextb w))).
    { rewrite VE. destruct HO as [[-> _]|[->| ->]]; cbn [arg_ok]; [apply NM|apply NM|]. intros x _. split; [reflexivity|apply NM]. }
    assert (FF : fits (nlen (elems ps) + demand (o (nextb w))) (v_esz v)).
    { rewrite VE, nlen_elems. destruct HO as [[-> _]|[->| ->]]; exact F. }
    assert (AK : asked (cfg_of v) (o (nextb w)) (nlen (elems ps)) (v_cap v) = Some ((nlen ps + 1) * v_growth v)).
    { rewrite nlen_elems. destruct HO as [[-> _]|[->| ->]]; cbn [asked]; replace (v_cap v <? nlen ps + 1) with true by lia;
        try replace (i <=? nlen ps) with true by lia; reflexivity. }
    destruct (run_op_refused w1 v [] _ [] (o (nextb w)) _ st R1 VA O AO FF AK) as (w2 & v2 & xs2 & E2 & OV & S).
    pose proof (asked_pos _ _ _ _ _ _ _ R1 FF AK) as K1.
    pose proof (run_op_asks _ _ _ _ _ _ (dlog w) R1 VA AO FF _ _ _ E2) as T. unfold requests in T. cbn [s_elems s_cap] in T. rewrite AK in T.
    assert (xs2 = elems ps) as ->.
    { destruct HO as [[-> _]|[->| ->]]; cbn [vrefused s_elems] in S; now injection S as -> _. }
    destruct OV as [KV G]. pose proof (mem_good _ _ _ _ _ _ _ _ _ _ _ _ M1 W0 R1 G) as M2. apply mem_set_cap in M2.
    destruct G as [RG (CA & CG & CS & CE & CD) _]. cbn [set_cap v_alloc v_esz v_dtor] in CA, CE, CD.
    destruct (take_back_refused w0 w2 v2 _ ps (nextb w) buf (err_status st) RG) as (w' & E3 & LF); auto.
    { rewrite CA, CE, CD. exact CF. } { lia. } { lia. } { apply st_success_err. }
    exists v2, w'. split; [|exact LF]. rewrite (bind_ok _ _ _ _ _ NW), (bind_ok _ _ _ _ _ E2). exact E3.
  Qed.

  Lemma realloc_kept w0 w v ps n st :
    vrep w v [] (elems ps) [] -> (v_alloc v = true /\ v_esz v = e /\ v_dtor v = None) -> mem w0 w v ps -> wfw w0 ->
    1 <= n \/ 1 < v_cap v -> orc w (tick w) = AFail st ->
    exists v' w', vreallocate v n w = Ok (err_status st, v') w' /\ left w0 w' v' ps.
  Proof.
    intros R CF MM W0 L O. exists (set_cap v (N.max 1 n)), (ticked w). pose proof CF as (VA & _).
    split; [now apply (vreallocate_refused _ _ _ _ _ _ _ R VA O)|].
    eapply over_left; [exact R|exact W0|exact CF|exact MM|apply overstated_same; [exact VA|now apply good_refl]|lia|cbn; lia].
  Qed.

  Lemma delete_kept w0 w v ps i n st :
    vrep w v [] (elems ps) [] -> (v_alloc v = true /\ v_esz v = e /\ v_dtor v = None) -> mem w0 w v ps -> wfw w0 -> fits (nlen ps) e ->
    i + n < W64 -> 1 <= n -> i + n <= nlen ps -> negb (v_shrink v =? 0) && ((nlen ps - n) * v_shrink v <? v_cap v) = true ->
    orc w (tick w) = AFail st ->
    exists v' w' ps', odelete_range d v i n w = Ok (err_status st, v') w' /\ left w0 w' v' ps' /\
      nfirst i (map snd ps) ++ nskip (i + n) (map snd ps) = map snd ps'.
  Proof.
    intros R CF MM W0 F LT N1 LE B O. pose proof CF as (VA & VE & VD). unfold odelete_range. rewrite wadd_small by exact LT.
    assert (SZ : v_size v = nlen ps) by (now rewrite (r_size _ _ _ _ _ R), nlen_elems).
    rewrite SZ. replace (n =? 0) with false by lia. replace (nlen ps <? i + n) with false by lia.
    destruct (split3 ps i n LE) as (a & m & c & -> & LA & LM).
    destruct (own_loop_ok e name own NM [] [] v m w a c R VE) as (w1 & E1 & WO & R1).
    { rewrite Forall_forall. intros p I. eapply mem_live; [exact MM|]. rewrite !map_app, !in_app_iff. right. left. now apply in_map. }
    { pose proof (m_apart _ _ _ _ MM) as A. rewrite !map_app in A. apply NoDup_cons_iff in A as [A1 A2]. constructor.
      - rewrite !in_app_iff in A1. tauto.
      - clear -A2. induction (map fst a) as [|x l IH]; cbn [app] in A2; [|inversion A2; subst; auto].
        induction (map fst m) as [|y k IH]; [constructor|]. cbn [app] in A2. inversion A2; subst. constructor; auto.
        intros I. apply H1. apply in_or_app. now left. }
    pose proof (mem_without _ _ _ _ _ _ _ MM W0 WO) as M1.
    assert (O1 : orc w1 (tick w1) = AFail st) by (destruct WO as (_ & _ & _ & -> & -> & _); exact O).
    destruct (delete_refused w1 v [] (elems (a ++ m ++ c)) [] i n st R1 VA O1) as (w2 & v2 & E2 & OV & _).
    { now rewrite nlen_elems, VE. } { exact N1. } { now rewrite nlen_elems. } { now rewrite nlen_elems. }
    assert (T2 : tick w2 = tick w1 + 1).
    { assert (AO : arg_ok (C := C) (v_esz v) (ODeleteRange i n)) by exact LT.
      assert (FF : fits (nlen (elems (a ++ m ++ c)) + demand (C := C) (ODeleteRange i n)) (v_esz v)) by (rewrite nlen_elems, VE; cbn [demand]; now rewrite N.add_0_r).
      pose proof (run_op_asks _ _ _ _ _ _ (dlog w) R1 VA AO FF _ _ _ E2) as T. unfold requests in T. cbn [s_elems s_cap asked cfg_of c_shrink c_growth] in T.
      rewrite nlen_elems in T. replace (0 <? n) with true in T by lia. replace (i + n <=? nlen (a ++ m ++ c)) with true in T by lia.
      rewrite B in T. exact T. }
    assert (EQ : ldelete i n (elems (a ++ m ++ c)) = elems (a ++ c)).
    { unfold ldelete. rewrite !elems_app. rewrite <- LA, <- LM, <- (nlen_elems name a), <- (nlen_elems name m), nfirst_here.
      f_equal. rewrite app_assoc, <- nlen_app'. apply nskip_here. }
    rewrite EQ in OV.
    exists v2, w2, (a ++ c). split; [|split].
    - replace (N.to_nat (i + n - i)) with (length m) by (unfold nlen in LM; lia). rewrite <- LA.
      rewrite (bind_ok _ _ _ _ _ E1). rewrite <- E2. unfold vdelete_range, destroy_range. rewrite VD, SZ, wadd_small by exact LT.
      replace (n =? 0) with false by lia. replace (nlen (a ++ m ++ c) <? i + n) with false by lia. rewrite LA. reflexivity.
    - eapply over_left; [exact R1|exact W0|exact CF|exact M1|exact OV|lia|lia].
    - rewrite !map_app. rewrite <- LA, <- LM, <- (nlen_snd a), <- (nlen_snd m), nfirst_here. f_equal.
      rewrite app_assoc, <- nlen_app'. apply nskip_here.
  Qed.

  (** The last element is deleted like any other. *)
  Lemma pop_is_delete v w : v_dtor v = None -> 1 <= v_size v -> v_size v < W64 -> opop_back d v w = odelete_range d v (v_size v - 1) 1 w.
  Proof.
    intros VD S1 SL. unfold opop_back, odelete_range. replace (v_size v =? 0) with false by lia. cbn [N.eqb].
    rewrite wsub_small by lia. rewrite wadd_small by lia. replace (v_size v - 1 + 1) with (v_size v) by lia.
    replace (v_size v <? v_size v) with false by lia. replace (N.to_nat (v_size v - (v_size v - 1))) with 1%nat by lia.
    cbn [own_loop]. unfold bind, ret. change (1 =? 0) with false. cbv iota beta. destruct (d (offset v (v_size v - 1)) w); [|reflexivity]. cbn [st_success negb].
    reflexivity.
  Qed.

  Lemma refused_step w0 w v ps o st :
    vrep w v [] (elems ps) [] -> (v_alloc v = true /\ v_esz v = e /\ v_dtor v = None) -> mem w0 w v ps -> wfw w0 ->
    warg_ok o -> fits (nlen ps + wdemand o) e -> wasks (v_shrink v) (v_cap v) o (map snd ps) = true -> orc w (tick w) = AFail st ->
    exists v' w' ps', run_wop e name own v o w = Ok (err_status st, v') w' /\ left w0 w' v' ps' /\ wkept o (map snd ps) = map snd ps'.
  Proof.
    intros R CF MM W0 AO F AK O. pose proof CF as (VA & VE & VD).
    assert (SZ : v_size v = nlen ps) by (now rewrite (r_size _ _ _ _ _ R), nlen_elems).
    pose proof (rep_cap_lt _ _ _ _ _ R) as CL. pose proof (r_le _ _ _ _ _ R) as LE. rewrite nlen_elems in LE.
    assert (KEEP : forall m, (exists v' w', m w = Ok (err_status st, v') w' /\ left w0 w' v' ps) ->
      exists v' w' ps', m w = Ok (err_status st, v') w' /\ left w0 w' v' ps' /\ map snd ps = map snd ps').
    { intros m (v' & w' & E & L). exists v', w', ps. auto. }
    destruct o; cbn [run_wop wkept wasks wfull warg_ok wdemand] in *; rewrite ?nlen_snd in AK; try discriminate AK.
    - apply KEEP. apply (insert_kept w0 w v ps (nlen ps) buf (fun b => OPushBack (name b)) st); auto; lia.
    - apply KEEP. apply (insert_kept w0 w v ps i buf (fun b => OInsert i (name b)) st); auto; lia.
    - apply KEEP. apply (insert_kept w0 w v ps i buf (fun b => OEmplaceEx i (Some (fun _ => (ST_SUCCESS, name b)))) st); auto; lia.
    - apply KEEP. destruct (realloc_kept w0 w v ps (nlen ps + 1) st R CF MM W0) as (v' & w' & E & L); [lia|exact O|].
      exists v', w'. split; [|exact L]. unfold vreserve, vget_size. cbn [snd]. rewrite SZ, AK. rewrite (bind_ok _ _ _ _ _ E).
      now rewrite st_success_err.
    - apply andb_prop in AK as [AK B]. destruct (delete_kept w0 w v ps i n st R CF MM W0) as (v' & w' & ps' & E & L & S); auto; try lia.
      { now rewrite N.add_0_r in F. }
      exists v', w', ps'. split; [exact E|]. split; [exact L|]. cbn [wspec]. rewrite nlen_snd. replace (n =? 0) with false by lia.
      now replace (nlen ps <? i + n) with false by lia.
    - apply andb_prop in AK as [AK B]. destruct (delete_kept w0 w v ps (nlen ps - 1) 1 st R CF MM W0) as (v' & w' & ps' & E & L & S); auto; try lia.
      { now rewrite N.add_0_r in F. }
      exists v', w', ps'. split; [rewrite pop_is_delete by (auto; lia); now rewrite SZ|]. split; [exact L|]. cbn [wspec]. rewrite nlen_snd.
      replace (nlen ps =? 0) with false by lia. cbn [snd]. rewrite <- S. rewrite (nskip_all _ (map snd ps)) by (rewrite nlen_snd; lia). now rewrite app_nil_r.
    - apply KEEP. unfold vreserve. rewrite AK. apply realloc_kept; auto. lia.
    - apply KEEP. unfold vshrink_to_fit. rewrite SZ. apply realloc_kept; auto. lia.
  Qed.

  Lemma refused_kept w0 cap g s ops v0 w1 v w rs o o' st :
    init_args_ok w0 e cap None g s -> Forall warg_ok (ops ++ [o]) -> room (wdemands (ops ++ [o])) e ->
    vinit_ex e cap None true g s w0 = Ok (ST_SUCCESS, Some v0) w1 -> run_wops e name own v0 ops w1 = Ok (rs, v) w ->
    wasks s (snd (vget_capacity v)) o (snd (wspecs ops [])) = true -> o' (tick w) = AFail st ->
    let l := wkept o (snd (wspecs ops [])) in
    exists v1 w2, run_wop e name own v o (with_oracle w o') = Ok (err_status st, v1) w2 /\ owns own w2 v1 l /\
      (exists bs, NoDup bs /\ nlen bs = 1 + nlen l /\ (forall b, In b bs -> heap w0 b = None /\ heap w2 b <> None) /\
         forall b, ~ In b bs -> heap w2 b = heap w0 b) /\
      exists v' w', odestroy d v1 w2 = Ok (ST_SUCCESS, v') w' /\ forall b, heap w' b = heap w0 b.
  Proof.
    intros I A F E0 E AK O. rewrite <- (shrink_kept s e name own _ _ _ _ _ _ _ _ _ _ _ _ E0 E) in AK. destruct (start e name own w0 cap g s NM I) as (v0' & w1' & E0' & H0). rewrite E0 in E0'. injection E0' as <- <-.
    destruct I as (W0 & _). apply Forall_app in A as [A A']. inversion A' as [|? ? AO _]; subst.
    assert (WD : wdemands (ops ++ [o]) = wdemands ops + wdemand o).
    { clear. induction ops as [|p ops IH]; cbn [app wdemands]; lia. }
    rewrite WD in F.
    destruct (steps e name own NM true [] [] 0 0 w0 W0 ops w1 v0 [] H0 A) as (rs' & v' & w' & ps & E' & H & S).
    { change (nlen (@nil (N * list C))) with 0. eapply fits_le; [|exact F]. lia. }
    rewrite E in E'. injection E' as <- <- <-. unfold wsps in S; cbn [map] in S.
    assert (LF : nlen (snd (wspecs ops [])) <= wdemands ops).
    { assert (X : forall ops (l : list (list C)), nlen (snd (wspecs ops l)) <= nlen l + wdemands ops).
      { clear. induction ops as [|o ops IH]; intros l; cbn [wspecs wdemands snd]; [lia|]. pose proof (wspec_len o l) as L1.
        destruct (wspec o l) as [r l1]. cbn [snd] in L1. specialize (IH l1). destruct (wspecs ops l1) as [rs l2]. cbn [snd] in *. lia. }
      specialize (X ops []). change (nlen (@nil (list C))) with 0 in X. lia. }
    rewrite S in *. cbn [snd] in *. rewrite nlen_snd in LF.
    pose proof (h_rep _ _ _ _ _ _ _ _ _ _ _ H) as R. pose proof (h_cfg _ _ _ _ _ _ _ _ _ _ _ H) as CF.
    destruct (holds_nofail _ _ _ _ _ _ _ _ _ _ _ H) as [NF _]. apply (fun R => rep_with_oracle _ _ _ _ _ o' R NF) in R.
    assert (MM : mem w0 (with_oracle w o') v ps) by (destruct (h_mem _ _ _ _ _ _ _ _ _ _ _ H); split; assumption).
    destruct (refused_step w0 (with_oracle w o') v ps o st R CF MM W0 AO) as (v1 & w2 & ps' & E2 & L & S2); [|exact AK|exact O|].
    { eapply fits_le; [|exact F]. lia. }
    rewrite S2. exists v1, w2. split; [exact E2|]. split; [eapply left_owns; eauto|]. split; [eapply left_blocks; eauto|eapply left_destroy; eauto].
  Qed.
  Lemma refused_twice_s w0 cap g s ops v0 w1 v w rs n o' st :
    init_args_ok w0 e cap None g s -> Forall warg_ok ops -> room (wdemands ops) e ->
    vinit_ex e cap None true g s w0 = Ok (ST_SUCCESS, Some v0) w1 ->
    run_wops e name own v0 ops w1 = Ok (rs, v) w -> n < nlen (snd (wspecs ops [])) ->
    s <> 0 -> n * s < snd (vget_capacity v) -> 1 <= n \/ 1 < snd (vget_capacity v) -> o' (tick w) = AFail st ->
    exists v1 w2, oresize d v n (with_oracle w o') = Ok (err_status st, v1) w2 /\ vget_size v1 = (ST_SUCCESS, nlen (snd (wspecs ops []))) /\
      odestroy d v1 w2 = Fault UseAfterFree.
  Proof.
    intros I A F E0 E LN S0 LC CN O. rewrite <- (shrink_kept s e name own _ _ _ _ _ _ _ _ _ _ _ _ E0 E) in S0, LC.
    exact (refused_twice e name own NM w0 cap g s ops v0 w1 v w rs n o' st I A F E0 E LN S0 LC CN O).
  Qed.
End OwnRefuse.

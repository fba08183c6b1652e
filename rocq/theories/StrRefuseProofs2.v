(** Strings with an allocator that refuses requests: the state after a refused request, and histories. *)
From Coq Require Import ZifyBool ZifyNat ZifyN.
From Verif Require Import Base NListFacts Status Mem MemFacts VectorModel VectorSpec VectorDriver RefuseSpec
  VectorRep VectorProofs VectorProofs2 VectorProofs3 VectorRefine VectorFail VectorMore OracleProofs RefuseProofs
  StringModel StringSpec StringDriver StringBytes StringProofs StrRefuseSpec StrRefuseProofs.

(** The string [s'] with the characters [cs'], of which only the capacity [k] may be wrong. *)
Definition soverstated w s w' s' (cs' : list N) (k : N) : Prop :=
  s_flags s' = s_flags s /\ overstated w (s_vec s) w' (s_vec s') [] (cells (cs' ++ [0])) [] k.

Lemma nskip_cells n l : nskip n (cells l) = cells (nskip n l).
Proof. unfold nskip, cells. now rewrite skipn_map. Qed.
Lemma nfirst_cells n l : nfirst n (cells l) = cells (nfirst n l).
Proof. unfold nfirst, cells. now rewrite firstn_map. Qed.

Lemma nfirst_short {X} n (a b : list X) : n <= nlen a -> nfirst n (a ++ b) = nfirst n a.
Proof. intros L. unfold nfirst. rewrite firstn_app. unfold nlen in L. replace (N.to_nat n - length a)%nat with 0%nat by lia. cbn. apply app_nil_r. Qed.
Lemma nskip_short {X} n (a b : list X) : n <= nlen a -> nskip n (a ++ b) = nskip n a ++ b.
Proof. intros L. unfold nskip. rewrite skipn_app. unfold nlen in L. now replace (N.to_nat n - length a)%nat with 0%nat by lia. Qed.

Section Refused.
  Variables (w : Mem.world N) (s : str) (cs : list N) (e : N).
  Hypothesis (SR : srep w s [] cs []) (A : v_alloc (s_vec s) = true) (O : orc w (tick w) = AFail e).
  Notation v := (s_vec s).
  Notation st0 := (mksst cs (v_cap v - 1)).
  Notation ask o := (asked (mkcfg false (v_growth v) (v_shrink v) 1 (@None (list N -> list N))) o (nlen cs + 1) (v_cap v)).

  Lemma refused_fail (m : Mem.M N (status * vector N)) f w' v' (w0 : Mem.world N) : m w0 = Ok (err_status e, v') w' ->
    (let* (r, v1) := m in if negb (st_success r) then ret (r, with_vec s v1) else f v1) w0 = Ok (err_status e, with_vec s v') w'.
  Proof. intros E. rewrite (bind_ok _ _ _ _ _ E). now rewrite st_success_err. Qed.
  Lemma refused_tail (m : Mem.M N (status * vector N)) w' v' (w0 : Mem.world N) : m w0 = Ok (err_status e, v') w' ->
    (let* (r, v1) := m in ret (r, with_vec s v1)) w0 = Ok (err_status e, with_vec s v') w'.
  Proof. intros E. now rewrite (bind_ok _ _ _ _ _ E). Qed.

  Let R : vrep w v [] (cells (cs ++ [0])) [].
  Proof. apply SR. Qed.
  Let E1 : v_esz v = 1.
  Proof. apply SR. Qed.
  Let D0 : v_dtor v = None.
  Proof. apply SR. Qed.
  Let L1 : nlen (cells (cs ++ [0])) = nlen cs + 1.
  Proof. now rewrite nlen_cells, nlen_app. Qed.

  (** Resize: the bytes stay. *)
  Lemma sresize_refused n k : n * 256 < W64 -> ask (OResize n) = Some k ->
    exists w' v', vresize v n w = Ok (err_status e, v') w' /\ overstated w v w' v' [] (cells (cs ++ [0])) [] k.
  Proof.
    intros F AK. destruct (resize_refused' w v [] (cells (cs ++ [0])) [] n None k e R A O) as (w' & v' & xs' & E & OV & X).
    - rewrite E1. unfold fits. lia.
    - rewrite L1. exact AK.
    - exists w', v'. split; [exact E|]. replace (cells (cs ++ [0])) with xs'; [exact OV|]. rewrite D0 in X.
      destruct (n <? _); injection X as -> _; [|reflexivity]. apply nfirst_skip.
  Qed.
  (** Growing leaves the vector and the memory. *)
  Lemma grown_refused w0 n k : vrep w0 v [] (cells (cs ++ [0])) [] -> orc w0 (tick w0) = AFail e -> n * 256 < W64 -> nlen cs + 1 <= n ->
    ask (OResize n) = Some k -> vresize v n w0 = Ok (err_status e, set_cap v k) (ticked w0).
  Proof.
    intros R0 O0 F LN AK. cbn [asked c_shrink c_growth] in AK. destruct (N.eqb_spec n (nlen cs + 1)); [discriminate AK|].
    destruct (_ || _) eqn:B; [|discriminate AK].
    assert (K : (1 <= n * v_growth v \/ 1 < v_cap v) /\ N.max 1 (n * v_growth v) = k).
    { destruct (N.leb_spec 1 (n * v_growth v)); [injection AK as <-; lia|]. destruct (N.ltb_spec 1 (v_cap v)); [|discriminate AK].
      injection AK as <-. lia. }
    destruct K as [K <-].
    destruct (resize_refused w0 v [] (cells (cs ++ [0])) [] n None e R0 A O0) as (w' & E & X); auto.
    { rewrite E1. unfold fits. lia. } { lia. }
    rewrite L1 in X. destruct (N.ltb_spec n (nlen cs + 1)); [lia|]. now rewrite X in E.
  Qed.
  Lemma sdelete_refused i n k : (nlen cs + 1) * 256 < W64 -> i + n <= nlen cs -> ask (ODeleteRange i n) = Some k ->
    exists w' v', vdelete_range v i n w = Ok (err_status e, v') w' /\
      overstated w v w' v' [] (cells ((nfirst i cs ++ nskip (i + n) cs) ++ [0])) [] k.
  Proof.
    intros F LI AK. cbn [asked c_shrink c_growth] in AK. destruct (N.ltb_spec 0 n); [|discriminate AK]. cbn [andb] in AK.
    destruct (N.leb_spec (i + n) (nlen cs + 1)); [|discriminate AK]. destruct (_ && _) eqn:B; [|discriminate AK]. injection AK as <-.
    destruct (delete_refused w v [] (cells (cs ++ [0])) [] i n e R A O) as (w' & v' & E & OV & _).
    - rewrite E1, L1. unfold fits. lia.
    - lia.
    - rewrite L1. lia.
    - now rewrite L1.
    - exists w', v'. split; [exact E|]. rewrite L1 in OV. unfold ldelete in OV. rewrite nfirst_cells, nskip_cells, <- cells_app in OV.
      rewrite nfirst_short in OV by lia. rewrite nskip_short in OV by lia. now rewrite <- app_assoc.
  Qed.

  Lemma sarg_refused x (k : option ptr -> Mem.M N (status * str)) c :
    k (Some (mkptr (nextb w) 0)) (argw w x) = Ok (err_status e, with_vec s (set_cap v c)) (ticked (argw w x)) ->
    exists w' s', with_arg x k w = Ok (err_status e, s') w' /\ soverstated w s w' s' cs c.
  Proof.
    intros E. exists (dropw (ticked (argw w x)) (nextb w)), (with_vec s (set_cap v c)). split.
    - unfold with_arg, argw in *. rewrite E. reflexivity.
    - split; [reflexivity|]. split; [reflexivity|]. cbn [s_vec with_vec]. rewrite set_cap_back. apply (dropw_good w v [] _ [] _ _ _ x R).
      apply good_ticked; [exact A|]. apply good_refl. now apply argw_rep.
  Qed.

  Let RA x : vrep (argw w x) v [] (cells (cs ++ [0])) [].
  Proof. apply argw_rep, R. Qed.
  Let SZ : ssize s = nlen cs + 1.
  Proof. eapply srep_size; eauto. Qed.

  Lemma sappend_refused w0 q (x : list N) k : vrep w0 v [] (cells (cs ++ [0])) [] -> orc w0 (tick w0) = AFail e -> ssize q = nlen x + 1 ->
    (nlen cs + nlen x + 1) * 256 < W64 -> ask (OResize (nlen cs + 1 + nlen x)) = Some k ->
    sappend s q w0 = Ok (err_status e, with_vec s (set_cap v k)) (ticked w0).
  Proof.
    intros R0 O0 Q F AK. unfold sappend. rewrite Q, SZ. destruct (N.eqb_spec (nlen x + 1) 0); [lia|].
    rewrite wadd_small, wsub_small by lia. replace (nlen cs + 1 + (nlen x + 1) - 1) with (nlen cs + 1 + nlen x) by lia.
    cbv zeta. apply refused_fail. apply grown_refused; auto; lia.
  Qed.
  Lemma sappend_ex_refused w0 q (x : list N) j n k : vrep w0 v [] (cells (cs ++ [0])) [] -> orc w0 (tick w0) = AFail e -> ssize q = nlen x + 1 ->
    (nlen cs + nlen x + 1) * 256 < W64 -> j + n <= nlen x -> ask (OResize (nlen cs + 1 + n)) = Some k ->
    sappend_ex s q j n w0 = Ok (err_status e, with_vec s (set_cap v k)) (ticked w0).
  Proof.
    intros R0 O0 Q F J AK. unfold sappend_ex. rewrite Q, SZ. destruct (N.eqb_spec (nlen x + 1) 0); [lia|].
    rewrite !wadd_small by lia. destruct (N.leb_spec (nlen x + 1) (j + n)); [lia|].
    cbv zeta. apply refused_fail. apply grown_refused; auto; lia.
  Qed.
  Lemma sinserted_refused w0 i p (x : list N) k : vrep w0 v [] (cells (cs ++ [0])) [] -> orc w0 (tick w0) = AFail e ->
    (nlen cs + nlen x + 1) * 256 < W64 -> ask (OInsertRange i (map (fun c => [c]) x)) = Some k ->
    vinsert_range v i (Some p) (nlen x) w0 = Ok (err_status e, set_cap v k) (ticked w0).
  Proof.
    intros R0 O0 F AK. cbn [asked c_growth] in AK. rewrite nlen_map in AK. destruct (N.ltb_spec 0 (nlen x)); [|discriminate AK].
    cbn [andb] in AK. destruct (N.leb_spec i (nlen cs + 1)); [|discriminate AK]. destruct (N.ltb_spec (v_cap v) (nlen cs + 1 + nlen x)); [|discriminate AK].
    injection AK as <-. rewrite <- L1. apply insert_range_refused with (pre := []) (post := []); auto; rewrite ?L1; try lia.
    rewrite E1. unfold fits. lia.
  Qed.

  Theorem run_sop_refused o k : sums_ok o -> (nlen cs + sdemand o + 1) * 256 < W64 ->
    sasked (v_growth v) (v_shrink v) o st0 = Some k ->
    exists w' s', run_sop s o w = Ok (err_status e, s') w' /\ soverstated w s w' s' (srefused o cs) k.
  Proof.
    intros SO F AK. assert (C1 : 1 <= v_cap v) by apply R. unfold sasked in AK. cbn [ss_chars ss_cap] in AK.
    replace (v_cap v - 1 + 1) with (v_cap v) in AK by lia.
    assert (H0 : forall m w1 v1, m w = Ok (err_status e, with_vec s v1) w1 -> forall cs', overstated w v w1 v1 [] (cells (cs' ++ [0])) [] k ->
      exists w' s', m w = Ok (err_status e, s') w' /\ soverstated w s w' s' cs' k).
    { intros m w1 v1 E cs' OV. exists w1, (with_vec s v1). split; [exact E|]. now split. }
    destruct o; cbn [run_sop change_of sdemand sums_ok srefused] in *; try discriminate AK.
    - apply sarg_refused. apply (sappend_refused _ _ x); auto; cbn; lia.
    - destruct (N.ltb_spec (nlen x) (j + n)); [discriminate AK|]. apply sarg_refused. apply (sappend_ex_refused _ _ x); auto; cbn; lia.
    - apply sarg_refused. unfold sinsert. rewrite SZ.
      change (ssize (define_view (Some (mkptr (nextb w) 0)) (nlen x + 1))) with (nlen x + 1).
      destruct (N.eqb_spec (nlen x + 1) 0); [lia|]. destruct (i =? nlen cs + 1).
      + apply (sappend_refused _ _ x); auto; cbn; lia.
      + destruct (N.ltb_spec (nlen cs) i); [discriminate AK|]. destruct (N.leb_spec (nlen cs + 1) i); [lia|].
        rewrite wsub_small by lia. replace (nlen x + 1 - 1) with (nlen x) by lia. cbv zeta. apply refused_fail.
        apply sinserted_refused; auto; lia.
    - destruct (N.ltb_spec (nlen x) (j + n)); [discriminate AK|].
      assert (EN : nlen (nsub j n x) = n) by (apply nlen_nsub; lia).
      apply sarg_refused. unfold sinsert_ex. rewrite SZ.
      change (ssize (define_view (Some (mkptr (nextb w) 0)) (nlen x + 1))) with (nlen x + 1).
      destruct (N.eqb_spec (nlen x + 1) 0); [lia|]. destruct (i =? nlen cs + 1).
      + rewrite EN in AK. apply (sappend_ex_refused _ _ x); auto; cbn; lia.
      + destruct (N.ltb_spec (nlen cs) i); [discriminate AK|]. destruct (N.leb_spec (nlen cs + 1) i); [lia|].
        rewrite wadd_small by lia. destruct (N.leb_spec (nlen x + 1) (j + n)); [lia|]. cbv zeta. apply refused_fail.
        replace (vinsert_range v i (padd (sdata (define_view (Some (mkptr (nextb w) 0)) (nlen x + 1))) j) n) with (vinsert_range v i (Some (mkptr (nextb w) (0 + j))) (nlen (nsub j n x))) by now rewrite EN.
        apply sinserted_refused; auto; lia.
    - destruct (N.ltb_spec (nlen cs) (i + n)); [discriminate AK|]. unfold sdelete. rewrite SZ, wadd_small by lia.
      destruct (N.leb_spec (nlen cs + 1) (i + n)); [lia|].
      destruct (sdelete_refused i n k ltac:(lia) ltac:(lia) AK) as (w' & v' & E & OV). eapply H0; [|exact OV]. cbv zeta. now apply refused_fail.
    - destruct (N.ltb_spec (nlen cs) i); [discriminate AK|]. unfold struncate. rewrite SZ.
      destruct (N.leb_spec (nlen cs + 1) i); [lia|].
      rewrite !wsub_small by (try lia; rewrite ?wsub_small by lia; lia). replace (nlen cs + 1 - i - 1) with (nlen cs - i) by lia.
      destruct (sdelete_refused i (nlen cs - i) k ltac:(lia) ltac:(lia) AK) as (w' & v' & E & OV).
      replace (i + (nlen cs - i)) with (nlen cs) in OV by lia. rewrite nskip_all, app_nil_r in OV by lia.
      eapply H0; [|exact OV]. cbv zeta. now apply refused_fail.
    - destruct (sresize_refused 0 k ltac:(lia) AK) as (w' & v' & E & OV). eapply H0; [|exact OV]. unfold sclear. cbv zeta.
      now apply refused_fail.
    - unfold sresize. rewrite wadd_small by lia.
      destruct (sresize_refused (n + 1) k ltac:(lia) AK) as (w' & v' & E & OV). eapply H0; [|exact OV]. cbv zeta.
      now apply refused_fail.
    - cbn [asked] in AK. destruct (N.ltb_spec (v_cap v) n); [|discriminate AK]. injection AK as <-.
      eapply H0; [apply refused_tail; unfold vreserve; destruct (N.ltb_spec (v_cap v) n); [|lia];
        apply (vreallocate_refused w v [] _ [] n e R A O); lia|].
      replace (N.max 1 n) with n by lia. apply overstated_same; [exact A|]. now apply good_refl.
    - assert (K : N.max 1 (nlen cs + 1) = k).
      { cbn [asked] in AK. destruct (N.leb_spec 1 (nlen cs + 1)); [|lia]. injection AK as <-. lia. }
      subst k. eapply H0; [apply refused_tail; unfold vshrink_to_fit; cbv zeta; change (v_size v) with (ssize s); rewrite SZ;
        apply (vreallocate_refused w v [] _ [] _ e R A O); lia|].
      apply overstated_same; [exact A|]. now apply good_refl.
  Qed.
End Refused.

(** ** Granted requests, and calls that make none *)
Lemma sgood_reorc w o s w2 s' cs' : sgood (with_oracle w o) s w2 s' [] cs' [] -> v_alloc (s_vec s) = true ->
  (exists e t, orc w t = AFail e) -> sgood w s (with_oracle w2 (orc w)) s' [] cs' [].
Proof.
  intros [[[GR GE] GC GF GK] FL] A [e [t O]]. destruct GC as (A' & GC'). split; [|exact FL]. split.
  - split; [|exact GE]. apply rep_reorc; [exact GR|]. intros NF. destruct (NF ltac:(congruence) t) as [fill E']. cbn [orc with_oracle] in E'. congruence.
  - split; [exact A'|exact GC'].
  - destruct GF. split; auto.
  - exact GK.
Qed.
Lemma limit_alloc s : v_alloc (s_vec s) = true -> limit_of s = None.
Proof. unfold limit_of. now intros ->. Qed.

Section Any.
  Variables (w : Mem.world N) (s : str) (cs : list N).
  Notation v := (s_vec s).
  Notation st0 := (mksst cs (v_cap v - 1)).
  Notation sask o := (sasked (v_growth v) (v_shrink v) o st0).
  Hypothesis (SR : srep w s [] cs []) (A : v_alloc v = true).

  Lemma srep_does o : sums_ok o -> (nlen cs + sdemand o + 1) * 256 < W64 -> sdoes (sask o) s (run_sop s o).
  Proof.
    intros SO F. destruct SR as [[R _] _]. destruct (growth_bounds _ _ _ _ _ R) as [GB SB].
    apply run_sop_does; auto; try apply R. exact (srep_size _ _ _ _ _ SR).
  Qed.
  Lemma run_sop_granted o : sums_ok o -> (nlen cs + sdemand o + 1) * 256 < W64 ->
    (sask o = None \/ exists fill, orc w (tick w) = AOk fill) ->
    exists r w' s' cs', run_sop s o w = Ok (r, s') w' /\ sgood w s w' s' [] cs' [] /\ sspec None o cs r cs'.
  Proof.
    intros SO F AK. rewrite <- (limit_alloc s A). destruct (orc w (tick w)) as [st|fill] eqn:O.
    2:{ apply run_sop_ok; auto. intros _. eauto. }
    destruct AK as [AK|[? AK]]; [|discriminate AK].
    pose (o' := fun t => if t =? tick w then AOk (fun _ => 0) else AFail 0).
    assert (R1 : srep (with_oracle w o') s [] cs []).
    { destruct SR as [[R B] FL]. split; [|exact FL]. split; [|exact B]. apply rep_reorc; [exact R|]. intros NF.
      destruct (NF A (tick w + 1)) as [fill E]. cbn [orc with_oracle] in E. unfold o' in E.
      destruct (N.eqb_spec (tick w + 1) (tick w)); [lia|discriminate E]. }
    destruct (run_sop_ok (with_oracle w o') s [] cs [] o R1) as (r & w2 & s' & cs' & E & G & S); auto.
    { intros _. cbn [orc tick with_oracle]. unfold o'. rewrite N.eqb_refl. eauto. }
    destruct (srep_does o SO F _ _ _ _ E) as [T _]. rewrite AK in T. cbn [tick with_oracle] in T.
    destruct (lo_run_sop _ _ _ _ _ E) as (O2 & _ & LO). specialize (LO (orc w)). rewrite with_oracle_back in LO.
    exists r, (with_oracle w2 (orc w)), s', cs'. split; [apply LO; intros; cbn [tick with_oracle] in *; lia|]. split; [|exact S].
    eapply sgood_reorc; eauto.
  Qed.

  Lemma sasked_pos o k : sums_ok o -> (nlen cs + sdemand o + 1) * 256 < W64 -> sask o = Some k -> 1 <= k < W64.
  Proof.
    intros SO F AK. destruct SR as [[R _] _]. pose proof (r_cap _ _ _ _ _ R) as CP. destruct (growth_bounds _ _ _ _ _ R) as [GB SB].
    unfold sasked, change_of, asked in AK. cbn [ss_chars ss_cap c_growth c_shrink] in AK. cbv zeta in AK. destruct o; cbn [sdemand] in F;
      repeat match type of AK with
      | (if ?b then _ else _) = _ => destruct b eqn:?
      | match (if ?b then _ else _) with _ => _ end = _ => destruct b eqn:?
      | None = Some _ => discriminate AK
      | Some _ = Some _ => injection AK as <-
      end; try discriminate AK; rewrite ?nlen_map, ?(fun j n (x : list N) H => nlen_nsub j n x H) in * by lia; change W64 with 18446744073709551616 in *; try nia.
  Qed.

  Theorem run_sop_any o : sums_ok o -> (nlen cs + sdemand o + 1) * 256 < W64 ->
    exists r w' s' cs', let st1 := mksst cs' (v_cap (s_vec s') - 1) in let ans := orc w (tick w) in
      run_sop s o w = Ok (r, s') w' /\ scall (v_growth v) (v_shrink v) ans o st0 r st1 /\
      tick w' = tick w + srequests (v_growth v) (v_shrink v) o st0 /\ orc w' = orc w /\
      (srefuses (v_growth v) (v_shrink v) ans o st0 ->
         1 <= v_cap (s_vec s') < W64 /\ sgood w s w' (with_vec s' (set_cap (s_vec s') (v_cap v))) [] cs' []) /\
      ((srefuses (v_growth v) (v_shrink v) ans o st0 -> susable st0 st1) -> sgood w s w' s' [] cs' []).
  Proof.
    intros SO F. pose proof (srep_does o SO F) as AS.
    assert (DONE : (sask o = None \/ exists fill, orc w (tick w) = AOk fill) -> exists r w' s' cs', let st1 := mksst cs' (v_cap (s_vec s') - 1) in let ans := orc w (tick w) in
      run_sop s o w = Ok (r, s') w' /\ scall (v_growth v) (v_shrink v) ans o st0 r st1 /\
      tick w' = tick w + srequests (v_growth v) (v_shrink v) o st0 /\ orc w' = orc w /\
      (srefuses (v_growth v) (v_shrink v) ans o st0 ->
         1 <= v_cap (s_vec s') < W64 /\ sgood w s w' (with_vec s' (set_cap (s_vec s') (v_cap v))) [] cs' []) /\
      ((srefuses (v_growth v) (v_shrink v) ans o st0 -> susable st0 st1) -> sgood w s w' s' [] cs' [])).
    { intros AK. destruct (run_sop_granted o SO F AK) as (r & w' & s' & cs' & E & G & S). exists r, w', s', cs'. cbv zeta.
      destruct (AS _ _ _ _ E) as [T K]. split; [exact E|]. split.
      - split; [cbn [ss_cap]; rewrite K; now destruct (sask o)|]. cbn [ss_chars].
        destruct AK as [->|[fill ->]]; [exact S|]. cbn [refusal]. now destruct (sask o).
      - split; [exact T|]. split; [exact (fr_orc _ _ _ _ (b_frame _ _ _ _ _ _ _ (sg_bytes _ _ _ _ _ _ _ G)))|]. split; [|auto].
        intros [X Y]. exfalso. destruct AK as [AK|[fill AK]]; [congruence|]. now rewrite AK in Y. }
    destruct (sask o) as [k|] eqn:AK; [|auto]. destruct (orc w (tick w)) as [e|fill] eqn:O; [|eauto]. clear DONE.
    destruct (run_sop_refused w s cs e SR A O o k SO F AK) as (w' & s' & E & FL & OV). pose proof OV as [OC OG].
    destruct (AS _ _ _ _ E) as [T K].
    assert (K1 : 1 <= k < W64) by (eapply sasked_pos; eauto).
    assert (X : forall u, good w v w' u [] (cells (srefused o cs ++ [0])) [] -> sgood w s w' (with_vec s' u) [] (srefused o cs) []).
    { intros u G. split; [|exact FL]. cbn [s_vec with_vec]. destruct SR as [(R & E1 & D1) _]. destruct G as [GR GC GF].
      destruct GC as (A' & B' & C' & E' & D') eqn:EG.
      split; [|exact (conj A' (conj B' (conj C' (conj E' D'))))|exact GF|intros; congruence]. split; [exact GR|]. split; congruence. }
    exists (err_status e), w', s', (srefused o cs). cbv zeta. split; [exact E|]. split.
    { unfold scall. rewrite AK. cbn [refusal ss_cap ss_chars]. split; [now rewrite OC|auto]. }
    split; [unfold srequests; now rewrite AK|]. split; [apply (fr_orc _ _ _ _ (g_frame _ _ _ _ _ _ _ OG))|]. split.
    { intros _. split; [now rewrite OC|]. now apply X. }
    intros US. destruct US as [U1 U2]; [split; [now rewrite AK|discriminate]|]. cbn [ss_chars ss_cap] in U1, U2.
    assert (C1 : 1 <= v_cap v) by (destruct SR as [[R _] _]; apply R). rewrite OC in U1, U2.
    replace s' with (with_vec s' (s_vec s')) by now destruct s'. apply X. eapply usable_rep; eauto; [lia| |lia].
    rewrite nlen_cells, nlen_app. change (nlen [0]) with 1. lia.
  Qed.
End Any.

(** ** Histories *)
Lemma srefused_len o cs : nlen (srefused o cs) <= nlen cs.
Proof. destruct o; cbn [srefused]; rewrite ?nlen_app, ?nlen_nfirst, ?nlen_nskip; lia. Qed.
Lemma scall_len g t ans o a r b : scall g t ans o a r b -> nlen (ss_chars b) <= nlen (ss_chars a) + sdemand o.
Proof.
  intros [_ S]. destruct (sasked g t o a), (refusal ans); try now apply sspec_len in S.
  destruct S as [_ ->]. pose proof (srefused_len o (ss_chars a)). lia.
Qed.
Lemma susable_dec a b : susable a b \/ ~ susable a b.
Proof. unfold susable. lia. Qed.
Lemma srefuses_dec g t ans o a : srefuses g t ans o a \/ ~ srefuses g t ans o a.
Proof. unfold srefuses. destruct (sasked _ _ _ _), (refusal ans); (left; split; discriminate) || (right; intros [? ?]; congruence). Qed.

Theorem run_sops_any : forall ops w s cs,
  srep w s [] cs [] -> v_alloc (s_vec s) = true -> Forall sums_ok ops -> (nlen cs + sdemands ops + 1) * 256 < W64 ->
  let g := v_growth (s_vec s) in let t := v_shrink (s_vec s) in
  exists ops1 ops2 rs w1 s1 cs1, ops = ops1 ++ ops2 /\ run_sops s ops1 w = Ok (rs, s1) w1 /\
    scalls g t (orc w) (tick w) ops1 (mksst cs (v_cap (s_vec s) - 1)) rs (mksst cs1 (v_cap (s_vec s1) - 1)) (tick w1) /\
    sgood w s w1 s1 [] cs1 [] /\
    (ops2 = [] \/ exists o rest r w2 s2 cs2, let st1 := mksst cs1 (v_cap (s_vec s1) - 1) in
       let st2 := mksst cs2 (v_cap (s_vec s2) - 1) in
       ops2 = o :: rest /\ run_sop s1 o w1 = Ok (r, s2) w2 /\ scall g t (orc w (tick w1)) o st1 r st2 /\
       srefuses g t (orc w (tick w1)) o st1 /\ ~ susable st1 st2 /\ 1 <= tick w2 /\ 1 <= v_cap (s_vec s2) < W64 /\
       sgood w1 s1 w2 (with_vec s2 (set_cap (s_vec s2) (v_cap (s_vec s1)))) [] cs2 []).
Proof.
  induction ops as [|o ops IH]; intros w s cs R A AO F g t.
  - exists [], [], [], w, s, cs. split; [reflexivity|]. split; [reflexivity|]. split; [constructor|].
    split; [now apply sgood_refl|now left].
  - inv AO. cbn [sdemands] in F.
    destruct (run_sop_any w s cs R A o H1) as (r & w1 & s1 & cs1 & E & V & T & O1 & GR & GU); [lia|].
    fold g t in V, T, GR, GU.
    set (st := mksst cs (v_cap (s_vec s) - 1)) in *. set (st1 := mksst cs1 (v_cap (s_vec s1) - 1)) in *.
    assert (D : (srefuses g t (orc w (tick w)) o st -> susable st st1) \/ srefuses g t (orc w (tick w)) o st /\ ~ susable st st1).
    { destruct (susable_dec st st1); [left; auto|]. destruct (srefuses_dec g t (orc w (tick w)) o st); [right; auto|]. left. tauto. }
    destruct D as [U|[RF NU]].
    + specialize (GU U). pose proof (scall_len _ _ _ _ _ _ _ V) as L. cbn [ss_chars st st1] in L.
      destruct (b_cfg _ _ _ _ _ _ _ (sg_bytes _ _ _ _ _ _ _ GU)) as (CA & CG & CS & CE & CD).
      destruct (IH w1 s1 cs1) as (ops1 & ops2 & rs & w2 & s2 & cs2 & EO & ER & VC & G2 & REST).
      { eapply sgood_rep; eauto. } { congruence. } { assumption. } { lia. }
      rewrite CG, CS, O1 in *. fold g t in VC, REST.
      exists (o :: ops1), ops2, (r :: rs), w2, s2, cs2. split; [now rewrite EO|]. split; [|split; [|split]].
      * cbn [run_sops]. rewrite (bind_ok _ _ _ _ _ E). rewrite (bind_ok _ _ _ _ _ ER). reflexivity.
      * econstructor; [exact V|exact U|]. rewrite T in VC. exact VC.
      * eapply sgood_trans; [exact GU|eapply brep_wf; apply R|exact G2].
      * exact REST.
    + exists [], (o :: ops), [], w, s, cs. split; [reflexivity|]. split; [reflexivity|]. split; [constructor|].
      split; [now apply sgood_refl|]. right. destruct (GR RF) as [K1 G1].
      exists o, ops, r, w1, s1, cs1. cbv zeta. split; [reflexivity|]. split; [exact E|]. split; [exact V|].
      split; [exact RF|]. split; [exact NU|]. split; [|auto].
      rewrite T. unfold srequests. destruct RF as [RF _]. destruct (sasked _ _ _ _); [lia|congruence].
Qed.

Lemma sinit_first_ok w cap g t fill : sinit_params_ok w cap g t -> orc w (tick w) = AOk fill ->
  exists w' s, sinit_ex cap true g t w = Ok (ST_SUCCESS, Some s) w' /\ srep w' s [] [] [] /\
    v_alloc (s_vec s) = true /\ v_cap (s_vec s) = N.max 32 cap + 1 /\
    nextb w <= blk (s_vec s) /\ nextb w <= nextb w' /\ orc w' = orc w /\ tick w' = tick w + 1 /\
    v_growth (s_vec s) = g /\ v_shrink (s_vec s) = t /\
    (forall b, b <> blk (s_vec s) -> heap w' b = heap w b).
Proof.
  intros (W & G & T & C) O. unfold sinit_ex, STRING_MIN_CAPACITY. rewrite wadd_small by exact C.
  destruct (init_ok w 1 (N.max 32 cap + 1) None g t fill W O) as (w1 & v & E & R & CP & ES & AL & CF & _ & OR & B1 & B2 & HP); auto; try lia.
  { exact I. }
  pose proof (init_asks _ _ _ _ _ _ _ _ E) as TI.
  rewrite (bind_ok _ _ _ _ _ E). change (st_success ST_SUCCESS) with true. cbn [negb]. unfold bind at 1, assert at 1, ret at 1. rewrite CP.
  destruct (N.leb_spec (N.max 32 cap + 1) (N.max 1 (N.max 32 cap + 1))); [|lia].
  unfold bind at 1, assert at 1, ret at 1. rewrite ES. change (1 =? 1) with true. cbv iota.
  assert (BR : brep w1 v [] [] []).
  { split; [exact R|]. split; [exact ES|]. now injection CF. }
  destruct (bstart_ok _ _ _ _ BR) as (w2 & E2 & G2). rewrite (bind_ok _ _ _ _ _ E2). apply (asks_mwrite _ _ _ _ _) in E2.
  rewrite (brep_size _ _ _ _ _ BR). change (wadd (nlen []) 1) with 1.
  destruct G2 as [GR GC GF GK].
  assert (SR : srep w2 (mkstr 0 (set_size v 1)) [] [] []).
  { split; [exact GR|]. cbn. now rewrite AL. }
  eexists w2, _. split; [reflexivity|]. split; [exact SR|].
  cbn [s_vec set_size v_alloc v_cap v_growth v_shrink]. change (blk (set_size v 1)) with (blk v) in *.
  split; [exact AL|]. split; [rewrite CP; lia|]. split; [exact B1|].
  pose proof (fr_next _ _ _ _ GF). split; [lia|]. rewrite (fr_orc _ _ _ _ GF). split; [exact OR|]. split; [lia|].
  injection CF as _ -> -> _ _. split; [reflexivity|]. split; [reflexivity|].
  intros b NB. rewrite (fr_heap _ _ _ _ GF) by exact NB. now apply HP.
Qed.

Lemma shown_cap w s c cs : srep w (with_vec s (set_cap (s_vec s) c)) [] cs [] -> 1 <= v_cap (s_vec s) -> v_cap (s_vec s) < W64 ->
  sstate_shown w s (mksst cs (v_cap (s_vec s) - 1)).
Proof.
  intros R C1 C2. split; [exact (srep_shows _ _ _ _ _ R)|]. unfold sget_capacity, bind, assert, ret. cbn [ss_cap].
  destruct (N.leb_spec 1 (v_cap (s_vec s))); [|lia]. now rewrite wsub_small by lia.
Qed.

Theorem string_any_allocator w0 cap g t ops fill :
  sinit_params_ok w0 cap g t -> Forall sums_ok ops -> sroom (sdemands ops) -> orc w0 (tick w0) = AOk fill ->
  exists s0 w1 ops1 ops2 rs s w st,
    sinit_ex cap true g t w0 = Ok (ST_SUCCESS, Some s0) w1 /\
    ops = ops1 ++ ops2 /\ run_sops s0 ops1 w1 = Ok (rs, s) w /\
    scalls g t (orc w0) (tick w0 + 1) ops1 (mksst [] (N.max 32 cap)) rs st (tick w) /\
    sstate_shown w s st /\ sdestroys_back w0 w s /\
    (ops2 = [] \/ exists o rest r s2 w2 st2,
       ops2 = o :: rest /\ run_sop s o w = Ok (r, s2) w2 /\
       srefuses g t (orc w0 (tick w)) o st /\ scall g t (orc w0 (tick w)) o st r st2 /\ ~ susable st st2 /\
       sstate_shown w2 s2 st2 /\ sdestroys_back w0 w2 s2).
Proof.
  intros PO SO RM O. pose proof PO as (W & _).
  destruct (sinit_first_ok w0 cap g t fill PO O) as (w1 & s0 & EI & R & AL & CP & BL & NB & OI & TI & GG & TT & FR).
  destruct (run_sops_any ops w1 s0 [] R AL SO) as (ops1 & ops2 & rs & w & s & cs & EO & ER & VC & G & REST).
  { unfold sroom in RM. change (nlen (@nil N)) with 0. lia. }
  set (v0 := s_vec s0) in *. set (v := s_vec s) in *.
  pose proof (b_frame _ _ _ _ _ _ _ (sg_bytes _ _ _ _ _ _ _ G)) as F1. fold v0 v in F1.
  pose proof (sgood_rep _ _ _ _ _ _ _ _ R G) as RS.
  assert (HB : forall b, b <> blk v0 -> b <> blk v -> heap w b = heap w0 b).
  { intros b B1 B2. rewrite (fr_heap _ _ _ _ F1 b B1 B2). now apply FR. }
  assert (H0 : heap w0 (blk v0) = None) by (apply W; lia).
  assert (HO : blk v <> blk v0 -> heap w (blk v0) = None /\ heap w0 (blk v) = None).
  { intros N0. destruct (fr_old _ _ _ _ F1 N0) as (_ & ? & ?). split; [assumption|]. apply W. lia. }
  assert (BACK : forall w', heap w' (blk v) = None -> (forall b, b <> blk v -> heap w' b = heap w b) ->
    forall b, heap w' b = heap w0 b).
  { intros w' HV HN b. destruct (N.eq_dec b (blk v)) as [->|N1].
    - rewrite HV. destruct (N.eq_dec (blk v) (blk v0)) as [->|N0]; [congruence|]. now destruct (HO N0).
    - rewrite HN by assumption. destruct (N.eq_dec b (blk v0)) as [->|N0].
      + destruct HO; congruence.
      + now apply HB. }
  assert (BV : heap w0 (blk v) = None).
  { destruct (N.eq_dec (blk v) (blk v0)) as [->|N0]; [exact H0|]. now destruct (HO N0). }
  pose proof (fr_alloc _ _ _ _ F1) as AV. unfold v0, v in *.
  rewrite GG, TT, OI, TI, CP in *. replace (N.max 32 cap + 1 - 1) with (N.max 32 cap) in VC by lia.
  exists s0, w1, ops1, ops2, rs, s, w, (mksst cs (v_cap (s_vec s) - 1)).
  split; [exact EI|]. split; [exact EO|]. split; [exact ER|]. split; [exact VC|].
  pose proof RS as [(RV & _) FL]. assert (AS : v_alloc (s_vec s) = true) by congruence. rewrite AS in FL.
  split.
  { apply (shown_cap w s (v_cap (s_vec s))); [|apply RV|exact (rep_cap_lt _ _ _ _ _ RV)].
    replace (with_vec s (set_cap (s_vec s) (v_cap (s_vec s)))) with s by now destruct s as [? []]. exact RS. }
  split.
  { destruct (destroy_ok w (s_vec s) [] (cells (cs ++ [0])) [] RV) as (w' & E & D & D1 & _ & D2).
    unfold sdestroys_back, sdestroy. rewrite FL. change (N.land 0 HAS_FIXED_CAPACITY =? 0) with true. cbn [negb].
    rewrite (bind_ok _ _ _ _ _ E). eexists _, w'. split; [reflexivity|]. apply BACK; auto. }
  destruct REST as [->|(o & rest & r & w2 & s2 & cs2 & E2 & EV & V & RF & NU & T1 & C1 & G2)]; [now left|].
  right. exists o, rest, r, s2, w2, (mksst cs2 (v_cap (s_vec s2) - 1)). split; [exact E2|]. split; [exact EV|]. split; [exact RF|].
  split; [exact V|]. split; [exact NU|]. pose proof (sgood_rep _ _ _ _ _ _ _ _ RS G2) as R2.
  split; [apply (shown_cap w2 s2 (v_cap (s_vec s)) cs2 R2); lia|].
  pose proof (b_frame _ _ _ _ _ _ _ (sg_bytes _ _ _ _ _ _ _ G2)) as F2. cbn [s_vec with_vec] in F2.
  pose proof (fr_alloc _ _ _ _ F2) as AV2. cbn [set_cap v_alloc] in AV2. destruct R2 as [(RV2 & _) FL2]. cbn [s_vec s_flags with_vec set_cap v_alloc] in FL2, RV2.
  assert (A2 : v_alloc (s_vec s2) = true) by congruence. rewrite A2 in FL2.
  destruct (wrong_cap_destroy w2 (s_vec s2) (v_cap (s_vec s)) (cells (cs2 ++ [0])) RV2) as (w' & v' & E & D & H1 & H2); [exact T1|lia|exact A2|].
  unfold sdestroys_back, sdestroy. rewrite FL2. change (N.land 0 HAS_FIXED_CAPACITY =? 0) with true. cbn [negb].
  rewrite (bind_ok _ _ _ _ _ E). eexists _, w'. split; [reflexivity|].
  intros b. destruct (N.eq_dec b (blk (s_vec s2))) as [->|N2].
  - rewrite H1. destruct (N.eq_dec (blk (s_vec s2)) (blk (s_vec s))) as [->|N3]; [symmetry; exact BV|]. symmetry. apply W.
    destruct (fr_old _ _ _ _ F2 N3) as (_ & _ & LB). change (blk (set_cap (s_vec s2) (v_cap (s_vec s)))) with (blk (s_vec s2)) in LB.
    pose proof (fr_next _ _ _ _ F1). lia.
  - rewrite H2 by assumption. destruct (N.eq_dec b (blk (s_vec s))) as [->|N3].
    + rewrite BV. apply (fr_old _ _ _ _ F2). change (blk (set_cap (s_vec s2) (v_cap (s_vec s)))) with (blk (s_vec s2)). congruence.
    + rewrite (fr_heap _ _ _ _ F2 b N3 N2). destruct (N.eq_dec b (blk (s_vec s0))) as [->|N0].
      * destruct HO; congruence.
      * now apply HB.
Qed.

(** ** Which refused requests leave a usable string *)
Ltac splitasked := repeat match goal with
  | AK : (if ?b then _ else _) = Some _ |- _ => destruct b eqn:?
  | AK : match (if ?b then _ else _) with _ => _ end = Some _ |- _ => destruct b eqn:?
  | AK : None = Some _ |- _ => discriminate AK
  | AK : Some _ = Some _ |- _ => injection AK as <-
  end.
Lemma srefused_trim g t ans o a r b : strims o = true -> nlen (ss_chars a) <= ss_cap a -> 1 <= g -> g <= t ->
  srefuses g t ans o a -> scall g t ans o a r b -> susable a b.
Proof.
  intros TR LE G1 GT [RF RA] [K S]. destruct (sasked g t o a) as [k|] eqn:AK; [|congruence]. destruct (refusal ans); [|congruence].
  destruct S as [_ S]. unfold susable. rewrite K, S. unfold sasked, change_of, asked in AK. cbn [c_growth c_shrink] in AK. cbv zeta in AK.
  destruct o; try discriminate TR; cbn [srefused]; rewrite ?nlen_app, ?nlen_nfirst, ?nlen_nskip; splitasked; nia.
Qed.
Lemma srefused_add g t ans o n a r b : sadds o n -> nlen (ss_chars a) <= ss_cap a -> 1 <= g -> g <= t ->
  srefuses g t ans o a -> scall g t ans o a r b -> (susable a b <-> nlen (ss_chars a) + n <= ss_cap a).
Proof.
  intros TR LE G1 GT [RF RA] [K S]. destruct (sasked g t o a) as [k|] eqn:AK; [|congruence]. destruct (refusal ans); [|congruence].
  destruct S as [_ S]. unfold susable. rewrite K, S. unfold sasked, change_of, asked in AK. cbn [c_growth c_shrink] in AK. cbv zeta in AK.
  destruct o; try contradiction TR; cbn [srefused sadds] in *; subst n; splitasked;
    rewrite ?nlen_map, ?(fun j n (x : list N) H => nlen_nsub j n x H) in * by lia; nia.
Qed.
Lemma srefused_resize g t ans n a r b : nlen (ss_chars a) <= ss_cap a -> 1 <= g -> g <= t ->
  srefuses g t ans (SResize n) a -> scall g t ans (SResize n) a r b -> (susable a b <-> n <= ss_cap a /\ nlen (ss_chars a) < (n + 1) * g).
Proof.
  intros LE G1 GT [RF RA] [K S]. destruct (sasked g t _ a) as [k|] eqn:AK; [|congruence]. destruct (refusal ans); [|congruence].
  destruct S as [_ S]. unfold susable. rewrite K, S. unfold sasked, change_of, asked in AK. cbn [c_growth c_shrink] in AK. cbv zeta in AK.
  cbn [srefused]. splitasked; nia.
Qed.
Lemma srefused_clear g t ans a r b : srefuses g t ans SClear a -> scall g t ans SClear a r b -> (susable a b <-> ss_chars a = []).
Proof.
  intros [RF RA] [K S]. destruct (sasked g t _ a) as [k|] eqn:AK; [|congruence]. destruct (refusal ans); [|congruence].
  destruct S as [_ S]. unfold susable. rewrite K, S. unfold sasked, change_of, asked in AK. cbn [c_growth c_shrink] in AK. cbv zeta in AK.
  cbn [srefused]. replace (0 * g) with 0 in AK by lia. cbn [N.leb] in AK. splitasked; destruct (ss_chars a) as [|x l]; rewrite ?nlen_cons; change (nlen (@nil N)) with 0 in *;
    split; intros; try easy; lia.
Qed.
Lemma srefused_reserve g t ans n a r b : srefuses g t ans (SReserve n) a -> scall g t ans (SReserve n) a r b -> ~ susable a b.
Proof.
  intros [RF RA] [K S]. destruct (sasked g t _ a) as [k|] eqn:AK; [|congruence]. destruct (refusal ans); [|congruence].
  destruct S as [_ S]. unfold susable. rewrite K, S. unfold sasked, change_of, asked in AK. cbv zeta in AK. splitasked; lia.
Qed.

(** Careful programs survive an allocator that refuses requests: programs. *)
From Verif Require Import Base NListFacts Status Mem MemFacts VectorModel VectorSpec VectorDriver VectorRep VectorProofs VectorProofs2
  VectorRefine VectorFail VectorMore StringModel StringSpec StringDriver StringBytes StringProofs StringFinal StringFinal2 BitsetModel BitsetSpec BitsetDriver
  BitsetBits BitsetProofs BitsetRun BitsetQuery BitsetFinal OracleProofs LogProofs RefuseSpec RefuseProofs StrRefuseSpec StrRefuseProofs StrRefuseProofs2
  BitRefuseSpec BitRefuseProofs BitRefuseProofs2 FormatModel FormatSpec FormatDriver ProgSpec ProgCopy ProgProofs ExhaustSpec ExhaustProofs ExhaustProofs2
  FmtRefuseSpec FmtRefuseProofs FmtRefuseProofs2 VectorExamples.
From Coq Require Import ZifyBool ZifyNat ZifyN.

Definition stepped w0 (w : world) os K sp p : Prop :=
  exists r os' w' K' sp', try_step os p w = Ok (r, os') w' /\
    xstep (orc w0) p K sp (dlog w) (tick w) r K' sp' (dlog w') (tick w') /\ xinv w0 w' os' K' sp'.
Lemma step_requests_pos p : 1 <= step_requests p.
Proof. destruct p; cbn; try lia. destruct o; cbn; lia. Qed.
(** The two ways a step on an object goes. *)
Lemma step_all_granted w0 w os K sp p i x k r w' x' k' : xinv w0 w os K sp -> target p = Some i ->
  nnth i os = Some (Some x) -> holds K i k -> run_step os p w = Ok (r, put i (Some x') os) w' ->
  frame w w' (core x) (core x') -> obj_ok w' x' k' ->
  tick w <= tick w' <= tick w + step_requests p -> all_granted (orc w) (tick w) (tick w') ->
  pspec p K (dlog w) r (put i (Some k') K) (dlog w') -> stepped w0 w os K sp p.
Proof.
  intros V TG HO HK E F OK T AK S.
  rewrite (x_orc _ _ _ _ _ V) in AK. exists r, (put i (Some x') os), w', (put i (Some k') K), sp. split; [|split].
  - rewrite (try_ok _ _ _ _ _ _ E), TG. reflexivity.
  - left. auto.
  - eapply xinv_update; eauto. lia.
Qed.
Lemma step_granted w0 w os K sp p i x k r w' x' k' (a : option N) : xinv w0 w os K sp -> target p = Some i ->
  nnth i os = Some (Some x) -> holds K i k -> run_step os p w = Ok (r, put i (Some x') os) w' ->
  frame w w' (core x) (core x') -> obj_ok w' x' k' ->
  tick w' = tick w + match a with None => 0 | Some _ => 1 end -> (a = None \/ exists fill, orc w (tick w) = AOk fill) ->
  pspec p K (dlog w) r (put i (Some k') K) (dlog w') -> stepped w0 w os K sp p.
Proof.
  intros V TG HO HK E F OK T AK S. destruct (granted_span (orc w) (tick w) (tick w') a T AK) as [T1 T2].
  eapply step_all_granted; eauto. pose proof (step_requests_pos p). destruct a; lia.
Qed.
Lemma step_last_refused w0 w os K sp p i x k e w' x' words : xinv w0 w os K sp -> target p = Some i ->
  nnth i os = Some (Some x) -> holds K i k -> run_step os p w = Ok (err_status e, put i (Some x') os) w' ->
  frame w w' (core x) (core x') -> spoiled w' x' words -> tick w < tick w' <= tick w + step_requests p ->
  all_granted (orc w) (tick w) (tick w' - 1) -> orc w (tick w' - 1) = AFail e ->
  refused_step p K sp (dlog w) (put i None K) ((i, words) :: sp) (dlog w') -> stepped w0 w os K sp p.
Proof.
  intros V TG HO HK E F OK T AK O S. rewrite (x_orc _ _ _ _ _ V) in O, AK.
  exists (err_status e), (put i (Some x') os), w', (put i None K), ((i, words) :: sp). split; [|split].
  - rewrite (try_ok _ _ _ _ _ _ E), TG. reflexivity.
  - right. left. exists e. auto.
  - eapply xinv_spoil; eauto. lia.
Qed.
Lemma step_refused w0 w os K sp p i x k e w' x' words : xinv w0 w os K sp -> target p = Some i ->
  nnth i os = Some (Some x) -> holds K i k -> run_step os p w = Ok (err_status e, put i (Some x') os) w' ->
  frame w w' (core x) (core x') -> spoiled w' x' words -> tick w' = tick w + 1 -> orc w (tick w) = AFail e ->
  refused_step p K sp (dlog w) (put i None K) ((i, words) :: sp) (dlog w') -> stepped w0 w os K sp p.
Proof.
  intros V TG HO HK E F OK T O S. pose proof (step_requests_pos p).
  eapply step_last_refused; eauto; rewrite T; [lia| |]; replace (tick w + 1 - 1) with (tick w) by lia; [apply all_granted_nil|exact O].
Qed.
Lemma create_refused w0 w os K sp p e y w' : xinv w0 w os K sp -> target p = None ->
  run_step os p w = Ok (err_status e, os ++ [y]) w' -> orc w (tick w) = AFail e ->
  wfw w' -> nextb w <= nextb w' -> orc w' = orc w -> tick w' = tick w + 1 -> dlog w' = dlog w -> (forall b, heap w' b = heap w b) ->
  stepped w0 w os K sp p.
Proof.
  intros V TG E O W NX OR T D H. exists (err_status e), (os ++ [None]), w', (K ++ [None]), sp. split; [|split].
  - rewrite (try_ok _ _ _ _ _ _ E), TG, st_success_err. reflexivity.
  - right. left. exists e. rewrite (x_orc _ _ _ _ _ V) in O. pose proof (step_requests_pos p). rewrite T. replace (tick w + 1 - 1) with (tick w) by lia.
    split; [lia|]. split; [apply all_granted_nil|]. split; [exact O|]. split; [reflexivity|].
    destruct p; try discriminate TG; cbn [refused_step]; auto.
  - eapply xinv_forget; eauto. lia.
Qed.
Lemma create_granted w0 w os K sp p fill x k w' : xinv w0 w os K sp -> target p = None ->
  run_step os p w = Ok (ST_SUCCESS, os ++ [Some x]) w' -> orc w (tick w) = AOk fill ->
  nextb w <= blk (core x) -> nextb w <= nextb w' -> orc w' = orc w -> tick w' = tick w + 1 ->
  (forall b, b <> blk (core x) -> heap w' b = heap w b) -> obj_ok w' x k ->
  pspec p K (dlog w) ST_SUCCESS (K ++ [Some k]) (dlog w') -> stepped w0 w os K sp p.
Proof.
  intros V TG E O B NX OR T H OK S. exists ST_SUCCESS, (os ++ [Some x]), w', (K ++ [Some k]), sp. split; [|split].
  - rewrite (try_ok _ _ _ _ _ _ E), TG. reflexivity.
  - left. split; [exact S|]. split; [reflexivity|]. split; [pose proof (step_requests_pos p); lia|]. intros u L. replace u with (tick w) by lia.
    rewrite <- (x_orc _ _ _ _ _ V). eauto.
  - eapply xinv_create; eauto. lia.
Qed.
Lemma string_rep w s cs : srep w s [] cs [] -> vrep w (s_vec s) [] (cells (cs ++ [0])) [].
Proof. intros [[R _] _]. exact R. Qed.
Lemma string_spoiled w s s' w' cs' k : srep w s [] cs' [] -> v_alloc (s_vec s) = true -> forall ds, soverstated w s w' s' ds k -> 1 <= k -> 1 <= tick w' ->
  frame w w' (s_vec s) (s_vec s') /\ spoiled w' (OS s') [].
Proof.
  intros SR A ds [FL [OC OG]] K1 T. pose proof SR as [[R [E1 DN]] F0]. rewrite A in F0.
  replace (@nil (list N)) with (destroyed (cfg_of (s_vec s)) (cells (ds ++ [0]))).
  - apply (spoiled_good w (s_vec s) w' (OS s')); cbn [core]; try assumption; try congruence; lia.
  - unfold destroyed. cbn [cfg_of c_dtor]. now rewrite DN.
Qed.

Lemma asks_vdestroy (v : vector N) : asks 0 (vdestroy v).
Proof.
  unfold vdestroy. apply asks_then; [apply asks_assert_valid|intros _]. apply asks_then; [apply asks_destroy_range|intros _].
  destruct (_ && _); [|apply asks_ret]. apply asks_bind0; [|intros a; destruct (st_success a); apply asks_ret].
  intros w1 a w2 H. unfold dealloc in H. destruct (_ && _); [discriminate H|]. destruct (v_data v) as [q|].
  - destruct (heap w1 (pb q)); [|discriminate H]. destruct (negb _); [discriminate H|]. injection H as _ <-. cbn. lia.
  - destruct (checked w1); [discriminate H|]. injection H as _ <-. lia.
Qed.
Lemma asks_byte_op op b c n : forall i, asks 0 (byte_op_loop op b c i n).
Proof.
  induction n as [|n IH]; intros i; cbn [byte_op_loop]; [apply asks_ret|].
  apply asks_then; [apply asks_get_pointer|intros [st v1]]. destruct (negb _); [apply asks_ret|].
  apply asks_then; [apply asks_get_pointer|intros [st2 v2]]. destruct (negb _); [apply asks_ret|].
  apply asks_then; [apply asks_assert|intros _]. apply asks_then; [apply asks_assert|intros _].
  apply asks_then; [apply asks_mread1|intros x]. apply asks_then; [apply asks_mread1|intros y].
  destruct (op x y) as [st3 z]. apply asks_then; [apply asks_mwrite|intros _]. destruct (negb _); [apply asks_ret|apply IH].
Qed.

Lemma xstep_ok w0 w os K sp p : xinv w0 w os K sp -> plegal p K \/ (exists i words, p = PDestroy i /\ In (i, words) sp) ->
  stepped w0 w os K sp p.
Proof.
  intros V [LG|(i & words & -> & HI)].
  2:{ destruct (xinv_spoiled _ _ _ _ _ _ _ V HI) as (x & HO & HK & (c & xs & R & C1 & A & T1 & -> & FL)).
      destruct (wrong_cap_destroy w (core x) c xs R T1 C1 A) as (w' & v' & E & D & HN & HP).
      pose proof (nn_vdestroy _ _ _ _ E) as NX. destruct (lo_vdestroy _ _ _ _ E) as (OR & TM & _).
      pose proof (asks_vdestroy _ _ _ _ E) as TE. rewrite N.add_0_r in TE.
      exists ST_SUCCESS, (put i None os), w', K, (filter (fun x => negb (fst x =? i)) sp). split; [|split].
      - unfold try_step. cbn [run_step target]. rewrite HO. destruct x as [v|s|b]; cbn [core] in *.
        + unfold bind. rewrite E. reflexivity.
        + unfold sdestroy. rewrite FL. change (negb (N.land 0 HAS_FIXED_CAPACITY =? 0)) with false. cbv iota. unfold bind. rewrite E. reflexivity.
        + unfold bs_destroy, bind. rewrite E. reflexivity.
      - right. right. exists i, (destroyed (cfg_of (core x)) xs). repeat (split; [reflexivity || assumption|]). exact TE.
      - rewrite <- (put_same i None K HK). eapply xinv_destroy; eauto; try lia.
        + intros ws. rewrite filter_in. tauto.
        + intros j ws NE. rewrite filter_in. tauto. }
  pose proof (x_wf _ _ _ _ _ V) as WF.
  destruct p as [e cap d g s|cap g s|n g s|i o|i o|i o|i j k|i j|i k j|op i j|i cap g s|i cap g s|i j cap g s|is64 i o|i]; cbn [plegal] in *.
  - destruct LG as (E & D & G & S & M). destruct (orc w (tick w)) as [st|fill] eqn:O.
    + destruct (vinit_refused w e cap d g s st O E) as [v IE]; [lia|].
      eapply (create_refused w0 w os K sp _ st (Some (OV v)) (ticked w)); eauto; cbn; try lia; now rewrite (bind_ok _ _ _ _ _ IE).
    + destruct (init_ok w e cap d g s fill WF O E M D G S) as (w1 & v & IE & R & CP & ES & AL & CF & DL & OR & B1 & B2 & HP).
      eapply (create_granted w0 w os K sp _ fill (OV v) (KVec (mkcfg false g s e d) [] (N.max 1 cap)) w1); eauto; cbn [core pspec run_step].
      * now rewrite (bind_ok _ _ _ _ _ IE).
      * eapply init_asks; eauto.
      * split; [exact AL|]. split; [exact R|]. split; [exact CF|exact CP].
      * auto.
  - destruct LG as (G & S & M). destruct (orc w (tick w)) as [st|fill] eqn:O.
    + destruct (sinit_refused w cap g s st O) as [v IE]; [lia|].
      eapply (create_refused w0 w os K sp _ st (Some (OS v)) (ticked w)); eauto; cbn; try lia; now rewrite (bind_ok _ _ _ _ _ IE).
    + destruct (sinit_first_ok w cap g s fill) as (w1 & x & IE & R & AL & CP & B1 & B2 & OR & T & _ & _ & HP); [repeat split; auto; lia|exact O|].
      eapply (create_granted w0 w os K sp _ fill (OS x) (KStr []) w1); eauto; cbn [core pspec run_step].
      * now rewrite (bind_ok _ _ _ _ _ IE).
      * split; [exact AL|exact R].
      * repeat split; auto. apply (si_sinit_ex _ _ _ _ _ _ _ IE).
  - destruct LG as (G & S & M & Z). destruct (orc w (tick w)) as [st|fill] eqn:O.
    + destruct (bitinit_refused w n g s st WF O) as (b & w1 & IE & W1 & NX & OR & T & D & H); [lia|].
      eapply (create_refused w0 w os K sp _ st (Some (OB b)) w1); eauto; cbn [run_step]. now rewrite (bind_ok _ _ _ _ _ IE).
    + destruct (bitinit_first_ok w n g s fill) as (w1 & b & IE & X & AL & CP & B1 & B2 & OR & T & _ & _ & HP); [repeat split; auto; lia|exact Z|exact O|].
      eapply (create_granted w0 w os K sp _ fill (OB b) (KBits (zeros n)) w1); eauto; cbn [core pspec run_step].
      * now rewrite (bind_ok _ _ _ _ _ IE).
      * split; [exact AL|]. split; [eexists; exact X|].
        unfold zeros. rewrite nlen_repeat. change W32 with 4294967296 in M. change W64 with 18446744073709551616. lia.
      * repeat split; auto. apply (si_with_arg [0] (fun z => bs_init_ex z n true g s)) in IE; [apply IE|]. intros; apply si_bs_init_ex.
  - destruct LG as (c & xs & cap & HK & AR & RM). destruct (xinv_at _ _ _ _ _ _ _ V HK) as (x & HO & OK).
    pose proof OK as [AL Q]. destruct x as [v|s|b]; try contradiction Q. destruct Q as (R & CF & CP). cbn [core] in AL.
    subst c. cbn [c_esz cfg_of] in *. assert (F : fits (nlen xs + demand o) (v_esz v)) by exact RM.
    pose proof (run_op_asks w v [] xs [] o (dlog w) R AL AR F) as AS. unfold requests in AS. cbn [s_elems s_cap] in AS.
    destruct (ask_cases (orc w (tick w)) (asked (cfg_of v) o (nlen xs) (v_cap v))) as [AK|(k & e & AK & O)].
    + destruct (run_op_granted w v [] xs [] o R AL AR F AK) as (r & w' & v' & xs' & E & [GR GC GF] & S).
      eapply (step_granted w0 w os K sp _ i (OV v) _ r w' (OV v') (KVec (cfg_of v) xs' (v_cap v'))); eauto; cbn [core run_step pspec].
      * unfold on_vec. rewrite HO. now rewrite (bind_ok _ _ _ _ _ E).
      * split; [cbn [core]; destruct GC; congruence|]. split; [exact GR|]. split; [now apply cfg_of_same|reflexivity].
      * exists (cfg_of v), xs, cap, xs', (v_cap v'). split; [exact HK|]. split; [subst cap; exact S|reflexivity].
    + destruct (run_op_refused w v [] xs [] o k e R AL O AR F AK) as (w' & v' & xs' & E & OVS & VR).
      pose proof (AS _ _ _ E) as T. rewrite AK in T. pose proof OVS as [OC OG].
      destruct (spoiled_good w v w' (OV v') xs' AL OG) as [FR SP]; cbn [core]; try lia; auto.
      { rewrite OC. eapply asked_pos; eauto. }
      eapply (step_refused w0 w os K sp _ i (OV v) _ e w' (OV v')); eauto; cbn [run_step refused_step].
      * unfold on_vec. rewrite HO. now rewrite (bind_ok _ _ _ _ _ E).
      * exists (cfg_of v), xs, cap, k, (mkst xs' k (dlog w')). subst cap. cbn [s_elems s_log]. auto 6.
  - destruct LG as (cs & HK & SO & RM). destruct (xinv_at _ _ _ _ _ _ _ V HK) as (x & HO & OK).
    pose proof OK as [AL R]. destruct x as [v|s|b]; try contradiction R. cbn [core] in AL.
    assert (F : (nlen cs + sdemand o + 1) * 256 < W64) by exact RM.
    pose proof (srep_does w s cs R AL o SO F) as AS.
    destruct (ask_cases (orc w (tick w)) (sasked (v_growth (s_vec s)) (v_shrink (s_vec s)) o (mksst cs (v_cap (s_vec s) - 1)))) as [AK|(k & e & AK & O)].
    + destruct (run_sop_granted w s cs R AL o SO F AK) as (r & w' & s' & cs' & E & G & S). destruct (AS _ _ _ _ E) as [T _].
      eapply (step_granted w0 w os K sp _ i (OS s) _ r w' (OS s') (KStr cs')); eauto; cbn [core run_step pspec].
      * unfold on_str. rewrite HO. now rewrite (bind_ok _ _ _ _ _ E).
      * apply G.
      * split; [|exact (sgood_rep _ _ _ _ _ _ _ _ R G)]. destruct G as [[_ GC _ _] _]. destruct GC. cbn [core]. congruence.
      * exists cs, cs'. split; [exact HK|]. split; [exact S|]. split; [reflexivity|]. eapply (si_run_sop s o); [|exact E]. apply R.
    + destruct (run_sop_refused w s cs e R AL O o k SO F AK) as (w' & s' & E & OVS). destruct (AS _ _ _ _ E) as [T _]. rewrite AK in T.
      destruct (string_spoiled w s s' w' cs k R AL _ OVS) as [FR SP]; try lia. { eapply sasked_pos; eauto. }
      eapply (step_refused w0 w os K sp _ i (OS s) _ e w' (OS s')); eauto; cbn [run_step refused_step].
      * unfold on_str. rewrite HO. now rewrite (bind_ok _ _ _ _ _ E).
      * exists cs. split; [exact HK|]. split; [auto|]. eapply (si_run_sop s o); [|exact E]. apply R.
  - destruct LG as (bs & HK & LO & RM). destruct (xinv_at _ _ _ _ _ _ _ V HK) as (x & HO & OK).
    pose proof OK as [AL Q]. destruct x as [v|s|b]; try contradiction Q. destruct Q as ((l & X) & LT). cbn [core] in AL.
    pose proof (run_bitop_does w b l bs X AL RM o LO) as AS.
    match type of AS with bdoes ?a _ _ => destruct (ask_cases (orc w (tick w)) a) as [AK|(k & e & AK & O)] end.
    + destruct (run_bitop_granted w b l bs X AL RM o LO AK) as (w' & b' & l' & E & X' & G). destruct (AS _ _ _ _ E) as [T _].
      eapply (step_granted w0 w os K sp _ i (OB b) _ _ w' (OB b') (KBits (snd (bitstep None o bs)))); eauto; cbn [core run_step pspec].
      * unfold on_bits. rewrite HO. now rewrite (bind_ok _ _ _ _ _ E).
      * apply G.
      * split; [|split; [eauto|]].
        -- destruct G as [_ GC _ _]. destruct GC. cbn [core]. congruence.
        -- apply bitroom_lt in RM. pose proof (step_len None o bs) as SL.
           assert (pushes [o] <= 1) by (destruct o; cbn; lia). change W64 with 18446744073709551616 in *. lia.
      * exists bs. split; [exact HK|]. split; [reflexivity|]. split; [reflexivity|]. eapply (si_run_bitop b o); [|exact E]. apply X.
    + destruct (run_bitop_refused w b l bs e X AL RM O o k LO AK) as (w' & b' & l' & E & OVS & _). destruct (AS _ _ _ _ E) as [T _]. rewrite AK in T.
      pose proof OVS as [OC OG].
      destruct (spoiled_good w (bs_bits b) w' (OB b') (cells l') AL OG) as [FR SP]; cbn [core]; try lia; auto.
      { rewrite OC. eapply basked_pos; eauto. }
      destruct (x_rep _ _ _ _ _ _ X) as [_ [_ DN]]. unfold destroyed in SP. cbn [cfg_of c_dtor] in SP. rewrite DN in SP.
      eapply (step_refused w0 w os K sp _ i (OB b) _ e w' (OB b')); eauto; cbn [run_step refused_step].
      * unfold on_bits. rewrite HO. now rewrite (bind_ok _ _ _ _ _ E).
      * exists bs. split; [exact HK|]. split; [auto|]. eapply (si_run_bitop b o); [|exact E]. apply X.
  - destruct LG as (NE & c & xs & cap & c2 & ys & cap2 & HK & HK2 & ES & LK & RM).
    destruct (xinv_at _ _ _ _ _ _ _ V HK) as (x & HO & OK). destruct (xinv_at _ _ _ _ _ _ _ V HK2) as (x2 & HO2 & OK2).
    pose proof OK as [AL Q]. destruct x as [v|s|b]; try contradiction Q. destruct Q as (R & CF & CP). cbn [core] in AL.
    pose proof OK2 as [AL2 Q]. destruct x2 as [u|s|b]; try contradiction Q. destruct Q as (R2 & CF2 & CP2). cbn [core] in AL2.
    subst c c2. cbn [c_esz cfg_of] in *. destruct (nnth_exists _ _ LK) as [y NY].
    destruct (elem_src w u ys k y R2 NY) as (q & EG & SQ & PQ & LY).
    pose proof (x_apart _ _ _ _ _ V _ _ _ _ HO HO2 NE) as AP. cbn [core] in AP.
    destruct (growth_bounds _ _ _ _ _ R) as [GB _]. pose proof (r_esz _ _ _ _ _ R) as EP.
    assert (F : fits (nlen xs + 1) (v_esz v)) by exact RM.
    assert (F2 : (nlen xs + 1) * v_growth v * v_esz v < W64) by (unfold room in RM; nia).
    assert (F3 : nlen xs + 1 < W64) by nia.
    pose proof (asks_push_back v (nlen xs) q AL (r_size _ _ _ _ _ R) F3) as AS.
    destruct (ask_cases (orc w (tick w)) (if v_cap v <? nlen xs + 1 then Some 0 else None)) as [AK|(k0 & e & AK & O)].
    + assert (AK2 : v_cap v <? nlen xs + 1 = false \/ exists fill, orc w (tick w) = AOk fill).
      { destruct AK as [AK|AK]; [left; now destruct (_ <? _)|now right]. }
      destruct (push_back_granted w v xs y q R AL) as (r & w' & v' & xs' & E & [GR GC GF] & S); auto; try congruence.
      pose proof (AS _ _ _ E) as T.
      eapply (step_granted w0 w os K sp _ i (OV v) _ r w' (OV v') (KVec (cfg_of v) xs' (v_cap v'))); eauto; cbn [core run_step pspec].
      * unfold on_vec. rewrite HO, HO2. rewrite (bind_ok _ _ _ _ _ EG). now rewrite (bind_ok _ _ _ _ _ E).
      * split; [cbn [core]; destruct GC; congruence|]. split; [exact GR|]. split; [now apply cfg_of_same|reflexivity].
      * rewrite T. now destruct (_ <? _).
      * exists (cfg_of v), xs, cap, (cfg_of u), ys, cap2, y, xs', (v_cap v').
        split; [exact HK|]. split; [exact HK2|]. split; [exact NY|]. split; [subst cap; exact S|reflexivity].
    + destruct (N.ltb_spec (v_cap v) (nlen xs + 1)) as [L|L]; [|discriminate AK].
      pose proof (push_back_refused w v xs q e R AL O F L) as E.
      destruct (spoiled_good w v (ticked w) (OV (set_cap v ((nlen xs + 1) * v_growth v))) xs AL) as [FR SP]; cbn [core]; auto.
      { rewrite set_cap_back. apply good_ticked; [exact AL|]. now apply good_refl. } { cbn. nia. } { cbn. lia. }
      eapply (step_refused w0 w os K sp _ i (OV v) _ e (ticked w) (OV (set_cap v ((nlen xs + 1) * v_growth v)))); eauto; cbn [run_step refused_step].
      * unfold on_vec. rewrite HO, HO2. rewrite (bind_ok _ _ _ _ _ EG). now rewrite (bind_ok _ _ _ _ _ E).
      * exists (cfg_of v), xs, cap. subst cap. auto 6.
  - destruct LG as (NE & cs & y & HK & HK2 & RM).
    destruct (xinv_at _ _ _ _ _ _ _ V HK) as (x & HO & OK). destruct (xinv_at _ _ _ _ _ _ _ V HK2) as (x2 & HO2 & OK2).
    pose proof OK as [AL R]. destruct x as [v|s|b]; try contradiction R. cbn [core] in AL.
    pose proof OK2 as [AL2 R2]. destruct x2 as [u|t|b]; try contradiction R2. cbn [core] in AL2.
    pose proof (x_apart _ _ _ _ _ V _ _ _ _ HO HO2 NE) as AP. cbn [core] in AP.
    assert (VW : is_view w t y (blk (s_vec s))) by (apply string_is_view; [exact R2|congruence]).
    assert (F : (nlen cs + nlen y + 1) * 256 < W64) by exact RM.
    destruct (ask_cases (orc w (tick w)) (sask s cs (SAppend y))) as [AK|(k & e & AK & O)].
    + destruct (append_from_granted w s cs R AL t y VW F AK) as (r & w' & s' & cs' & E & G & S & T).
      eapply (step_granted w0 w os K sp _ i (OS s) _ r w' (OS s') (KStr cs')); eauto; cbn [core run_step pspec].
      * unfold on_str. rewrite HO, HO2. now rewrite (bind_ok _ _ _ _ _ E).
      * apply G.
      * split; [|exact (sgood_rep _ _ _ _ _ _ _ _ R G)]. destruct G as [[_ GC _ _] _]. destruct GC. cbn [core]. congruence.
      * exists cs, y, cs'. split; [exact HK|]. split; [exact HK2|]. split; [exact S|]. split; [reflexivity|].
        eapply (si_sappend s t); [|exact E]. apply R.
    + pose proof (append_from_refused w s cs R AL e O t y k VW F AK) as E.
      destruct (string_spoiled w s (with_vec s (set_cap (s_vec s) k)) (ticked w) cs k R AL cs) as [FR SP].
      { split; [reflexivity|]. apply overstated_same; [exact AL|]. apply good_refl. now apply string_rep. }
      { apply (sasked_pos w s cs R (SAppend y)); cbn; auto. } { cbn. lia. }
      eapply (step_refused w0 w os K sp _ i (OS s) _ e (ticked w) (OS (with_vec s (set_cap (s_vec s) k)))); eauto; cbn [run_step refused_step].
      * unfold on_str. rewrite HO, HO2. now rewrite (bind_ok _ _ _ _ _ E).
      * exists cs. auto.
  - destruct LG as (NE & cs & y & HK & HK2 & RM).
    destruct (xinv_at _ _ _ _ _ _ _ V HK) as (x & HO & OK). destruct (xinv_at _ _ _ _ _ _ _ V HK2) as (x2 & HO2 & OK2).
    pose proof OK as [AL R]. destruct x as [v|s|b]; try contradiction R. cbn [core] in AL.
    pose proof OK2 as [AL2 R2]. destruct x2 as [u|t|b]; try contradiction R2. cbn [core] in AL2.
    pose proof (x_apart _ _ _ _ _ V _ _ _ _ HO HO2 NE) as AP. cbn [core] in AP.
    assert (VW : is_view w t y (blk (s_vec s))) by (apply string_is_view; [exact R2|congruence]).
    assert (F : (nlen cs + nlen y + 1) * 256 < W64) by exact RM.
    destruct (ask_cases (orc w (tick w)) (sask s cs (SInsert k y))) as [AK|(k0 & e & AK & O)].
    + destruct (insert_from_granted w s cs R AL k t y VW F AK) as (r & w' & s' & cs' & E & G & S & T).
      eapply (step_granted w0 w os K sp _ i (OS s) _ r w' (OS s') (KStr cs')); eauto; cbn [core run_step pspec].
      * unfold on_str. rewrite HO, HO2. now rewrite (bind_ok _ _ _ _ _ E).
      * apply G.
      * split; [|exact (sgood_rep _ _ _ _ _ _ _ _ R G)]. destruct G as [[_ GC _ _] _]. destruct GC. cbn [core]. congruence.
      * exists cs, y, cs'. split; [exact HK|]. split; [exact HK2|]. split; [exact S|]. split; [reflexivity|].
        eapply (si_sinsert s k t); [|exact E]. apply R.
    + pose proof (insert_from_refused w s cs R AL e O k t y k0 VW F AK) as E.
      destruct (string_spoiled w s (with_vec s (set_cap (s_vec s) k0)) (ticked w) cs k0 R AL cs) as [FR SP].
      { split; [reflexivity|]. apply overstated_same; [exact AL|]. apply good_refl. now apply string_rep. }
      { apply (sasked_pos w s cs R (SInsert k y)); cbn; auto. } { cbn. lia. }
      eapply (step_refused w0 w os K sp _ i (OS s) _ e (ticked w) (OS (with_vec s (set_cap (s_vec s) k0)))); eauto; cbn [run_step refused_step].
      * unfold on_str. rewrite HO, HO2. now rewrite (bind_ok _ _ _ _ _ E).
      * exists cs. auto.
  - destruct LG as (NE & xs & ys & HK & HK2).
    destruct (xinv_at _ _ _ _ _ _ _ V HK) as (x & HO & OK). destruct (xinv_at _ _ _ _ _ _ _ V HK2) as (x2 & HO2 & OK2).
    pose proof OK as [AL Q]. destruct x as [v|s|b]; try contradiction Q. destruct Q as ((l & X) & LT). cbn [core] in AL.
    pose proof OK2 as [AL2 Q]. destruct x2 as [u|t|c]; try contradiction Q. destruct Q as ((l2 & X2) & LT2). cbn [core] in AL2.
    pose proof (x_apart _ _ _ _ _ V _ _ _ _ HO HO2 NE) as AP. cbn [core] in AP.
    assert (BW : exists bop, byte_op op = bs_byte_op bop /\ bytewise bop (connective op)).
    { destruct op; eexists; (split; [reflexivity|]); [apply and_bytewise|apply or_bytewise|apply xor_bytewise]. }
    destruct BW as (bop & EB & BW).
    destruct (logic_step bop _ w b c xs ys l l2 BW X X2) as (w' & zs & E & CB & X' & F). { congruence. }
    assert (T : tick w' = tick w + 0).
    { exact (asks_byte_op bop b c _ _ _ _ _ E). }
    eapply (step_granted w0 w os K sp _ i (OB b) _ _ w' (OB b) (KBits zs) None); eauto; cbn [run_step pspec].
    * unfold on_bits. rewrite HO, HO2, EB. now rewrite (bind_ok _ _ _ _ _ E).
    * split; [exact AL|]. split; [eauto|]. destruct CB as (-> & _). exact LT.
    * exists xs, ys, zs. repeat (split; [eassumption || reflexivity|]). eapply (si_byte_op_loop bop b c); exact E.
  - destruct LG as (G & S & c & xs & cap0 & HK & M). destruct (xinv_at _ _ _ _ _ _ _ V HK) as (x & HO & OK).
    pose proof OK as [AL Q]. destruct x as [v|t|b]; try contradiction Q. destruct Q as (R & CF & CP). subst c. cbn [c_esz c_dtor cfg_of] in *.
    destruct (orc w (tick w)) as [st|fill] eqn:O.
    + destruct (vinit_refused w (v_esz v) (N.max cap (v_size v)) (v_dtor v) g s st O) as [d IE]; [apply R|lia|].
      eapply (create_refused w0 w os K sp _ st (Some (OV d)) (ticked w)); eauto; cbn; try lia. unfold on_vec. rewrite HO.
      unfold vduplicate_ex. cbv zeta. unfold bind. rewrite IE. rewrite st_success_err. reflexivity.
    + destruct (vcopy_ok w v xs cap g s fill R O M G S) as (w1 & d & E & RD & CD & AD & CFD & D & ORC & T & B1 & B2 & HP).
      eapply (create_granted w0 w os K sp _ fill (OV d) (KVec (mkcfg false g s (v_esz v) (v_dtor v)) xs (N.max 1 (N.max cap (nlen xs)))) w1);
        eauto; cbn [core pspec run_step].
      * unfold on_vec. rewrite HO. now rewrite (bind_ok _ _ _ _ _ E).
      * split; [exact AD|]. split; [exact RD|]. split; [exact CFD|exact CD].
      * eexists _, xs, cap0. split; [exact HK|]. auto.
  - destruct LG as (G & S & cs & HK & M). destruct (xinv_at _ _ _ _ _ _ _ V HK) as (x & HO & OK).
    pose proof OK as [AL R]. destruct x as [v|t|b]; try contradiction R.
    destruct (orc w (tick w)) as [st|fill] eqn:O.
    + destruct (sinit_refused w (N.max cap (wsub (ssize t) 1)) g s st O) as [d IE]; [lia|].
      eapply (create_refused w0 w os K sp _ st (Some (OS d)) (ticked w)); eauto; cbn; try lia. unfold on_str. rewrite HO.
      unfold sduplicate_ex. cbv zeta. destruct (N.eqb_spec (ssize t) 0) as [Z|Z]; [rewrite (srep_size _ _ _ _ _ R) in Z; lia|].
      unfold bind. rewrite IE. cbn [sduplicate_into]. rewrite st_success_err. reflexivity.
    + destruct (scopy_ok w t cs cap g s fill R O M G S) as (w1 & d & E & RD & AD & D & ORC & T & B1 & B2 & HP).
      eapply (create_granted w0 w os K sp _ fill (OS d) (KStr cs) w1); eauto; cbn [core pspec run_step].
      * unfold on_str. rewrite HO. now rewrite (bind_ok _ _ _ _ _ E).
      * split; [exact AD|exact RD].
      * exists cs. auto.
  - destruct LG as (G & S & x & y & HK & HK2 & M). destruct (xinv_at _ _ _ _ _ _ _ V HK) as (x1 & HO & OK).
    destruct (xinv_at _ _ _ _ _ _ _ V HK2) as (x2 & HO2 & OK2).
    pose proof OK as [AL R]. destruct x1 as [v|t|b]; try contradiction R.
    pose proof OK2 as [AL2 R2]. destruct x2 as [v2|t2|b2]; try contradiction R2.
    destruct (orc w (tick w)) as [st|fill] eqn:O.
    + destruct (sinit_refused w (N.max cap (wsub (wsub (wadd (ssize t) (ssize t2)) 1) 1)) g s st O) as [d IE]; [lia|].
      eapply (create_refused w0 w os K sp _ st (Some (OS d)) (ticked w)); eauto; cbn; try lia. unfold on_str. rewrite HO, HO2.
      unfold sconcat_ex. cbv zeta. destruct (N.eqb_spec (ssize t) 0) as [Z|Z]; [rewrite (srep_size _ _ _ _ _ R) in Z; lia|].
      destruct (N.eqb_spec (ssize t2) 0) as [Z2|Z2]; [rewrite (srep_size _ _ _ _ _ R2) in Z2; lia|]. cbn [orb].
      unfold bind. rewrite IE. cbn [sconcat_into]. rewrite st_success_err. reflexivity.
    + destruct (sjoin_ok w t x t2 y cap g s fill R R2 O M G S) as (w1 & d & E & RD & AD & D & ORC & T & B1 & B2 & HP).
      eapply (create_granted w0 w os K sp _ fill (OS d) (KStr (x ++ y)) w1); eauto; cbn [core pspec run_step].
      * unfold on_str. rewrite HO, HO2. now rewrite (bind_ok _ _ _ _ _ E).
      * split; [exact AD|exact RD].
      * exists x, y. auto.
  - destruct LG as (cs & HK & FA & RM). destruct (xinv_at _ _ _ _ _ _ _ V HK) as (x & HO & OK).
    pose proof OK as [AL R]. destruct x as [v|s|b]; try contradiction R. cbn [core] in AL.
    assert (DL : forall r s' w', run_fop is64 s o w = Ok (r, s') w' -> dlog w' = dlog w).
    { intros r s' w' E. eapply (si_run_fop is64 s o); [|exact E]. apply R. }
    assert (ST : forall r s' w', run_fop is64 s o w = Ok (r, s') w' -> run_step os (PFormat is64 i o) w = Ok (r, put i (Some (OS s')) os) w').
    { intros r s' w' E. cbn [run_step]. unfold on_str. rewrite HO. now rewrite (bind_ok _ _ _ _ _ E). }
    assert (FN : (exists o', o = FStr o') \/ formats_number o) by (destruct o; [left; eauto|right; exact I..]).
    destruct FN as [[o' ->]|FN].
    + cbn [run_fop fargs_ok fdemand] in *. assert (F : (nlen cs + sdemand o' + 1) * 256 < W64) by exact RM.
      pose proof (srep_does w s cs R AL o' FA F) as AS.
      destruct (ask_cases (orc w (tick w)) (sasked (v_growth (s_vec s)) (v_shrink (s_vec s)) o' (mksst cs (v_cap (s_vec s) - 1)))) as [AK|(k & e & AK & O)].
      * destruct (run_sop_granted w s cs R AL o' FA F AK) as (r & w' & s' & cs' & E & G & S). destruct (AS _ _ _ _ E) as [T _].
        eapply (step_granted w0 w os K sp _ i (OS s) _ r w' (OS s') (KStr cs')); eauto; cbn [core pspec].
        -- apply G.
        -- split; [|exact (sgood_rep _ _ _ _ _ _ _ _ R G)]. destruct G as [[_ GC _ _] _]. destruct GC. cbn [core]. congruence.
        -- exists cs, cs'. split; [exact HK|]. split; [exact S|]. split; [reflexivity|]. eauto.
      * destruct (run_sop_refused w s cs e R AL O o' k FA F AK) as (w' & s' & E & OVS). destruct (AS _ _ _ _ E) as [T _]. rewrite AK in T.
        destruct (string_spoiled w s s' w' cs k R AL _ OVS) as [FR SP]; try lia. { eapply sasked_pos; eauto. }
        eapply (step_refused w0 w os K sp _ i (OS s) _ e w' (OS s')); eauto; cbn [refused_step].
        exists cs. split; [exact HK|]. split; [auto|]. eauto.
    + destruct (run_fop_any is64 w s cs o R AL FN FA RM) as (r & s' & w' & cs' & E & T & OR & H).
      destruct H as [(G & FS & AG)|(e & T1 & AG & OF & -> & (c & SL & C1) & TX)].
      * eapply (step_all_granted w0 w os K sp _ i (OS s) _ r w' (OS s') (KStr cs')); eauto; cbn [core pspec].
        -- apply G.
        -- split; [|exact (sgood_rep _ _ _ _ _ _ _ _ R G)]. cbn [core]. now rewrite (sgood_alloc _ _ _ _ _ G).
        -- exists cs, cs'. split; [exact HK|]. split; [exact FS|]. split; [reflexivity|]. eauto.
      * pose proof (sgood_rep _ _ _ _ _ _ _ _ R SL) as RL. destruct RL as [[RV [_ DN]] FL]. cbn [s_vec with_vec set_cap v_alloc s_flags v_dtor] in RV, DN, FL.
        pose proof (sgood_alloc _ _ _ _ _ SL) as AL'. cbn [s_vec with_vec set_cap v_alloc] in AL'. rewrite AL', AL in FL.
        eapply (step_last_refused w0 w os K sp _ i (OS s) _ e w' (OS s') []); eauto; cbn [core refused_step step_requests].
        -- eapply frame_cap. apply SL.
        -- exists c, (cells (cs' ++ [0])). cbn [core]. split; [exact RV|]. split; [exact C1|]. split; [congruence|]. split; [lia|].
           split; [|exact FL]. unfold destroyed. cbn [cfg_of c_dtor]. now rewrite DN.
        -- lia.
        -- exists cs. split; [exact HK|]. split; [auto|]. eauto.
  - destruct LG as (k & HK). destruct (xinv_at _ _ _ _ _ _ _ V HK) as (x & HO & OK).
    assert (D : exists v' w', vdestroy (core x) w = Ok (ST_SUCCESS, v') w' /\ dlog w' = dlog w ++ last_words k /\
      nextb w' = nextb w /\ orc w' = orc w /\ heap w' (blk (core x)) = None /\ (forall b, b <> blk (core x) -> heap w' b = heap w b) /\
      match x with OS s => s_flags s = 0 | _ => True end).
    { pose proof OK as [AL Q]. destruct x as [v|s|b], k as [c xs cap|cs|bs]; try contradiction Q; cbn [core last_words] in *.
      - destruct Q as (R & CF & CP). destruct (destroy_full w v xs R AL) as (v' & w' & H). subst c. exists v', w'. tauto.
      - pose proof Q as [[R [_ DN]] FL]. rewrite AL in FL. destruct (destroy_full w (s_vec s) _ R AL) as (v' & w' & H).
        unfold destroyed in H. cbn [cfg_of c_dtor] in H. rewrite DN in H. exists v', w'. tauto.
      - destruct Q as ((l & X) & _). destruct (x_rep _ _ _ _ _ _ X) as [R [_ DN]]. destruct (destroy_full w (bs_bits b) _ R AL) as (v' & w' & H).
        unfold destroyed in H. cbn [cfg_of c_dtor] in H. rewrite DN in H. exists v', w'. tauto. }
    destruct D as (v' & w' & E & D & NX & OR & HN & HP & FL).
    pose proof (asks_vdestroy _ _ _ _ E) as TE. rewrite N.add_0_r in TE.
    exists ST_SUCCESS, (put i None os), w', (put i None K), sp. split; [|split].
    + unfold try_step. cbn [run_step target]. rewrite HO. destruct x as [v|s|b]; cbn [core] in *.
      * unfold bind. rewrite E. reflexivity.
      * unfold sdestroy. rewrite FL. change (negb (N.land 0 HAS_FIXED_CAPACITY =? 0)) with false. cbv iota. unfold bind. rewrite E. reflexivity.
      * unfold bs_destroy, bind. rewrite E. reflexivity.
    + left. split; [|split; [reflexivity|]; split; [cbn [step_requests]; lia|intros u; lia]]. exists k. auto.
    + eapply xinv_destroy; eauto; try lia; [|intros; reflexivity]. intros words. eapply xinv_whole; eauto.
Qed.

(** ** Programs *)
Lemma client_ok q : forall w0 w os K sp, xinv w0 w os K sp -> careful q K sp (dlog w) ->
  exists rs os' w' K' sp', run_client os q w = Ok (rs, os') w' /\
    xsteps (orc w0) q K sp (dlog w) (tick w) rs K' sp' (dlog w') (tick w') /\ xinv w0 w' os' K' sp'.
Proof.
  induction q as [|p next IH]; intros w0 w os K sp V CA.
  - exists [], os, w, K, sp. split; [reflexivity|]. split; [constructor|exact V].
  - destruct CA as [C1 C2]. destruct (xstep_ok w0 w os K sp p V C1) as (r & os1 & w1 & K1 & sp1 & E1 & S1 & V1).
    destruct (IH r w0 w1 os1 K1 sp1 V1 (C2 _ _ _ _ _ _ _ S1)) as (rs & os2 & w2 & K2 & sp2 & E2 & S2 & V2).
    exists (r :: rs), os2, w2, K2, sp2. split; [|split; [econstructor; eauto|exact V2]].
    cbn [run_client]. now rewrite (bind_ok _ _ _ _ _ E1), (bind_ok _ _ _ _ _ E2).
Qed.
Lemma xinv_nil w0 : wfw w0 -> xinv w0 w0 [] [] [].
Proof.
  intros W. assert (E : forall A i, nnth i (@nil A) = None) by (intros; apply nnth_ge; rewrite nlen_nil; lia).
  split; auto; try lia; intros; try (rewrite E in *; discriminate). contradiction.
Qed.
Lemma exhausted_ok w0 q : world_ok w0 -> careful q [] [] (dlog w0) ->
  exists rs os w K sp, run_client [] q w0 = Ok (rs, os) w /\
    xsteps (orc w0) q [] [] (dlog w0) (tick w0) rs K sp (dlog w) (tick w) /\
    nlen os = nlen K /\ (forall i x k, nnth i os = Some x -> holds K i k -> obj_shows w x (Some k)) /\ untouched w0 w /\
    (Forall (fun k => k = None) K -> sp = [] -> forall b, heap w b = heap w0 b).
Proof.
  intros W CA. destruct (client_ok q w0 w0 [] [] [] (xinv_nil w0 W) CA) as (rs & os & w & K & sp & E & S & V).
  exists rs, os, w, K, sp. split; [exact E|]. split; [exact S|]. split; [apply V|]. split; [|split].
  - intros i x k HX HK. pose proof (x_ok _ _ _ _ _ V _ _ _ HX HK) as P. destruct x as [x|]; [|contradiction P].
    apply pair_shows. apply P.
  - intros b buf H. rewrite (x_rest _ _ _ _ _ V); [exact H|]. intros i x HX E2. pose proof (x_new _ _ _ _ _ V _ _ HX).
    rewrite (W b) in H by lia. discriminate H.
  - intros ALL -> b. apply (x_rest _ _ _ _ _ V). intros i x HX. exfalso.
    destruct (xinv_slot _ _ _ _ _ _ _ V HX) as (k & HK & P). rewrite Forall_forall in ALL.
    rewrite (ALL k) in P; [|unfold nnth in HK; eapply nth_error_In; eauto]. destruct P as (ws & _ & [] & _).
Qed.

(** ** Clearing up *)
Lemma destroy_objs os i (w : world) r os' w' : run_step os (PDestroy i) w = Ok (r, os') w' -> os' = put i None os.
Proof.
  cbn [run_step]. destruct (nnth i os) as [[[v|s|b]|]|]; try discriminate; unfold bind, ret.
  - destruct (vdestroy v w) as [[a c] w1|]; [|discriminate]. intros H. now injection H.
  - destruct (sdestroy s w) as [[a c] w1|]; [|discriminate]. intros H. now injection H.
  - destruct (bs_destroy b w) as [[a c] w1|]; [|discriminate]. intros H. now injection H.
Qed.
Lemma try_destroy os i (w : world) a w' : try_step os (PDestroy i) w = Ok a w' -> run_step os (PDestroy i) w = Ok a w'.
Proof.
  unfold try_step, bind. destruct (run_step os (PDestroy i) w) as [[r os'] w1|]; [|discriminate]. cbn [target]. auto.
Qed.
Lemma destroy_any w0 w os K sp i x : xinv w0 w os K sp -> nnth i os = Some (Some x) ->
  exists w' K' sp', run_step os (PDestroy i) w = Ok (ST_SUCCESS, put i None os) w' /\ xinv w0 w' (put i None os) K' sp'.
Proof.
  intros V HO. destruct (xinv_slot _ _ _ _ _ _ _ V HO) as (k & HK & P).
  destruct (xstep_ok w0 w os K sp (PDestroy i) V) as (r & os' & w' & K' & sp' & E & S & V').
  { destruct k as [k|]; [left; now exists k|]. right. destruct P as (ws & _ & I1 & _). eauto. }
  apply try_destroy in E. pose proof (destroy_objs _ _ _ _ _ _ E). subst os'. exists w', K', sp'. split; [|exact V'].
  replace ST_SUCCESS with r; [exact E|]. destruct S as [[S _]|[(e & _ & _ & _ & _ & [])|(j & ws & _ & _ & -> & _)]]; [|reflexivity].
  destruct S as (k2 & _ & -> & _). reflexivity.
Qed.
Lemma destroy_all w0 ds : forall w os K sp, xinv w0 w os K sp -> NoDup ds ->
  (forall i, In i ds <-> exists x, nnth i os = Some (Some x)) ->
  exists os' w', run_prog os (map PDestroy ds) w = Ok (repeat ST_SUCCESS (length ds), os') w' /\ forall b, heap w' b = heap w0 b.
Proof.
  induction ds as [|i ds IH]; intros w os K sp V ND IN.
  - exists os, w. split; [reflexivity|]. intros b. apply (x_rest _ _ _ _ _ V). intros i x HX. exfalso. apply (proj2 (IN i)). eauto.
  - apply NoDup_cons_iff in ND as [NI ND]. destruct (proj1 (IN i) (or_introl eq_refl)) as [x HX].
    destruct (destroy_any w0 w os K sp i x V HX) as (w1 & K1 & sp1 & E1 & V1).
    destruct (IH w1 _ K1 sp1 V1 ND) as (os2 & w2 & E2 & H2).
    + intros j. rewrite (nnth_put _ _ _ _ _ HX). destruct (N.eqb_spec j i) as [->|NE].
      * split; [contradiction|intros [y H]; discriminate H].
      * rewrite <- IN. split; [now right|]. intros [H|H]; [congruence|exact H].
    + exists os2, w2. split; [|exact H2]. cbn [map run_prog length repeat].
      now rewrite (bind_ok _ _ _ _ _ E1), (bind_ok _ _ _ _ _ E2).
Qed.
Lemma remaining_in os i : In i (remaining os) <-> exists x, nnth i os = Some (Some x).
Proof.
  unfold remaining. rewrite filter_In. split.
  - intros [_ H]. destruct (nnth i os) as [[x|]|]; try discriminate H. eauto.
  - intros [x H]. rewrite H. split; [|reflexivity]. pose proof (nnth_lt _ _ _ H) as L. apply in_map_iff. exists (N.to_nat i).
    split; [lia|]. apply in_seq. unfold nlen in L. lia.
Qed.
Lemma remaining_nodup os : NoDup (remaining os).
Proof.
  unfold remaining. apply NoDup_filter. apply FinFun.Injective_map_NoDup; [|apply seq_NoDup]. intros a b. lia.
Qed.
Lemma cleared_up w0 q rs os w ds : world_ok w0 -> careful q [] [] (dlog w0) -> run_client [] q w0 = Ok (rs, os) w ->
  Permutation.Permutation ds (remaining os) ->
  exists os' w', run_prog os (map PDestroy ds) w = Ok (repeat ST_SUCCESS (length ds), os') w' /\ forall b, heap w' b = heap w0 b.
Proof.
  intros W CA E P. destruct (client_ok q w0 w0 [] [] [] (xinv_nil w0 W) CA) as (rs2 & os2 & w2 & K & sp & E2 & S & V).
  rewrite E in E2. injection E2 as <- <- <-. eapply destroy_all; [exact V| |].
  - eapply Permutation.Permutation_NoDup; [apply Permutation.Permutation_sym, P|apply remaining_nodup].
  - intros i. rewrite <- remaining_in. split; apply Permutation.Permutation_in; [exact P|now apply Permutation.Permutation_sym].
Qed.

Lemma careless_witness : exists w0 : world, world_ok w0 /\ (forall t, t <> 1 -> exists fill, orc w0 t = AOk fill) /\
  run_prog [] [PVec 1 1 None 2 1; PVecCall 0 (OPushBack [7]); PVecCall 0 (OPushBack [8]); PVecCall 0 (OPushBack [9])] w0 = Fault OutOfBounds.
Proof.
  exists (with_oracle world0 (refuses_request 1)). split; [apply world0_ok|]. split.
  - intros t NE. cbn [orc with_oracle]. unfold refuses_request. destruct (N.eqb_spec t 1); [contradiction|eauto].
  - vm_compute. reflexivity.
Qed.

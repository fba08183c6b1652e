(** AppendFormat on a fixed buffer with 2 GiB or more of unused room. *)
From Verif Require Import Base NListFacts Status Mem MemFacts VectorModel VectorSpec VectorDriver
  VectorRep VectorProofs VectorProofs2 VectorProofs3 VectorRefine VectorFail StringModel StringSpec StringDriver StringBytes
  StringProofs StringSearch StringFinal StringFinal2 FormatModel FormatSpec FormatDriver FormatDigits FormatProofs
  FormatRun FormatFinal AppendSpec AppendProofs.
From Coq Require Import ZifyBool ZifyNat ZifyN.

Implicit Types (w : world) (s : str).

Lemma to_i32_less x n : let m := x mod 4294967296 in 2147483648 <= m \/ m < n -> (to_i32 x < Z.of_N n)%Z.
Proof.
  intros m H. unfold to_i32. change W32 with 4294967296. fold m.
  assert (m < 4294967296) by (apply N.mod_lt; lia). destruct (N.ltb_spec m 2147483648); lia.
Qed.
Lemma fixed_resizes w (v : vector N) n : v_shrink v = 0 -> v_size v <= n -> n <= v_cap v ->
  vresize v n w = Ok (ST_SUCCESS, set_size v n) w.
Proof.
  intros SH L1 L2. unfold vresize, vresize_ex. destruct (N.eqb_spec n (v_size v)) as [->|].
  - destruct v. reflexivity.
  - destruct (N.ltb_spec n (v_size v)); [lia|]. unfold should_grow, should_shrink. rewrite SH.
    destruct (N.ltb_spec (v_cap v) n); [lia|].
    reflexivity.
Qed.

Lemma format_large is64 k w s cs t : freached is64 (Some k) w s cs -> nlen cs + nlen t <= k -> int_text t ->
  sroom (nlen cs + nlen t) ->
  let m := (k - nlen cs) mod 4294967296 in 2147483648 <= m \/ m < nlen t ->
  let r := k - nlen cs - nlen t in let m2 := r mod 4294967296 in
  exists s',
    (forall t2, checked w = true -> 2147483648 <= m2 \/ m2 < nlen t2 ->
       sappend_format (FText t) (FText t2) s w = Fault AssertFailed) /\
    (forall t2, checked w = false -> exists w',
       sappend_format (FText t) (FText t2) s w = Ok (ST_SUCCESS, s') w' /\
       seen w' s' (nlen cs + nlen t) k (cs ++ nfirst r t2 ++ [0])) /\
    (forall t2, exists w',
       sappend_format (FText t) (FError t2) s w = Ok (ST_FAILED, s') w' /\
       seen w' s' (nlen cs + nlen t) k (cs ++ nfirst r t2)).
Proof.
  intros RE L T RM m HM r m2. unfold sroom, int_text in *. destruct (freached_rep _ _ _ _ _ RE) as (pre & post & R & NF & LM).
  pose proof (srep_size _ _ _ _ _ R) as SZ0. pose proof (srep_cap _ _ _ _ _ R) as CW.
  assert (LE0 : nlen cs + 1 <= v_cap (s_vec s)).
  { destruct R as [BR _]. pose proof (brep_le _ _ _ _ _ BR) as LE. rewrite nlen_app in LE. change (nlen [0]) with 1 in LE. lia. }
  assert (AL : v_alloc (s_vec s) = false /\ v_cap (s_vec s) = k + 1).
  { unfold limit_of in LM. destruct (v_alloc (s_vec s)); [discriminate|]. injection LM as LM. split; [reflexivity|lia]. }
  destruct AL as [AL CP0].
  destruct (append_start w s pre cs post (FText t) R CW) as (w1 & rest & E & SZ & LE & LR & G & CK & NX & TK & HK).
  cbn [printed] in *. rewrite CP0 in LR, G. replace (k + 1 - 1 - nlen cs) with (k - nlen cs) in * by lia.
  set (x := nfirst (k - nlen cs) t ++ [0]) in *.
  pose proof R as [BR _]. pose proof BR as (VR & ES & DT).
  pose proof (r_alloc _ _ _ _ _ VR) as RA. rewrite AL in RA. destruct RA as [GR SHK].
  assert (exists c0 y', x = c0 :: y') as (c0 & y' & YE). { unfold x. destruct (nfirst _ t); cbn; eauto. }
  assert (G1 : bgood w (s_vec s) w1 (s_vec s) pre (cs ++ [c0]) post).
  { eapply bgood_trans; [exact G|eapply brep_wf; exact BR|].
    assert (RR : brep w1 (set_size (s_vec s) (k + 1)) pre ((cs ++ [c0]) ++ (y' ++ rest)) post).
    { rewrite YE in G. rewrite <- app_assoc. cbn [app]. apply G. }
    apply bcut_size in RR. rewrite nlen_app in RR. change (nlen [c0]) with 1 in RR. rewrite <- SZ in RR.
    destruct s as [fl v]. destruct v. exact RR. }
  assert (NF1 : snofail w1 s) by (eapply bnofail; [exact NF|apply G1]).
  destruct (bgrow_ok w1 s pre cs [c0] post (nlen cs + nlen t) (b_rep _ _ _ _ _ _ _ G1) NF1) as (rr & w2 & s2 & E2 & FL2 & K2).
  { reflexivity. } { change (nlen [c0]) with 1. lia. } { exact RM. }
  unfold bholds in K2. rewrite AL, CP0 in K2. cbn [orb] in K2.
  destruct (N.leb_spec (nlen cs + nlen t + 1) (k + 1)) as [LK|]; [|lia]. destruct K2 as [-> (l' & LL & G2)].
  assert (CP : v_cap (s_vec s2) = k + 1 /\ checked w2 = checked w1).
  { unfold sresize in E2. rewrite wadd_small in E2 by lia.
    rewrite (bind_ok _ _ _ _ _ (fixed_resizes w1 (s_vec s) (nlen cs + nlen t + 1) SHK
       ltac:(change (v_size (s_vec s)) with (ssize s); lia) ltac:(lia))) in E2.
    change (negb (st_success ST_SUCCESS)) with false in E2. cbv beta iota in E2. unfold bind, ret in E2.
    destruct (nullterminate _ _) as [[] w4|] eqn:EN; [|discriminate]. apply nullterminate_checked in EN.
    injection E2 as <- <-. split; [exact CP0|exact EN]. }
  destruct CP as [CP CK2]. pose proof (b_rep _ _ _ _ _ _ _ G2) as R2.
  assert (SZ2 : ssize s2 = nlen cs + nlen t + 1).
  { change (ssize s2) with (v_size (s_vec s2)). rewrite (brep_size _ _ _ _ _ R2), nlen_app. exact LL. }
  assert (ALL : forall f2, exists w3, 
     seen w3 s2 (nlen cs + nlen t) k (cs ++ printed f2 r) /\ checked w3 = checked w /\
     sappend_format (FText t) f2 s w = (if (answer f2 <? 0)%Z then ret (ST_FAILED, s2) else
       assert (answer f2 <=? to_i32 r)%Z ;;; ret (ST_SUCCESS, s2)) w3).
  { intros f2. destruct (print_at w2 (s_vec s2) pre cs l' post f2 r R2) as (w3 & rest3 & E3 & LR3 & G3 & CK3 & _).
    { rewrite CP. unfold r. lia. }
    exists w3. split; [|split].
    - replace k with (v_cap (s_vec s2) - 1) at 1 by lia.
      eapply seen_of with (rest := rest3); [rewrite <- app_assoc; apply G3|exact SZ2|lia|lia].
    - congruence.
    - rewrite E. unfold append_rest. cbn [answer]. rewrite CP0, SZ. replace (k + 1 - (nlen cs + 1)) with (k - nlen cs) by lia.
      pose proof (to_i32_less (k - nlen cs) (nlen t) HM) as TL.
      destruct (Z.ltb_spec (Z.of_N (nlen t)) 0); [lia|]. destruct (Z.leb_spec (Z.of_N (nlen t)) (to_i32 (k - nlen cs))); [lia|].
      rewrite N2Z.id, wadd_small, wsub_small by lia. replace (nlen cs + 1 + nlen t - 1) with (nlen cs + nlen t) by lia.
      rewrite (bind_ok _ _ _ _ _ E2). change (negb (st_success ST_SUCCESS)) with false. cbv beta iota.
      rewrite SZ2, CP. rewrite (wsub_small (k + 1)) by lia.
      replace (k + 1 - (nlen cs + nlen t + 1)) with r by (unfold r; lia). rewrite (wadd_small r 1) by (unfold r; lia).
      replace (nlen cs + 1 - 1) with (nlen cs) by lia. change (sdata s2) with (v_data (s_vec s2)).
      rewrite (bind_ok _ _ _ _ _ E3). reflexivity. }
  exists s2. split; [|split].
  - intros t2 H1 H2. destruct (ALL (FText t2)) as (w3 & S3 & C3 & F3). cbn [printed answer] in *. rewrite F3.
    pose proof (to_i32_less r (nlen t2) H2) as TL.
    destruct (Z.ltb_spec (Z.of_N (nlen t2)) 0); [lia|]. unfold bind, assert, ret.
    destruct (Z.leb_spec (Z.of_N (nlen t2)) (to_i32 r)); [lia|]. now rewrite C3, H1.
  - intros t2 H. destruct (ALL (FText t2)) as (w3 & S3 & C3 & F3). cbn [printed answer] in *. exists w3.
    split; [|assumption]. rewrite F3. destruct (Z.ltb_spec (Z.of_N (nlen t2)) 0); [lia|]. unfold bind, assert, ret.
    destruct (Z.leb_spec (Z.of_N (nlen t2)) (to_i32 r)); [reflexivity|]. now rewrite C3, H.
  - intros t2. destruct (ALL (FError t2)) as (w3 & S3 & C3 & F3). cbn [printed answer] in *. exists w3.
    split; [|assumption]. now rewrite F3.
Qed.

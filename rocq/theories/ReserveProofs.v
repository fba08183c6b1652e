(** Reserve, and an Append that follows it, for every growable string (property C23). *)
From Coq Require Import ZifyBool ZifyNat ZifyN.
From Verif Require Import Base NListFacts Status Mem MemFacts VectorModel VectorSpec VectorDriver RefuseSpec
  VectorRep VectorProofs VectorProofs2 VectorProofs3 VectorRefine VectorFail VectorMore OracleProofs RefuseProofs
  StringModel StringSpec StringDriver StringExamples StringBytes StringProofs StringFinal StringFinal2 StrRefuseSpec StrRefuseProofs StrRefuseProofs2.

Lemma srep_capacity w s cs : srep w s [] cs [] -> sget_capacity s w = Ok (ST_SUCCESS, v_cap (s_vec s) - 1) w.
Proof.
  intros R. pose proof R as [R0 _]. destruct (brep_cap _ _ _ _ _ R0) as [H0 L].
  exact (proj2 (shown_cap w s (v_cap (s_vec s)) cs ltac:(now destruct s as [? []]) H0 L)).
Qed.
Lemma reached_own_rep w0 cap g t s0 w1 ops rs s w cs :
  sinit_args_ok w0 cap g t -> Forall sums_ok ops -> sroom (sdemands ops) ->
  sinit_ex cap true g t w0 = Ok (ST_SUCCESS, Some s0) w1 -> run_sops s0 ops w1 = Ok (rs, s) w -> sshows w s cs ->
  srep w s [] cs [] /\ snofail w s /\ v_alloc (s_vec s) = true /\ v_growth (s_vec s) = g /\ v_shrink (s_vec s) = t.
Proof.
  intros A SO F IE RE SH.
  destruct (sinit_ok w0 cap g t A) as (w1' & s0' & E & R & NF & AL & _ & _ & _ & _ & GR & SHR & _).
  rewrite E in IE. injection IE as -> ->.
  destruct (run_sops_ok ops w1 s0 [] [] [] R NF SO F) as (rs' & w' & s' & cs' & E2 & G & K).
  rewrite RE in E2. injection E2 as -> -> ->. pose proof (sgood_rep _ _ _ _ _ _ _ _ R G) as R'.
  pose proof (sshows_inj _ _ _ _ SH (srep_shows _ _ _ _ _ R')) as EC. subst cs'.
  split; [exact R'|]. split; [eapply bnofail; [exact NF|apply G]|].
  destruct G as [[_ GC _ _] _]. destruct GC as (G1 & G2 & G3 & _). repeat split; congruence.
Qed.

Theorem reserve_exact w s cs c n :
  sreached_own w s cs -> sget_capacity s w = Ok (ST_SUCCESS, c) w -> n < W64 ->
  exists w' s', sreserve s n w = Ok (ST_SUCCESS, s') w' /\ sshows w' s' cs /\
    sget_capacity s' w' = Ok (ST_SUCCESS, N.max c (n - 1)) w'.
Proof.
  intros (w0 & cap & g & t & s0 & w1 & ops & rs & A & SO & F & IE & RE & SH) CP LN.
  destruct (reached_own_rep _ _ _ _ _ _ _ _ _ _ _ A SO F IE RE SH) as (R & NF & AL & _).
  rewrite (srep_capacity _ _ _ R) in CP. injection CP as <-.
  destruct (sreserve_ok w s [] cs [] n R (nofail_grants _ _ NF) LN) as (r & w2 & s2 & cs2 & ER & G2 & K2 & CP).
  rewrite (limit_own _ AL) in K2. cbn in K2. destruct K2 as [-> ->]. rewrite AL in CP.
  pose proof (sgood_rep _ _ _ _ _ _ _ _ R G2) as R2. exists w2, s2. split; [exact ER|]. split; [exact (srep_shows _ _ _ _ _ R2)|].
  rewrite (srep_capacity _ _ _ R2), CP. do 2 f_equal. lia.
Qed.

Corollary reserve_short w s cs c n :
  sreached_own w s cs -> sget_capacity s w = Ok (ST_SUCCESS, c) w -> c < n < W64 ->
  exists w' s' c', sreserve s n w = Ok (ST_SUCCESS, s') w' /\ sget_capacity s' w' = Ok (ST_SUCCESS, c') w' /\ c' < n.
Proof.
  intros R CP LN. destruct (reserve_exact w s cs c n R CP) as (w' & s' & E & _ & K); [lia|]. exists w', s', (N.max c (n - 1)).
  split; [exact E|]. split; [exact K|lia].
Qed.

Theorem append_after_reserve w0 cap g t s0 w1 ops rs s w cs c n x orc' :
  sinit_args_ok w0 cap g t -> Forall sums_ok ops -> sroom (sdemands ops) ->
  sinit_ex cap true g t w0 = Ok (ST_SUCCESS, Some s0) w1 -> run_sops s0 ops w1 = Ok (rs, s) w -> sshows w s cs ->
  sget_capacity s w = Ok (ST_SUCCESS, c) w -> n < W64 -> sroom (nlen cs + nlen x) -> x <> [] ->
  let bytes := nlen cs + nlen x + 1 in let room := N.max n (c + 1) in
  exists s1 w2 r s2 w3 cs2 c2,
    sreserve s n w = Ok (ST_SUCCESS, s1) w2 /\
    run_sop s1 (SAppend x) (with_oracle w2 orc') = Ok (r, s2) w3 /\
    sshows w3 s2 cs2 /\ sget_capacity s2 w3 = Ok (ST_SUCCESS, c2) w3 /\
    (bytes <= room /\ (t = 0 \/ room <= bytes * t) ->
       r = ST_SUCCESS /\ cs2 = cs ++ x /\ c2 = room - 1 /\ tick w3 = tick w2) /\
    (room < bytes \/ t <> 0 /\ bytes * t < room ->
       tick w3 = tick w2 + 1 /\ c2 = bytes * g - 1 /\
       match orc' (tick w2) with AOk _ => r = ST_SUCCESS /\ cs2 = cs ++ x | AFail e => r = err_status e /\ cs2 = cs end).
Proof.
  intros A SO F IE RE SH CP LN RM NX. cbv zeta.
  destruct (reached_own_rep _ _ _ _ _ _ _ _ _ _ _ A SO F IE RE SH) as (R & NF & AL & GR & SHR).
  rewrite (srep_capacity _ _ _ R) in CP. injection CP as <-.
  assert (C1 : 1 <= v_cap (s_vec s)) by (destruct R as [[R0 _] _]; apply R0).
  destruct (sreserve_ok w s [] cs [] n R (nofail_grants _ _ NF) LN) as (r & w2 & s1 & cs2 & ER & G2 & K2 & CP).
  rewrite (limit_own _ AL) in K2. cbn in K2. destruct K2 as [-> ->]. rewrite AL in CP.
  pose proof (sgood_rep _ _ _ _ _ _ _ _ R G2) as R2.
  assert (NF2 : snofail w2 s1) by (eapply bnofail; [exact NF|apply G2]).
  assert (AL2 : v_alloc (s_vec s1) = true) by (destruct G2 as [[_ GC _ _] _]; destruct GC; congruence).
  assert (GR2 : v_growth (s_vec s1) = g) by (destruct G2 as [[_ GC _ _] _]; destruct GC as (_ & GC & _); congruence).
  assert (SHR2 : v_shrink (s_vec s1) = t) by (destruct G2 as [[_ GC _ _] _]; destruct GC as (_ & _ & GC & _); congruence).
  assert (R3 : srep (with_oracle w2 orc') s1 [] cs []).
  { destruct R2 as [R2 FL2]. split; [|exact FL2]. destruct R2 as (R2a & R2b). split; [|exact R2b]. apply rep_with_oracle; [exact R2a|exact NF2]. }
  destruct (run_sop_any (with_oracle w2 orc') s1 cs R3 AL2 (SAppend x)) as (r & w3 & s2 & cs2 & E & S & T & _ & RF & US).
  { exact Logic.I. } { unfold sroom in RM. cbn [sdemand]. lia. }
  cbn [orc tick with_oracle] in *. rewrite GR2, SHR2, CP in *.
  assert (SHOW : sstate_shown w3 s2 (mksst cs2 (v_cap (s_vec s2) - 1))).
  { destruct (srefuses_dec g t (orc' (tick w2)) (SAppend x) (mksst cs (N.max n (v_cap (s_vec s)) - 1))) as [D|D].
    - destruct (RF D) as [L G3]. apply (shown_cap w3 s2 (v_cap (s_vec s1)) cs2); [|apply L|apply L].
      rewrite CP. exact (sgood_rep _ _ _ _ _ _ _ _ R3 G3).
    - assert (G3 := US (fun d => False_ind _ (D d))). pose proof (sgood_rep _ _ _ _ _ _ _ _ R3 G3) as R4.
      split; [exact (srep_shows _ _ _ _ _ R4)|exact (srep_capacity _ _ _ R4)]. }
  exists s1, w2, r, s2, w3, cs2, (v_cap (s_vec s2) - 1). split; [exact ER|]. split; [exact E|]. split; [apply SHOW|]. split; [apply SHOW|].
  destruct S as [S1 S2]. cbn [ss_cap ss_chars] in S1, S2. unfold srequests in T.
  assert (NL : 1 <= nlen x) by (destruct x; [congruence|rewrite nlen_cons; lia]).
  assert (G0 : 1 <= g) by (destruct A as (_ & _ & A1 & _); lia).
  assert (AK : sasked g t (SAppend x) (mksst cs (N.max n (v_cap (s_vec s)) - 1)) =
    if (N.max n (v_cap (s_vec s)) <? nlen cs + nlen x + 1) || (negb (t =? 0) && ((nlen cs + nlen x + 1) * t <? N.max n (v_cap (s_vec s))))
    then Some ((nlen cs + nlen x + 1) * g) else None).
  { unfold sasked, change_of, asked. cbn [ss_chars ss_cap c_growth c_shrink]. cbv zeta.
    replace (N.max n (v_cap (s_vec s)) - 1 + 1) with (N.max n (v_cap (s_vec s))) by lia.
    replace (nlen cs + 1 + nlen x) with (nlen cs + nlen x + 1) by lia.
    destruct (N.eqb_spec (nlen cs + nlen x + 1) (nlen cs + 1)); [lia|].
    destruct (_ || _); [|reflexivity]. destruct (N.leb_spec 1 ((nlen cs + nlen x + 1) * g)); [reflexivity|nia]. }
  replace (v_cap (s_vec s) - 1 + 1) with (v_cap (s_vec s)) by lia. rewrite AK in S1, S2, T.
  split; intros H.
  - replace ((N.max n (v_cap (s_vec s)) <? nlen cs + nlen x + 1) || (negb (t =? 0) && ((nlen cs + nlen x + 1) * t <? N.max n (v_cap (s_vec s))))) with false in * by lia.
    cbn [sspec] in S2. rewrite N.add_0_r in T. cbn in S2. intuition congruence.
  - replace ((N.max n (v_cap (s_vec s)) <? nlen cs + nlen x + 1) || (negb (t =? 0) && ((nlen cs + nlen x + 1) * t <? N.max n (v_cap (s_vec s))))) with true in * by lia.
    split; [exact T|]. split; [exact S1|]. destruct (orc' (tick w2)) as [e|fill]; cbn [refusal] in S2; cbn in S2; exact S2.
Qed.
Theorem reserved_given_back w0 cap g t s0 w1 ops rs s w cs n x :
  sinit_args_ok w0 cap g t -> Forall sums_ok ops -> sroom (sdemands ops) ->
  sinit_ex cap true g t w0 = Ok (ST_SUCCESS, Some s0) w1 -> run_sops s0 ops w1 = Ok (rs, s) w -> sshows w s cs ->
  1 <= g <= t -> x <> [] -> (nlen cs + nlen x + 1) * t < n -> n < W64 -> sroom (nlen cs + nlen x) ->
  exists s1 w2, sreserve s n w = Ok (ST_SUCCESS, s1) w2 /\
    (forall orc' fill, orc' (tick w2) = AOk fill -> exists s2 w3 c2,
       run_sop s1 (SAppend x) (with_oracle w2 orc') = Ok (ST_SUCCESS, s2) w3 /\
       sget_capacity s2 w3 = Ok (ST_SUCCESS, c2) w3 /\ c2 + 1 < n) /\
    (forall orc' e, orc' (tick w2) = AFail e -> exists s2 w3,
       run_sop s1 (SAppend x) (with_oracle w2 orc') = Ok (err_status e, s2) w3 /\ sshows w3 s2 cs).
Proof.
  intros A SO F IE RE SH G NX LB LN RM.
  destruct (reached_own_rep _ _ _ _ _ _ _ _ _ _ _ A SO F IE RE SH) as (R & _).
  pose proof (srep_capacity _ _ _ R) as CP.
  assert (H : forall orc', exists s1 w2 r s2 w3 cs2 c2,
    sreserve s n w = Ok (ST_SUCCESS, s1) w2 /\ run_sop s1 (SAppend x) (with_oracle w2 orc') = Ok (r, s2) w3 /\
    sshows w3 s2 cs2 /\ sget_capacity s2 w3 = Ok (ST_SUCCESS, c2) w3 /\ c2 + 1 < n /\
    match orc' (tick w2) with AOk _ => r = ST_SUCCESS /\ cs2 = cs ++ x | AFail e => r = err_status e /\ cs2 = cs end).
  { intros orc'. destruct (append_after_reserve _ _ _ _ _ _ _ _ _ _ _ _ n x orc' A SO F IE RE SH CP LN RM NX)
      as (s1 & w2 & r & s2 & w3 & cs2 & c2 & E1 & E2 & E3 & E4 & _ & K).
    destruct K as (_ & K2 & K3); [lia|]. exists s1, w2, r, s2, w3, cs2, c2. repeat (split; [assumption|]). split; [|exact K3]. subst c2. nia. }
  destruct (H (fun _ => AOk (fun _ => 0))) as (s1 & w2 & _ & _ & _ & _ & _ & E & _).
  exists s1, w2. split; [exact E|]. split.
  - intros orc' fill O. destruct (H orc') as (s1' & w2' & r & s2 & w3 & cs2 & c2 & E1 & E2 & _ & E4 & L & K).
    rewrite E in E1. injection E1 as <- <-. rewrite O in K. destruct K as [-> ->]. eauto 6.
  - intros orc' e O. destruct (H orc') as (s1' & w2' & r & s2 & w3 & cs2 & c2 & E1 & E2 & SH2 & E4 & L & K).
    rewrite E in E1. injection E1 as <- <-. rewrite O in K. destruct K as [-> ->]. eauto 6.
Qed.

(** For the example. *)
Lemma c23_small_capacity s0 w1 rs s w : sinit_args_ok (text_world []) 0 2 4 -> sshows w s [97;98] ->
  sinit_ex 0 true 2 4 (text_world []) = Ok (ST_SUCCESS, Some s0) w1 ->
  run_sops s0 [SAppend [97;98]] w1 = Ok (rs, s) w -> exists c, sget_capacity s w = Ok (ST_SUCCESS, c) w /\ c < 200.
Proof.
  intros A SH E E2.
  assert (X : match (let* (rs, s) := start_sops 0 2 4 [SAppend [97;98]] in let* c := sget_capacity s in ret c) (text_world []) with
    | Ok (_, c) _ => c = 5 | Fault _ => False end) by (vm_compute; reflexivity).
  unfold start_sops, bind in X. rewrite E in X. rewrite E2 in X.
  destruct (reached_own_rep _ _ _ _ _ _ [SAppend [97;98]] _ _ _ _ A ltac:(repeat constructor) eq_refl E E2 SH) as (R & _).
  pose proof (srep_capacity _ _ _ R) as CP. rewrite CP in X. unfold ret in X. eexists. split; [exact CP|]. rewrite X. reflexivity.
Qed.

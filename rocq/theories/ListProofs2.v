(** Proofs about the list: removal, resizing, destruction. *)
From Coq Require Import Permutation.
From Verif Require Import Base NListFacts Status Mem MemFacts VectorModel VectorDriver ListModel ListSpec ListDriver ListHeap ListRep ListProofs.
From Coq Require Import ZifyBool ZifyNat ZifyN.
Implicit Types (w : world) (h : memory) (p q : ptr) (x : list cell).

Lemma seen_app {A} (d : option (A -> A)) a b : seen d (a ++ b) = seen d a ++ seen d b.
Proof. now destruct d. Qed.
Lemma seen_nil {A} (d : option (A -> A)) : seen d [] = [].
Proof. now destruct d. Qed.

Section Ops2.
  Variables (e : N) (d : option (list cell -> list cell)) (m : mode) (base : memory).
  Notation ns := (16 + e).
  Notation reg := (reg e).
  Notation chg := (chg e).
  Notation chain := (chain e).
  Notation pool := (pool e m base).
  Notation conf := (conf e d m).
  Notation step := (step m).
  Notation limit := (limit_of e m).
  Notation lrep := (lrep e d m base).

  Lemma destroy_node_ok w l p r1 r2 x : conf l -> reg (heap w) p r1 r2 x ->
    exists w' x', destroy_node l (Some p) w = Ok tt w' /\ chg w p r1 r2 x' w' (seen d [x]).
  Proof.
    intros (EE & ED & DO & _) R. unfold destroy_node. rewrite ED, EE. destruct d as [f|]; cbn [seen].
    - assert (LF : nlen (f x) = nlen x) by (apply DO; apply R).
      destruct (data_dtor e w p r1 r2 x f R LF) as (w' & E & C). exists w', (f x). now split.
    - exists w, x. split; [reflexivity|]. now apply chg_none.
  Qed.

  (** The common part of PopBack and of the shrinking loop. *)
  Lemma drop_back w l t ps xs z us un : conf l -> world_ok w -> chain (heap w) None (ps ++ [t]) (xs ++ [z]) None ->
    pool (heap w) un (ps ++ [t]) us ->
    exists w1 w2 r1 r2 y, destroy_node l (Some t) w = Ok tt w1 /\ get_prev (Some t) w1 = Ok (back None ps) w1 /\
      (if nonnull (back None ps) then set_next (back None ps) None else ret tt) w1 = Ok tt w2 /\
      world_ok w2 /\ chain (heap w2) None ps xs None /\ pool (heap w2) un (t :: ps) us /\ reg (heap w2) t r1 r2 y /\
      step w w2 (seen d [z]).
  Proof.
    intros CF WO CH P. destruct (split_snoc _ _ _ _ _ _ _ CH) as (xs' & x & E & C & R). apply app_inj_tail in E as [<- <-].
    destruct (destroy_node_ok w l t _ _ _ CF R) as (w1 & x' & E1 & C1).
    pose proof (pool_clear_mid _ _ _ _ _ _ _ _ _ P) as (A1 & _).
    pose proof (chg_reg _ _ _ _ _ _ _ _ C1) as R1.
    pose proof (chg_chain _ _ _ _ _ _ _ _ _ _ _ _ C1 A1 C) as CH1.
    assert (P1 : pool (heap w1) un (ps ++ [t]) us).
    { eapply pool_chg; [exact P|apply in_or_app; right; now left|exact C1]. }
    pose proof (chg_world_ok _ _ _ _ _ _ _ _ C1 WO) as WO1.
    exists w1. destruct (snoc_case ps) as [->|(ps0 & s & ->)].
    - exists w1, (enc (back None [])), (enc None), x'. split; [exact E1|].
      split; [eapply get_prev_ok; eauto|]. split; [reflexivity|]. split; [exact WO1|].
      split; [|split; [exact P1|split; [exact R1|apply quiet_step; apply C1]]].
      destruct xs; [exact I|contradiction].
    - rewrite back_snoc in *. destruct (split_snoc _ _ _ _ _ _ _ CH1) as (xs0 & y & -> & C2 & R2).
      destruct (set_next_ok e w1 s _ _ _ None R2) as (w2 & E2 & CG2).
      exists w2, (enc (Some s)), (enc None), x'. split; [exact E1|]. split; [eapply get_prev_ok; eauto|].
      split; [exact E2|]. split; [eapply chg_world_ok; eauto|].
      assert (PP : (ps0 ++ [s]) ++ [t] = ps0 ++ s :: [t]) by now rewrite <- app_assoc. rewrite PP in P1.
      pose proof (pool_clear_mid _ _ _ _ _ _ _ _ _ P1) as (B1 & B2 & _). split.
      { apply join_snoc; [|eapply chg_reg; eauto]. eapply wr_chain_clear; eauto. }
      split.
      { eapply pool_perm; [|eapply pool_chg; [exact P1|apply in_or_app; right; now left|exact CG2]].
        rewrite <- PP. symmetry. apply (Permutation_app_comm [t]). }
      split; [eapply reg_keeps; [apply CG2|eapply chg_len; eauto|apply B2; now left|exact R1]|].
      pose proof (step_trans m _ _ _ _ _ (quiet_step m _ _ _ (proj1 (proj2 C1))) (quiet_step m _ _ _ (proj1 (proj2 CG2)))) as SS.
      now rewrite app_nil_r in SS.
  Qed.

  Lemma pop_back_ok w l ps t xs z us : lrep w l (ps ++ [t]) (xs ++ [z]) us ->
    exists w' l' us', lpop_back l w = Ok (ST_SUCCESS, l') w' /\ lrep w' l' ps xs us' /\ step w w' (seen d [z]).
  Proof.
    intros (WO & CF & SZ & SZW & HD & TL & CH & P).
    destruct (drop_back w l t ps xs z us _ CF WO CH P) as (w1 & w2 & r1 & r2 & y & E1 & E2 & E3 & WO2 & CH2 & P2 & R2 & S2).
    unfold lpop_back. rewrite TL, back_snoc in *. cbn [nonnull negb].
    rewrite (bind_ok _ _ _ _ _ E1), (bind_ok _ _ _ _ _ E2). cbn [l_tail put_tail].
    rewrite (bind_ok _ _ _ _ _ E3).
    set (l1 := put_tail l (back None ps)).
    set (l2 := if ptr_eqb (l_head l1) (Some t) then put_head l1 (l_tail l1) else l1).
    assert (HD2 : l_head l2 = front ps None).
    { subst l2. destruct (ptr_eqb (l_head l1) (Some t)) eqn:EP.
      - apply ptr_eqb_spec in EP. cbn in EP |- *. rewrite HD, front_app in EP. destruct ps as [|p ps]; [reflexivity|].
        cbn in EP. injection EP as ->. exfalso. apply pool_nodup in P. cbn in P. apply NoDup_cons_iff in P as [NI _].
        apply NI. apply in_or_app. left. apply in_or_app. right. now left.
      - destruct ps as [|p ps]; [|cbn; now rewrite HD, front_app]. exfalso. cbn in EP. rewrite HD in EP. cbn in EP.
        now rewrite !N.eqb_refl in EP. }
    assert (CF2 : conf (put_size l2 (wsub (l_size l2) 1))).
    { subst l2. destruct (ptr_eqb _ _); exact CF. }
    assert (EU : l_unused (put_size l2 (wsub (l_size l2) 1)) = l_unused l) by (subst l2; now destruct (ptr_eqb _ _)).
    assert (ET : l_tail l2 = back None ps) by (subst l2; now destruct (ptr_eqb _ _)).
    assert (ES : l_size l2 = nlen (xs ++ [z])) by (subst l2; destruct (ptr_eqb _ _); exact SZ).
    rewrite <- EU in P2. destruct (dealloc_ok e d m base w2 _ t ps us r1 r2 y CF2 WO2 P2 R2) as (w' & un' & us' & E4 & WO' & P' & KC & S').
    exists w'. eexists. exists us'. split; [exact E4|]. split.
    - rewrite nlen_app in *. change (nlen [z]) with 1 in *.
      split; [exact WO'|]. split; [exact CF2|]. cbn. split; [rewrite ES, wsub_small; lia|].
      split; [lia|]. split; [exact HD2|]. split; [exact ET|]. split; [now apply KC|exact P'].
    - pose proof (step_trans m _ _ _ _ _ S2 S') as SS. now rewrite app_nil_r in SS.
  Qed.
  Lemma pop_front_ok w l p ps z xs us : lrep w l (p :: ps) (z :: xs) us ->
    exists w' l' us', lpop_front l w = Ok (ST_SUCCESS, l') w' /\ lrep w' l' ps xs us' /\ step w w' (seen d [z]).
  Proof.
    intros (WO & CF & SZ & SZW & HD & TL & CH & P). destruct CH as [R C].
    destruct (destroy_node_ok w l p _ _ _ CF R) as (w1 & x' & E1 & C1).
    pose proof (pool_clear _ _ _ _ _ _ _ _ P) as A1. apply clear_app in A1 as [A1 _].
    pose proof (chg_reg _ _ _ _ _ _ _ _ C1) as R1.
    pose proof (chg_chain _ _ _ _ _ _ _ _ _ _ _ _ C1 A1 C) as CH1.
    assert (P1 : pool (heap w1) (l_unused l) (p :: ps) us) by (eapply pool_chg; [exact P|now left|exact C1]).
    pose proof (chg_world_ok _ _ _ _ _ _ _ _ C1 WO) as WO1.
    pose proof (get_next_ok _ _ _ _ _ _ R1) as E2.
    assert (X : exists w2, (if nonnull (front ps None) then set_prev (front ps None) None else ret tt) w1 = Ok tt w2 /\
      world_ok w2 /\ chain (heap w2) None ps xs None /\ pool (heap w2) (l_unused l) (p :: ps) us /\
      reg (heap w2) p (enc None) (enc (front ps None)) x' /\ step w1 w2 []).
    { destruct ps as [|s ps].
      - exists w1. split; [reflexivity|]. split; [exact WO1|]. split; [destruct xs; [exact I|contradiction]|].
        split; [exact P1|]. split; [exact R1|apply step_refl].
      - destruct xs as [|y xs]; [contradiction|]. destruct CH1 as [R2 C2].
        destruct (set_prev_ok e w1 s _ _ _ None R2) as (w2 & E3 & CG2). exists w2. split; [exact E3|].
        split; [eapply chg_world_ok; eauto|].
        pose proof (pool_clear_mid _ _ _ _ _ s [p] ps _ P1) as (B1 & B2 & _).
        split. { split; [eapply chg_reg; eauto|eapply wr_chain_clear; eauto]. }
        split; [eapply pool_chg; [exact P1|right; now left|exact CG2]|].
        split; [eapply reg_keeps; [apply CG2|eapply chg_len; eauto|apply B1; now left|exact R1]|apply quiet_step; apply CG2]. }
    destruct X as (w2 & E3 & WO2 & CH2 & P2 & R2 & S2).
    unfold lpop_front. rewrite HD. cbn [front nonnull negb].
    rewrite (bind_ok _ _ _ _ _ E1), (bind_ok _ _ _ _ _ E2). cbn [l_head put_head].
    rewrite (bind_ok _ _ _ _ _ E3).
    set (l1 := put_head l (front ps None)).
    set (l2 := if ptr_eqb (l_tail l1) (Some p) then put_tail l1 (l_head l1) else l1).
    assert (TL2 : l_tail l2 = back None ps).
    { subst l2. destruct (ptr_eqb (l_tail l1) (Some p)) eqn:EP.
      - apply ptr_eqb_spec in EP. cbn in EP |- *. rewrite TL in EP. cbn in EP.
        destruct (snoc_case ps) as [->|(ps0 & t & ->)]; [reflexivity|].
        rewrite back_snoc in EP. injection EP as ->. exfalso. apply pool_nodup in P. cbn in P. apply NoDup_cons_iff in P as [NI _].
        apply NI. apply in_or_app. left. apply in_or_app. right. now left.
      - cbn in EP |- *. rewrite TL in *. cbn in EP |- *. destruct (snoc_case ps) as [->|(ps0 & t & ->)]; [|now rewrite !back_snoc].
        cbn in EP. now rewrite !N.eqb_refl in EP. }
    assert (CF2 : conf (put_size l2 (wsub (l_size l2) 1))).
    { subst l2. destruct (ptr_eqb _ _); exact CF. }
    assert (EU : l_unused (put_size l2 (wsub (l_size l2) 1)) = l_unused l) by (subst l2; now destruct (ptr_eqb _ _)).
    assert (ET : l_head l2 = front ps None) by (subst l2; now destruct (ptr_eqb _ _)).
    assert (ES : l_size l2 = nlen (z :: xs)) by (subst l2; destruct (ptr_eqb _ _); exact SZ).
    rewrite <- EU in P2. destruct (dealloc_ok e d m base w2 _ p ps us _ _ _ CF2 WO2 P2 R2) as (w' & un' & us' & E4 & WO' & P' & KC & S').
    exists w'. eexists. exists us'. split; [exact E4|]. split.
    - rewrite nlen_cons in *.
      split; [exact WO'|]. split; [exact CF2|]. cbn. split; [rewrite ES, wsub_small; lia|].
      split; [lia|]. split; [exact ET|]. split; [exact TL2|]. split; [now apply KC|exact P'].
    - pose proof (step_trans m _ _ _ _ _ (quiet_step m _ _ _ (proj1 (proj2 C1))) (step_trans m _ _ _ _ _ S2 S')) as SS.
      now rewrite !app_nil_r in SS.
  Qed.

  (** The shrinking loop; the size field is only set at its end. *)
  Lemma shrink_ok n : forall w l ps xs us k, (length xs = k + n)%nat -> (1 <= k)%nat -> lrep w (put_size l (nlen xs)) ps xs us ->
    exists w' l' us', shrink_loop l n w = Ok (ST_SUCCESS, l') w' /\
      lrep w' (put_size l' (N.of_nat k)) (firstn k ps) (firstn k xs) us' /\ step w w' (seen d (rev (skipn k xs))).
  Proof.
    induction n as [|n IH]; intros w l ps xs us k LK K REP.
    - pose proof (lrep_length _ _ _ _ _ _ _ _ _ REP) as LP. exists w, l, us. split; [reflexivity|]. rewrite (firstn_all2 ps) by lia. rewrite firstn_all2, skipn_all2 by lia.
      split; [|cbn; rewrite seen_nil; apply step_refl]. replace (N.of_nat k) with (nlen xs) by (unfold nlen; lia). exact REP.
    - destruct REP as (WO & CF & SZ & SZW & HD & TL & CH & P). cbn in SZ, HD, TL, P.
      pose proof (chain_length _ _ _ _ _ _ CH) as LP. destruct (snoc_case ps) as [->|(ps0 & t & ->)]; [cbn in LP; lia|].
      destruct (split_snoc _ _ _ _ _ _ _ CH) as (xs0 & z & -> & _ & _). rewrite app_length in LK. cbn in LK.
      destruct (drop_back w (put_size l (nlen (xs0 ++ [z]))) t ps0 xs0 z us _ CF WO CH P) as (w1 & w2 & r1 & r2 & y & E1 & E2 & E3 & WO2 & CH2 & P2 & R2 & S2).
      cbn [shrink_loop]. rewrite TL, back_snoc. change (destroy_node (put_size l (nlen (xs0 ++ [z])))) with (destroy_node l) in E1.
      rewrite (bind_ok _ _ _ _ _ E1), (bind_ok _ _ _ _ _ E2). cbn [l_tail put_tail]. rewrite (bind_ok _ _ _ _ _ E3).
      set (l1 := put_tail l (back None ps0)).
      assert (CF1 : conf l1) by exact CF.
      destruct (dealloc_ok e d m base w2 l1 t ps0 us _ _ _ CF1 WO2 P2 R2) as (w' & un' & us' & E4 & WO' & P' & KC & S').
      rewrite (bind_ok _ _ _ _ _ E4). change (st_success ST_SUCCESS) with true. cbn [negb].
      destruct (IH w' (put_unused l1 un') ps0 xs0 us' k) as (w3 & l3 & us3 & E5 & REP3 & S3); [lia|exact K| |].
      { split; [exact WO'|]. split; [exact CF|]. split; [reflexivity|].
        split; [rewrite nlen_app in SZW; change (nlen [z]) with 1 in SZW; lia|].
        split; [|split; [reflexivity|split; [now apply KC|exact P']]]. cbn. rewrite HD, front_app.
        apply chain_length in CH2. destruct ps0; [cbn in CH2; lia|reflexivity]. }
      exists w3, l3, us3. split; [exact E5|]. assert (LP0 : length ps0 = length xs0) by (eapply chain_length; eauto).
      rewrite !firstn_app, skipn_app. replace (k - length ps0)%nat with 0%nat by lia.
      replace (k - length xs0)%nat with 0%nat by lia. cbn [firstn]. rewrite !app_nil_r. split; [exact REP3|].
      change (skipn 0 [z]) with [z]. rewrite rev_app_distr. cbn [rev app].
      change (z :: rev (skipn k xs0)) with ([z] ++ rev (skipn k xs0)). rewrite seen_app.
      eapply step_trans; [exact S2|]. exact (step_trans m _ _ _ _ _ S' S3).
  Qed.

  (** ** Destroying all nodes *)
  Lemma destroy_grow ps : m = Grow -> forall w l xs pv fuel, conf l -> world_ok w -> l_unused l = None -> chain (heap w) pv ps xs None ->
    pool (heap w) None ps [] -> (length ps <= fuel)%nat ->
    exists w', destroy_loop l (front ps None) fuel w = Ok ST_SUCCESS w' /\ world_ok w' /\ pool (heap w') None [] [] /\ step w w' (seen d xs).
  Proof.
    intros EM. induction ps as [|p ps IH]; intros w l xs pv fuel CF WO LU CH P LF; (destruct xs as [|x xs]; [|]); try contradiction.
    - exists w. split; [now destruct fuel|]. split; [exact WO|]. split; [exact P|]. rewrite seen_nil. apply step_refl.
    - destruct fuel as [|fuel]; [cbn in LF; lia|]. destruct CH as [R C].
      destruct (destroy_node_ok w l p _ _ _ CF R) as (w1 & x' & E1 & C1).
      pose proof (pool_clear _ _ _ _ _ _ _ _ P) as A1. apply clear_app in A1 as [A1 _].
      pose proof (chg_reg _ _ _ _ _ _ _ _ C1) as R1.
      pose proof (chg_chain _ _ _ _ _ _ _ _ _ _ _ _ C1 A1 C) as CH1.
      assert (P1 : pool (heap w1) None (p :: ps) []) by (eapply pool_chg; [exact P|now left|exact C1]).
      pose proof (chg_world_ok _ _ _ _ _ _ _ _ C1 WO) as WO1. pose proof (get_next_ok _ _ _ _ _ _ R1) as E2.
      rewrite <- LU in P1. destruct (dealloc_ok e d m base w1 l p ps [] _ _ _ CF WO1 P1 R1) as (w2 & un' & us' & E3 & WO2 & P2 & KC & S2).
      cbn [front destroy_loop]. rewrite (bind_ok _ _ _ _ _ E1), (bind_ok _ _ _ _ _ E2).
      assert (AL : l_alloc l = true). { destruct CF as (_ & _ & _ & _ & CF). rewrite EM in CF. apply CF. }
      unfold ldealloc_node in E3. rewrite AL in *. unfold bind at 1 in E3. destruct (dealloc (Some p) (lnode_size l) 1 w1) as [st w2'|] eqn:ED; [|discriminate].
      cbv beta iota in E3. unfold ret in E3. injection E3 as -> EU ->.
      rewrite (bind_ok _ _ _ _ _ ED). change (st_success ST_SUCCESS) with true. cbn [negb].
      assert (UN : un' = None /\ us' = []). { unfold ListRep.pool in P2. rewrite EM in P2. split; apply P2. }
      destruct UN as [-> ->].
      destruct (IH w2 l xs (Some p) fuel) as (w' & E4 & WO' & P' & S'); auto; [cbn in LF; lia|].
      exists w'. split; [exact E4|]. split; [exact WO'|]. split; [exact P'|].
      change (x :: xs) with ([x] ++ xs). rewrite seen_app.
      pose proof (step_trans m _ _ _ _ _ (quiet_step m _ _ _ (proj1 (proj2 C1))) (step_trans m _ _ _ _ _ S2 S')) as SS. exact SS.
  Qed.
  Lemma destroy_fixed ps : m <> Grow -> forall w l ps0 xs pv fuel un us, conf l -> world_ok w -> chain (heap w) pv ps xs None ->
    pool (heap w) un (ps0 ++ ps) us -> (length ps <= fuel)%nat ->
    exists w', destroy_loop l (front ps None) fuel w = Ok ST_SUCCESS w' /\ world_ok w' /\ pool (heap w') un (ps0 ++ ps) us /\ step w w' (seen d xs).
  Proof.
    intros EM. induction ps as [|p ps IH]; intros w l ps0 xs pv fuel un us CF WO CH P LF; (destruct xs as [|x xs]; [|]); try contradiction.
    - exists w. split; [now destruct fuel|]. split; [exact WO|]. split; [exact P|]. rewrite seen_nil. apply step_refl.
    - destruct fuel as [|fuel]; [cbn in LF; lia|]. destruct CH as [R C].
      destruct (destroy_node_ok w l p _ _ _ CF R) as (w1 & x' & E1 & C1).
      pose proof (pool_clear_mid _ _ _ _ _ _ _ _ _ P) as (_ & A1 & _).
      pose proof (chg_reg _ _ _ _ _ _ _ _ C1) as R1.
      pose proof (chg_chain _ _ _ _ _ _ _ _ _ _ _ _ C1 A1 C) as CH1.
      assert (P1 : pool (heap w1) un (ps0 ++ p :: ps) us) by (eapply pool_chg; [exact P|apply in_or_app; right; now left|exact C1]).
      pose proof (chg_world_ok _ _ _ _ _ _ _ _ C1 WO) as WO1. pose proof (get_next_ok _ _ _ _ _ _ R1) as E2.
      cbn [front destroy_loop]. rewrite (bind_ok _ _ _ _ _ E1), (bind_ok _ _ _ _ _ E2).
      assert (AL : l_alloc l = false). { destruct CF as (_ & _ & _ & _ & CF). destruct m; [congruence|apply CF]. }
      rewrite AL. unfold bind at 1. unfold ret at 1. cbv beta iota. change (st_success ST_SUCCESS) with true. cbn [negb].
      destruct (IH w1 l (ps0 ++ [p]) xs (Some p) fuel un us) as (w' & E4 & WO' & P' & S'); auto.
      { now rewrite <- app_assoc. }
      { cbn in LF. lia. }
      exists w'. split; [exact E4|]. split; [exact WO'|]. split; [now rewrite <- app_assoc in P'|].
      change (x :: xs) with ([x] ++ xs). rewrite seen_app. exact (step_trans m _ _ _ _ _ (quiet_step m _ _ _ (proj1 (proj2 C1))) S').
  Qed.
  Lemma pool_empty h un ps us : m <> Grow -> pool h un ps us -> pool h None [] [].
  Proof.
    intros EM. unfold ListRep.pool. destruct m as [|b pre post cap]; [congruence|]. intros (A & B & (k & K & C) & D & E).
    split; [reflexivity|]. split; [exact B|]. split; [|split; [exact I|exact E]]. exists 0%nat. split; [lia|constructor].
  Qed.
  Lemma destroy_all_ok w l ps xs us : lrep w l ps xs us ->
    exists w', destroy_all l w = Ok ST_SUCCESS w' /\ world_ok w' /\ pool (heap w') None [] [] /\ step w w' (seen d xs).
  Proof.
    intros (WO & CF & SZ & SZW & HD & TL & CH & P). unfold destroy_all. pose proof (chain_length _ _ _ _ _ _ CH) as LP.
    assert (LF : (length ps <= N.to_nat (l_size l))%nat) by (rewrite SZ; unfold nlen; lia).
    assert (MM : m = Grow \/ m <> Grow) by (destruct m; [now left|right; discriminate]).
    destruct MM as [EM|EM].
    - assert (AL : l_alloc l = true). { destruct CF as (_ & _ & _ & _ & CF). rewrite EM in CF. apply CF. }
      assert (UN : l_unused l = None /\ us = []). { unfold ListRep.pool in P. rewrite EM in P. split; apply P. }
      destruct UN as [UN ->]. rewrite AL. cbn [orb]. rewrite HD. rewrite UN in P. eapply destroy_grow; eauto.
    - assert (AL : l_alloc l = false). { destruct CF as (_ & _ & _ & _ & CF). destruct m; [congruence|apply CF]. }
      assert (ED : l_dtor l = d) by apply CF. rewrite AL, ED. cbn [orb]. destruct d as [f|] eqn:EQD.
      + cbn [nonnull]. rewrite HD. rewrite <- EQD in *. destruct (destroy_fixed ps EM w l [] xs None (N.to_nat (l_size l)) (l_unused l) us) as (w' & E & WO' & P' & S'); auto.
        exists w'. split; [exact E|]. split; [exact WO'|]. split; [eapply pool_empty; eauto|exact S'].
      + exists w. split; [now destruct (N.to_nat (l_size l))|]. split; [exact WO|]. split; [eapply pool_empty; eauto|apply step_refl].
  Qed.

  (** ** Resizing *)
  Lemma fails_step w w' lg : step w w' lg -> fails w' -> fails w.
  Proof. intros (O & _). unfold fails. now rewrite O. Qed.
  Lemma refusal_fails (f f' : Prop) n r : (f -> f') -> refusal limit f n r -> refusal limit f' n r.
  Proof. intros H. unfold refusal. destruct (full limit n); [auto|]. intros (A & B & C). auto. Qed.
  Lemma grow_ok init good n : (forall l, l_esz l = e -> writer e m base (fun p : option ptr => if nonnull init then memcpy (node_data p) init (l_esz l) else ret tt) good) ->
    forall w l ps xs us, lrep w l ps xs us -> nlen xs + N.of_nat n < W64 ->
    exists w' l' r qs us' new, grow_loop l init n w = Ok (r, l') w' /\ lrep w' l' (ps ++ qs) (xs ++ new) us' /\ step w w' [] /\
      Forall good new /\
      ((nlen new = N.of_nat n /\ r = ST_SUCCESS /\ (n <> 0%nat -> full limit (nlen xs + N.of_nat n - 1) = false)) \/
       (nlen new < N.of_nat n /\ refusal limit (fails w) (nlen xs + nlen new) r)).
  Proof.
    intros WW. induction n as [|n IH]; intros w l ps xs us REP SW.
    - exists w, l, ST_SUCCESS, [], us, []. split; [reflexivity|]. rewrite !app_nil_r. split; [exact REP|]. split; [apply step_refl|].
      split; [constructor|]. left. split; [reflexivity|]. split; [reflexivity|]. congruence.
    - pose proof REP as (_ & (EE & _) & _). cbn [grow_loop].
      assert (SW1 : nlen xs + 1 < W64) by lia.
      destruct (add_back_ok e d m base _ _ w l ps xs us (WW l EE) REP SW1)
        as [(un & w1 & w2 & w3 & w4 & w' & l' & p & y & us' & E1 & E2 & E3 & E4 & E5 & G & REP' & S & FU)|(w' & r & E1 & ST & RF & REP' & S)].
      + rewrite (bind_ok _ _ _ _ _ E1). change (st_success ST_SUCCESS) with true. cbn [negb].
        rewrite (bind_ok _ _ _ _ _ E2), (bind_ok _ _ _ _ _ E3). change (l_esz (put_unused l un)) with (l_esz l).
        rewrite (bind_ok _ _ _ _ _ E4), (bind_ok _ _ _ _ _ E5).
        destruct (IH w' l' (ps ++ [p]) (xs ++ [y]) us' REP') as (w5 & l5 & r5 & ps5 & us5 & new & E6 & REP5 & S5 & G5 & RES).
        { rewrite nlen_app. change (nlen [y]) with 1. lia. }
        exists w5, l5, r5, ([p] ++ ps5), us5, ([y] ++ new). split; [exact E6|]. rewrite !app_assoc. split; [exact REP5|].
        split; [exact (step_trans m _ _ _ _ _ S S5)|]. split; [constructor; auto|].
        rewrite (nlen_app [y] new). rewrite nlen_app in RES. change (nlen [y]) with 1 in *.
        destruct RES as [(L & -> & FU')|(L & RF)].
        * left. split; [lia|]. split; [reflexivity|]. intros _. destruct n as [|n]; [cbn; rewrite N.add_sub; exact FU|].
          rewrite <- FU' by discriminate. f_equal. lia.
        * right. split; [lia|]. rewrite N.add_assoc. eapply refusal_fails; [|exact RF]. eapply fails_step; eauto.
      + rewrite (bind_ok _ _ _ _ _ E1). rewrite ST. cbn [negb]. exists w', l, r, [], us, []. split; [reflexivity|].
        rewrite !app_nil_r. split; [exact REP'|]. split; [exact S|]. split; [constructor|]. right. change (nlen (@nil (list cell))) with 0.
        rewrite N.add_0_r. split; [lia|exact RF].
  Qed.

  Definition init_ok (init : option ptr) (x : option (list cell)) : Prop :=
    match init, x with
    | Some q, Some x => outside e m base q x
    | None, None => True
    | _, _ => False
    end.
  Lemma lrep_put w l ps xs us : lrep w l ps xs us -> lrep w (put_size l (nlen xs)) ps xs us.
  Proof. intros (A & B & C & D). split; [exact A|]. split; [exact B|]. split; [reflexivity|]. exact D. Qed.
  Lemma resize_ok w l ps xs us n init (x : option (list cell)) : lrep w l ps xs us -> n < W64 -> init_ok init x ->
    exists w' l' r ps' us' xs' gone new, lresize_ex l n init w = Ok (r, l') w' /\ lspec e limit (fails w) (LResize n x) xs r xs' gone new /\
      lrep w' l' ps' xs' us' /\ step w w' (seen d gone) /\ lnodes (LResize n x) r ps ps'.
  Proof.
    intros REP NW IO. pose proof REP as (WO & CF & SZ & SZW & HD & TL & CH & P). unfold lresize_ex. rewrite SZ.
    pose proof (chain_nlen _ _ _ _ _ _ CH) as LP. cbn [lnodes]. rewrite LP.
    destruct (N.eqb_spec n (nlen xs)) as [EQ|NE].
    { exists w, l, ST_SUCCESS, ps, us, xs, [], []. split; [reflexivity|]. rewrite seen_nil. split; [|split; [exact REP|split; [apply step_refl|replace (n <=? nlen xs) with true by lia; now rewrite nfirst_all by lia]]].
      cbn [lspec]. destruct (N.eqb_spec n 0) as [Z|Z].
      - assert (xs = []) as -> by (apply nlen_0; congruence). now repeat split.
      - replace (n <=? nlen xs) with true by lia. split; [reflexivity|]. rewrite EQ, nfirst_all, nskip_all by lia. now repeat split. }
    destruct (N.eqb_spec n 0) as [Z|Z].
    { destruct (destroy_all_ok w l ps xs us REP) as (w' & E & WO' & P' & S').
      unfold bind at 1. rewrite E. cbv beta iota. change (st_success ST_SUCCESS) with true. cbn [negb].
      eexists. eexists. exists ST_SUCCESS, [], [], [], xs, []. split; [reflexivity|].
      split; [subst n; cbn; now repeat split|]. split; [|split; [exact S'|replace (n <=? nlen xs) with true by lia; now subst n]].
      split; [exact WO'|]. split; [exact CF|]. split; [reflexivity|]. split; [reflexivity|]. split; [reflexivity|]. split; [reflexivity|].
      split; [exact I|exact P']. }
    destruct (N.ltb_spec (nlen xs) n) as [LT|GE].
    - set (good := fun y : list cell => match x with Some z => y = z | None => nlen y = e end).
      destruct (grow_ok init good (N.to_nat (n - nlen xs))) with (w := w) (l := l) (ps := ps) (xs := xs) (us := us)
        as (w' & l' & r & qs & us' & new & E & REP' & S' & G & RES); auto.
      { intros l0 EE. destruct init as [q|], x as [z|]; try contradiction; cbn [nonnull]; subst good.
        - rewrite EE. now apply copy_writer.
        - apply none_writer. }
      { lia. }
      exists w', l', r, (ps ++ qs), us', (xs ++ new), [], new. split; [exact E|]. rewrite seen_nil. split; [|split; [exact REP'|split; [exact S'|replace (n <=? nlen xs) with false by lia; eauto]]].
      cbn [lspec]. replace (n =? 0) with false by lia. replace (n <=? nlen xs) with false by lia.
      split; [reflexivity|]. split; [reflexivity|]. split; [exact G|]. rewrite nlen_app.
      rewrite N2Nat.id in RES. destruct RES as [(L & -> & FU)|(L & RF)].
      + left. split; [lia|]. split; [reflexivity|]. rewrite <- FU by lia. f_equal. lia.
      + right. split; [lia|exact RF].
    - assert (LN : n < nlen xs) by lia.
      destruct (shrink_ok (N.to_nat (nlen xs - n)) w l ps xs us (N.to_nat n)) as (w' & l' & us' & E & REP' & S').
      { unfold nlen in *. lia. }
      { lia. }
      { now apply lrep_put. }
      unfold bind at 1. rewrite E. cbv beta iota. change (st_success ST_SUCCESS) with true. cbn [negb].
      rewrite N2Nat.id in REP'. exists w', (put_size l' n), ST_SUCCESS, (nfirst n ps), us', (nfirst n xs), (rev (nskip n xs)), [].
      split; [reflexivity|]. split.
      { cbn [lspec]. replace (n =? 0) with false by lia. replace (n <=? nlen xs) with true by lia. now repeat split. }
      split; [exact REP'|]. split; [exact S'|]. now replace (n <=? nlen xs) with true by lia.
  Qed.

  (** ** SetNodeData *)
  Lemma walk_ok i w : forall pv ps xs, chain (heap w) pv ps xs None -> walk (front ps None) i w = Ok (nth_error ps i) w.
  Proof.
    induction i as [|i IH]; intros pv ps xs CH; [now destruct ps|].
    destruct ps as [|p ps], xs as [|x xs]; try contradiction; cbn [walk front].
    - unfold lget_next_node. cbn. specialize (IH pv [] [] I). cbn in IH. rewrite IH. now destruct i.
    - destruct CH as [R C]. unfold lget_next_node. cbn [nonnull negb]. unfold bind at 1 2.
      rewrite (get_next_ok _ _ _ _ _ _ R). unfold ret at 1. cbv beta iota. now rewrite (IH (Some p) ps xs C).
  Qed.
  Lemma set_data_ok w l ps1 p ps2 xs1 y xs2 us q x : length ps1 = length xs1 ->
    lrep w l (ps1 ++ p :: ps2) (xs1 ++ y :: xs2) us -> outside e m base q x ->
    exists w', lset_node_data l (Some p) (Some q) w = Ok ST_SUCCESS w' /\ lrep w' l (ps1 ++ p :: ps2) (xs1 ++ x :: xs2) us /\
      step w w' (seen d [y]).
  Proof.
    intros LE REP O. pose proof REP as (WO & CF & SZ & SZW & HD & TL & CH & P).
    pose proof (lrep_reg _ _ _ _ _ _ _ _ _ _ _ _ _ LE REP) as R.
    destruct (destroy_node_ok w l p _ _ _ CF R) as (w1 & y' & E1 & C1).
    pose proof (lrep_set _ _ _ _ _ _ _ _ _ _ _ _ _ _ _ _ _ _ LE REP eq_refl eq_refl C1) as REP1.
    pose proof (lrep_reg _ _ _ _ _ _ _ _ _ _ _ _ _ LE REP1) as R1.
    pose proof REP1 as (_ & _ & _ & _ & _ & _ & _ & P1). destruct (outside_holds _ _ _ _ _ _ _ _ _ P1 O) as [HQ A].
    destruct (data_copy e w1 p _ _ _ q x R1 HQ) as (w2 & E2 & C2); [apply O|apply A; apply in_or_app; right; now left|].
    pose proof (lrep_set _ _ _ _ _ _ _ _ _ _ _ _ _ _ _ _ _ _ LE REP1 eq_refl eq_refl C2) as REP2.
    exists w2. split; [|split; [exact REP2|]].
    - unfold lset_node_data. cbn [nonnull negb orb]. rewrite (bind_ok _ _ _ _ _ E1). destruct CF as (EE & _ & _ & E0 & _).
      rewrite EE. replace (negb (e =? 0)) with true by lia. unfold assert. unfold bind at 1. unfold ret at 1. cbv beta iota.
      rewrite (bind_ok _ _ _ _ _ E2). reflexivity.
    - pose proof (step_trans m _ _ _ _ _ (quiet_step m _ _ _ (proj1 (proj2 C1))) (quiet_step m _ _ _ (proj1 (proj2 C2)))) as SS.
      now rewrite app_nil_r in SS.
  Qed.
End Ops2.

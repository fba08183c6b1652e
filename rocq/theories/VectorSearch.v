(** Search and duplication of vectors. *)
From Verif Require Import Base NListFacts Status Mem MemFacts VectorModel VectorSpec VectorDriver
  VectorRep VectorProofs VectorProofs2 VectorProofs3 VectorRefine.
From Coq Require Import ZifyBool ZifyNat ZifyN.

Section VectorSearch.
  Context {C : Type}.
  Notation vec := (vector C).
  Implicit Types (w : world C) (v : vec).

  Lemma find_loop_ok w v pre xs post q y cmp :
    vrep w v pre xs post -> src w q y -> nlen y = v_esz v ->
    forall n i, i + N.of_nat n <= nlen xs ->
    exists r, find_loop v (Some q) cmp i n w = Ok r w /\
      first_match (fun x => cmp x y) xs i (i + N.of_nat n) r.
  Proof.
    intros R Q L. pose proof (rep_cap_lt _ _ _ _ _ R) as CL. pose proof (r_le _ _ _ _ _ R) as LE.
    induction n as [|n IH]; intros i Hi.
    - exists None. split; [reflexivity|]. intros j x H. lia.
    - cbn [find_loop]. destruct (nnth_exists i xs) as [x NX]; [lia|].
      rewrite (bind_ok _ _ _ _ _ (elem_read _ _ _ _ _ _ _ R NX)).
      pose proof (src_read _ _ _ Q) as SR. rewrite L in SR. rewrite (bind_ok _ _ _ _ _ SR).
      destruct (cmp x y) eqn:E.
      + exists (Some i). split; [reflexivity|]. split; [lia|]. split; [eauto|]. intros; lia.
      + rewrite wadd_small by lia. destruct (IH (i + 1)) as (r & -> & F); [lia|].
        exists r. split; [reflexivity|]. replace (i + N.of_nat (S n)) with (i + 1 + N.of_nat n) by lia.
        destruct r as [k|]; cbn in *.
        * destruct F as (F1 & F2 & F3). split; [lia|]. split; [exact F2|].
          intros j z Hj Z. destruct (N.eq_dec j i) as [->|]; [congruence|]. apply (F3 j z); [lia|assumption].
        * intros j z Hj Z. destruct (N.eq_dec j i) as [->|]; [congruence|]. apply (F j z); [lia|assumption].
  Qed.

  Definition find_result (xs : list (list C)) (cmp : list C -> list C -> bool) (y : list C)
      (i n : N) (r : status) (f : option N) : Prop :=
    if (nlen xs <? i + n) || (i =? nlen xs) then r = ST_OUT_OF_RANGE /\ f = None
    else first_match (fun x => cmp x y) xs i (i + n) f /\
         r = (match f with Some _ => ST_TRUE | None => ST_FALSE end).

  Lemma find_ok w v pre xs post q y cmp i n :
    vrep w v pre xs post -> src w q y -> nlen y = v_esz v -> i + n < W64 ->
    exists r f, vfind_ex v (Some q) cmp i n w = Ok (r, f) w /\ find_result xs cmp y i n r f.
  Proof.
    intros R Q L HW. unfold vfind_ex, find_result. rewrite (r_size _ _ _ _ _ R), wadd_small by assumption.
    destruct (_ || _) eqn:B.
    - exists ST_OUT_OF_RANGE, None. unfold ret. auto.
    - destruct (N.eqb_spec n 0) as [->|NZ].
      + exists ST_FALSE, None. unfold ret. split; [reflexivity|]. split; [|reflexivity].
        intros j x H. lia.
      + rewrite (bind_ok _ _ _ _ _ (rep_assert_valid _ _ _ _ _ R)).
        destruct (find_loop_ok w v pre xs post q y cmp R Q L (N.to_nat (i + n - i)) i) as (f & E & F).
        { lia. }
        rewrite (bind_ok _ _ _ _ _ E). replace (i + N.of_nat (N.to_nat (i + n - i))) with (i + n) in F by lia.
        destruct f; eexists _, _; unfold ret; (split; [reflexivity|]); split; auto.
  Qed.

  Lemma bs_loop_ok w v pre xs post q y cmp a b :
    vrep w v pre xs post -> src w q y -> nlen y = v_esz v -> cmp_order (v_esz v) cmp ->
    a <= b -> b <= nlen xs -> sorted_range cmp xs a b ->
    forall fuel l h st, (Z.of_N a <= l)%Z -> (h < Z.of_N b)%Z -> (l <= h + 1)%Z ->
    (h - l + 1 <= Z.of_nat fuel)%Z ->
    (forall i x, a <= i -> (Z.of_N i < l)%Z -> nnth i xs = Some x -> (cmp x y < 0)%Z) ->
    (forall i x, (h < Z.of_N i)%Z -> i < b -> nnth i xs = Some x -> (0 <= cmp x y)%Z) ->
    (st = ST_TRUE /\ (exists i x, a <= i < b /\ nnth i xs = Some x /\ cmp x y = 0%Z) \/
     st = ST_FALSE /\ forall i x, (h < Z.of_N i)%Z -> i < b -> nnth i xs = Some x -> cmp x y <> 0%Z) ->
    exists r k, bs_loop v (Some q) cmp l h st fuel w = Ok (r, k) w /\
      lower_bound cmp xs a b y k /\
      (r = ST_TRUE /\ (exists i x, a <= i < b /\ nnth i xs = Some x /\ cmp x y = 0%Z) \/
       r = ST_FALSE /\ forall i x, a <= i < b -> nnth i xs = Some x -> cmp x y <> 0%Z).
  Proof.
    intros R Q L [CA CT] AB BX SO. 
    assert (KL : forall i x, nnth i xs = Some x -> nlen x = v_esz v).
    { intros i x. apply chunked_nnth. apply R. }
    induction fuel as [|fuel IH]; intros l h st HL HH HLH HF PL PH PS; cbn [bs_loop].
    - destruct (Z.leb_spec l h); [lia|].
      exists st, (Z.to_N l). split; [reflexivity|]. split; [split; [lia|split]|].
      + intros i x Hi NX. apply (PL i x); auto; lia.
      + intros i x Hi NX. apply (PH i x); auto; lia.
      + destruct PS as [PS|[-> PS]]; [left; exact PS|right]. split; [reflexivity|].
        intros i x Hi NX. destruct (Z.lt_ge_cases (Z.of_N i) l).
        * specialize (PL i x ltac:(lia) ltac:(lia) NX). lia.
        * apply (PS i x); auto; lia.
    - destruct (Z.leb_spec l h).
      + set (mid := (l + (h - l) / 2)%Z).
        assert (MB : (l <= mid <= h)%Z) by (unfold mid; lia).
        destruct (nnth_exists (Z.to_N mid) xs) as [x NX]; [lia|].
        rewrite (bind_ok _ _ _ _ _ (elem_read _ _ _ _ _ _ _ R NX)).
        pose proof (src_read _ _ _ Q) as SR. rewrite L in SR. rewrite (bind_ok _ _ _ _ _ SR).
        destruct (Z.ltb_spec (cmp x y) 0).
        * apply IH; auto; try lia.
          intros i z A1 A2 NZ. destruct (N.eq_dec i (Z.to_N mid)) as [->|NE]; [congruence|].
          pose proof (SO i (Z.to_N mid) z x A1 ltac:(lia) ltac:(lia) NZ NX) as ZX.
          pose proof (KL _ _ NX). pose proof (KL _ _ NZ).
          destruct (Z.lt_ge_cases (cmp z y) 0) as [|G]; [assumption|].
          assert ((cmp y z <= 0)%Z) by (apply CA; auto).
          assert ((cmp y x <= 0)%Z) by (apply (CT y z x); auto).
          assert ((0 <= cmp x y)%Z) by (apply CA; auto). lia.
        * assert (UP : forall i z, Z.to_N mid < i -> i < b -> nnth i xs = Some z ->
             (0 <= cmp z y)%Z /\ ((0 < cmp x y)%Z -> (0 < cmp z y)%Z)).
          { intros i z A1 A2 NZ.
            pose proof (SO (Z.to_N mid) i x z ltac:(lia) A1 A2 NX NZ) as XZ.
            pose proof (KL _ _ NX). pose proof (KL _ _ NZ). 
            assert (YX : (cmp y x <= 0)%Z) by (apply CA; auto).
            assert (YZ : (cmp y z <= 0)%Z) by (apply (CT y x z); auto).
            split; [apply CA; auto|]. intros P.
            destruct (Z.lt_ge_cases 0 (cmp z y)) as [|G]; [assumption|].
            assert ((cmp x y <= 0)%Z) by (apply (CT x z y); auto). lia. }
          assert (PH' : forall i z, (mid - 1 < Z.of_N i)%Z -> i < b -> nnth i xs = Some z -> (0 <= cmp z y)%Z).
          { intros i z A1 A2 NZ. destruct (N.eq_dec i (Z.to_N mid)) as [->|NE]; [congruence|].
            apply (UP i z); auto; lia. }
          apply IH; auto; try lia.
          destruct (Z.eqb_spec (cmp x y) 0) as [E0|E0].
          -- left. split; [reflexivity|]. exists (Z.to_N mid), x. split; [lia|auto].
          -- destruct PS as [PS|[-> PS]]; [left; exact PS|right]. split; [reflexivity|].
             intros i z A1 A2 NZ. destruct (N.eq_dec i (Z.to_N mid)) as [->|NE]; [congruence|].
             destruct (UP i z) as [_ U]; auto; lia.
      + exists st, (Z.to_N l). split; [reflexivity|]. split; [split; [lia|split]|].
        * intros i x Hi NX. apply (PL i x); auto; lia.
        * intros i x Hi NX. apply (PH i x); auto; lia.
        * destruct PS as [PS|[-> PS]]; [left; exact PS|right]. split; [reflexivity|].
          intros i x Hi NX. destruct (Z.lt_ge_cases (Z.of_N i) l).
          -- specialize (PL i x ltac:(lia) ltac:(lia) NX). lia.
          -- apply (PS i x); auto; lia.
  Qed.

  Definition bsearch_result (xs : list (list C)) (cmp : list C -> list C -> Z) (y : list C)
      (i n : N) (r : status) (f : option N) : Prop :=
    if (nlen xs <? i + n) then r = ST_OUT_OF_RANGE /\ f = None
    else exists k, f = Some k /\ lower_bound cmp xs i (i + n) y k /\
      (r = ST_TRUE /\ (exists j x, i <= j < i + n /\ nnth j xs = Some x /\ cmp x y = 0%Z) \/
       r = ST_FALSE /\ forall j x, i <= j < i + n -> nnth j xs = Some x -> cmp x y <> 0%Z).

  Lemma bsearch_ok w v pre xs post q y cmp i n :
    vrep w v pre xs post -> src w q y -> nlen y = v_esz v -> i + n < W64 ->
    nlen xs < 9223372036854775808 -> cmp_order (v_esz v) cmp -> sorted_range cmp xs i (i + n) ->
    exists r f, vbinary_search_ex v (Some q) cmp i n w = Ok (r, f) w /\
      bsearch_result xs cmp y i n r f.
  Proof.
    intros R Q L HW SM CO SO. unfold vbinary_search_ex, bsearch_result.
    rewrite (r_size _ _ _ _ _ R), wadd_small by assumption.
    destruct (N.ltb_spec (nlen xs) (i + n)).
    - rewrite orb_true_r. eexists _, _. split; [reflexivity|]. auto.
    - replace ((nlen xs <=? i) && (0 <? n)) with false by lia. cbn [orb].
      destruct (N.eqb_spec n 0) as [->|NZ].
      + eexists _, _. split; [reflexivity|]. exists i. split; [reflexivity|]. split.
        * split; [lia|]. split; intros; lia.
        * right. split; [reflexivity|]. intros; lia.
      + rewrite (bind_ok _ _ _ _ _ (rep_assert_valid _ _ _ _ _ R)).
        rewrite wsub_small by lia. unfold to_signed.
        destruct (N.ltb_spec i 9223372036854775808); [|lia].
        destruct (N.ltb_spec (i + n - 1) 9223372036854775808); [|lia].
        destruct (bs_loop_ok w v pre xs post q y cmp i (i + n) R Q L CO ltac:(lia) ltac:(lia) SO
          (N.to_nat n) (Z.of_N i) (Z.of_N (i + n - 1)) ST_FALSE) as (r & k & E & LB & T); try lia.
        { right. split; [reflexivity|]. intros; lia. }
        rewrite (bind_ok _ _ _ _ _ E). eexists _, _. split; [reflexivity|]. exists k. auto.
  Qed.

  (** ---- duplication ---- *)
  Lemma rep_other w w' u u' v pre xs post :
    vrep w v pre xs post -> frame w w' u u' -> wfw w' -> blk u <> blk v ->
    vrep w' v pre xs post /\ blk u' <> blk v.
  Proof.
    intros R F W B. pose proof (rep_blk_lt _ _ _ _ _ R) as L.
    assert (B' : blk u' <> blk v).
    { destruct (N.eq_dec (blk u') (blk u)); [congruence|].
      destruct (fr_old _ _ _ _ F n) as (_ & _ & ?). lia. }
    split; [|assumption]. destruct R. split; auto.
    destruct r_heap as (s & SL & HH). exists s. split; [eapply spare_orc, SL; apply F|].
    rewrite (fr_heap _ _ _ _ F) by auto. exact HH.
  Qed.

  Lemma src_all w v pre xs post : vrep w v pre xs post ->
    mread (v_data v) (nlen xs * v_esz v) w = Ok (concat xs) w.
  Proof.
    intros R. destruct (r_heap _ _ _ _ _ R) as (s & SL & HH). rewrite (r_data _ _ _ _ _ R).
    eapply mread_mid; [exact HH|reflexivity|]. apply nlen_concat. apply R.
  Qed.

  Lemma fill_copy w v pre xs post d dpre dpost :
    vrep w v pre xs post -> vrep w d dpre [] dpost -> blk d <> blk v ->
    v_esz d = v_esz v -> nlen xs <= v_cap d ->
    exists w', memcpy (v_data d) (v_data v) (wmul (v_size v) (v_esz v)) w = Ok tt w' /\
      vrep w' (set_size d (nlen xs)) dpre xs dpost /\ vrep w' v pre xs post /\
      dlog w' = dlog w /\ orc w' = orc w /\ nextb w' = nextb w /\
      (forall b, b <> blk d -> heap w' b = heap w b).
  Proof.
    intros R D B E LC. pose proof (r_mem _ _ _ _ _ R). pose proof (r_le _ _ _ _ _ R) as LE.
    pose proof (mul_le _ _ (v_esz v) LE). pose proof (mul_le _ _ (v_esz v) LC) as LC'.
    rewrite (r_size _ _ _ _ _ R), wmul_small by lia.
    destruct (r_heap _ _ _ _ _ D) as (s & SL & HH). cbn [concat app] in HH.
    rewrite nlen_nil, N.sub_0_r in SL. rewrite E in SL.
    destruct (nsplit (nlen xs * v_esz v) s) as (s1 & s2 & -> & L1); [apply spare_le in SL; lia|].
    rewrite nlen_app in SL.
    rewrite <- app_assoc in HH.
    pose proof (r_chunk _ _ _ _ _ R) as K. pose proof (nlen_concat _ _ K) as LCC.
    exists (upd w (blk d) (dpre ++ concat xs ++ s2 ++ dpost)). split.
    - rewrite (r_data _ _ _ _ _ D). eapply memcpy_mid; eauto using src_all.
      rewrite (r_data _ _ _ _ _ R). apply overlap_other. exact B.
    - split; [|split; [|repeat split; auto]].
      + eapply rep_upd; [exact D|reflexivity| | |].
        * now rewrite E.
        * lia.
        * rewrite E. eapply (spare_minus _ _ _ _ _ (nlen xs * v_esz v)); [exact SL| |lia].
          rewrite <- N.mul_add_distr_r. f_equal. lia.
      + eapply rep_other; [exact R| | |exact B].
        * apply (frame_upd w d d); reflexivity.
        * apply wfw_upd; [apply R|]. eapply rep_blk_lt; eauto.
      + intros b Hb. now apply heap_upd_other.
  Qed.

  Lemma duplicate_ok w v pre xs post cap g s fill :
    vrep w v pre xs post -> orc w (tick w) = AOk fill ->
    N.max 1 (N.max cap (nlen xs)) * v_esz v < W64 -> 1 <= g < 256 -> s < 256 ->
    exists w' d, vduplicate_ex v cap true g s w = Ok (ST_SUCCESS, Some d) w' /\
      vrep w' d [] xs [] /\ vrep w' v pre xs post /\ blk d <> blk v /\
      v_cap d = N.max 1 (N.max cap (nlen xs)) /\ cfg_of d = mkcfg false g s (v_esz v) (v_dtor v) /\
      dlog w' = dlog w /\ orc w' = orc w /\
      heap w (blk d) = None /\ (forall b, b <> blk d -> heap w' b = heap w b).
  Proof.
    intros R O MM GB SB. unfold vduplicate_ex. rewrite (r_size _ _ _ _ _ R).
    destruct (init_ok w (v_esz v) (N.max cap (nlen xs)) (v_dtor v) g s fill) as
      (w1 & d & E & D & DC & DE & DA & CF & L1 & O1 & B1 & N1 & H1); auto; try apply R.
    rewrite (bind_ok _ _ _ _ _ E). okst. cbv iota beta.
    unfold bind at 1. rewrite DC. destruct (N.leb_spec (nlen xs) (N.max 1 (N.max cap (nlen xs)))); [|lia].
    cbn [assert]. unfold ret at 1.
    pose proof (rep_blk_lt _ _ _ _ _ R) as BL.
    assert (R1 : vrep w1 v pre xs post).
    { destruct R. split; auto.
      - apply D.
      - destruct r_heap as (sl & SL & HH). exists sl.
        split; [eapply spare_orc, SL; exact O1|]. rewrite H1; [exact HH|lia]. }
    destruct (fill_copy w1 v pre xs post d [] [] R1 D ltac:(lia) DE ltac:(lia)) as
      (w2 & E2 & D2 & R2 & L2 & O2 & N2 & H2).
    rewrite (r_size _ _ _ _ _ R) in E2. rewrite (bind_ok _ _ _ _ _ E2). unfold ret.
    exists w2, (set_size d (nlen xs)). split; [reflexivity|].
    split; [exact D2|]. split; [exact R2|]. rewrite blk_set_size. split; [lia|].
    split; [exact DC|]. split; [exact CF|]. split; [congruence|]. split; [congruence|].
    split; [apply R; exact B1|]. intros b Hb. rewrite H2, H1 by assumption. reflexivity.
  Qed.

  Lemma duplicate_custom_ok w v pre xs post b bpre buf bpost cap :
    vrep w v pre xs post -> heap w b = Some (bpre ++ buf ++ bpost) -> b <> blk v ->
    nlen buf = cap * v_esz v -> cap * v_esz v < W64 -> 1 <= cap -> nlen xs <= cap ->
    exists w' d, vduplicate_custom v (Some (mkptr b (nlen bpre))) cap w = Ok (ST_SUCCESS, Some d) w' /\
      vrep w' d bpre xs bpost /\ vrep w' v pre xs post /\ blk d = b /\ v_cap d = cap /\
      cfg_of d = mkcfg true 1 0 (v_esz v) (v_dtor v) /\
      dlog w' = dlog w /\ orc w' = orc w /\ (forall b', b' <> b -> heap w' b' = heap w b').
  Proof.
    intros R HB NB LB MM C1 LC. unfold vduplicate_custom. rewrite (r_size _ _ _ _ _ R).
    destruct (N.ltb_spec cap (nlen xs)); [lia|].
    destruct (init_custom_ok w (v_esz v) cap (v_dtor v) b bpre buf bpost) as
      (d & E & D & DC & DE & DA & CF & DB); auto; try apply R.
    rewrite (bind_ok _ _ _ _ _ E). okst. cbv iota beta.
    unfold bind at 1. rewrite DC. destruct (N.leb_spec (nlen xs) cap); [|lia].
    cbn [assert]. unfold ret at 1.
    destruct (fill_copy w v pre xs post d bpre bpost R D ltac:(congruence) DE ltac:(lia)) as
      (w2 & E2 & D2 & R2 & L2 & O2 & N2 & H2).
    rewrite (r_size _ _ _ _ _ R) in E2. rewrite (bind_ok _ _ _ _ _ E2). unfold ret.
    exists w2, (set_size d (nlen xs)). split; [reflexivity|].
    split; [exact D2|]. split; [exact R2|]. rewrite blk_set_size. rewrite DB in H2.
    repeat split; auto.
  Qed.
End VectorSearch.

(** Proofs about the calls of comparison functions. *)
From Verif Require Import Base NListFacts Status Mem MemFacts VectorModel VectorSpec VectorDriver
  VectorRep VectorProofs VectorProofs2 VectorProofs3 VectorRefine VectorSearch VectorFail VectorMore
  VectorFinal VectorFinal2 CallbackModel CallbackSpec.
From Coq Require Import ZifyBool ZifyNat ZifyN.

Section CallbackProofs.
  Context {C A : Type}.
  Notation vec := (vector C).
  Implicit Types (w : world C) (v : vec) (a : A).

  (** ---- Find ---- *)
  Lemma find_loop_calls w v pre xs post q y (cmp : @callback C A bool) f :
    vrep w v pre xs post -> src w q y -> nlen y = v_esz v -> looks (v_esz v) cmp f ->
    forall n i a, i + N.of_nat n <= nlen xs ->
    exists r js rs a', find_loop_by v (Some q) cmp i n a w = Ok (r, a') w /\
      called f xs y a js rs a' /\ (forall t j, nnth t js = Some j -> j = i + t) /\
      match r with
      | Some k => k = i + nlen js - 1 /\ nlen js <= N.of_nat n /\ exists rs0, rs = rs0 ++ [true] /\ Forall (eq false) rs0
      | None => nlen js = N.of_nat n /\ Forall (eq false) rs
      end.
  Proof.
    intros R Q L LK. pose proof (rep_cap_lt _ _ _ _ _ R) as CL. pose proof (r_le _ _ _ _ _ R) as LE.
    induction n as [|n IH]; intros i a Hi.
    - exists None, [], [], a. split; [reflexivity|]. split; [constructor|]. split; [intros ? ? T; apply nnth_lt in T; change (nlen (@nil N)) with 0 in T; lia|].
      split; [reflexivity|constructor].
    - cbn [find_loop_by]. destruct (nnth_exists i xs) as [x NX]; [lia|].
      pose proof (elem_read _ _ _ _ _ _ _ R NX) as ER.
      pose proof (src_read _ _ _ Q) as SR. rewrite L in SR.
      pose proof (LK _ _ a _ _ _ ER SR) as CE. destruct (f a x y) as [b a1] eqn:FE.
      rewrite (bind_ok _ _ _ _ _ CE). destruct b.
      + exists (Some i), [i], [true], a1. split; [reflexivity|]. split; [econstructor; eauto; constructor|].
        split. { intros t j T. destruct (N.eq_dec t 0) as [->|]; [injection T as <-; lia|].
          apply nnth_lt in T. change (nlen [i]) with 1 in T. lia. }
        change (nlen [i]) with 1. split; [lia|]. split; [lia|]. exists []. split; [reflexivity|constructor].
      + rewrite wadd_small by lia. destruct (IH (i + 1) a1) as (r & js & rs & a' & -> & CA & JS & RS); [lia|].
        exists r, (i :: js), (false :: rs), a'. split; [reflexivity|]. split; [econstructor; eauto|].
        split. { intros t j T. destruct (N.eq_dec t 0) as [->|NT]; [injection T as <-; lia|].
          change (i :: js) with ([i] ++ js) in T. rewrite nnth_app2 in T by (change (nlen [i]) with 1; lia).
          change (nlen [i]) with 1 in T. specialize (JS _ _ T). lia. }
        rewrite nlen_cons. destruct r as [k|].
        * destruct RS as (-> & B & rs0 & -> & FA).
          assert (1 <= nlen js). { inversion CA; subst; [destruct rs0; discriminate|rewrite nlen_cons; lia]. }
          split; [lia|]. split; [lia|]. exists (false :: rs0). split; [reflexivity|]. constructor; auto.
        * destruct RS as (B & FA). split; [lia|]. constructor; auto.
  Qed.

  Lemma find_calls w v xs y (cmp : @callback C A bool) f i n a :
    reached w v xs -> nlen y = v_esz v -> looks (v_esz v) cmp f -> i + n <= nlen xs -> i < nlen xs ->
    exists r k a' js rs w', with_arg y (fun p => vfind_ex_by v p cmp i n a) w = Ok (r, k, a') w' /\
      called f xs y a js rs a' /\ (forall t j, nnth t js = Some j -> j = i + t) /\
      match k with
      | Some k => r = ST_TRUE /\ k = i + nlen js - 1 /\ nlen js <= n /\
                  exists rs0, rs = rs0 ++ [true] /\ Forall (eq false) rs0
      | None => r = ST_FALSE /\ nlen js = n /\ Forall (eq false) rs
      end /\ (forall b, heap w' b = heap w b) /\ dlog w' = dlog w.
  Proof.
    intros H L LK B1 B2. destruct (reached_rep _ _ _ H) as (pre & post & R & F & NF).
    pose proof (rep_len_lt _ _ _ _ _ R).
    destruct (argw_rep _ _ _ _ _ y R) as (R1 & S1 & N1).
    destruct (find_loop_calls _ _ _ _ _ _ _ cmp f R1 S1 L LK (N.to_nat n) i a ltac:(lia))
      as (k & js & rs & a' & E & CA & JS & RS).
    assert (E2 : vfind_ex_by v (Some (mkptr (nextb w) 0)) cmp i n a
       (mkbuild (hset (heap w) (nextb w) (Some y)) (nextb w + 1) (orc w) (tick w) (dlog w) (checked w)) =
       Ok (match k with Some _ => ST_TRUE | None => ST_FALSE end, k, a')
       (mkbuild (hset (heap w) (nextb w) (Some y)) (nextb w + 1) (orc w) (tick w) (dlog w) (checked w))).
    { unfold vfind_ex_by. rewrite (r_size _ _ _ _ _ R), wadd_small by lia.
      replace ((nlen xs <? i + n) || (i =? nlen xs)) with false by lia.
      destruct (N.eqb_spec n 0) as [->|NZ].
      - cbn in E. injection E as <- <-. reflexivity.
      - rewrite (bind_ok _ _ _ _ _ (rep_assert_valid _ _ _ _ _ R1)).
        replace (i + n - i) with n by lia. rewrite (bind_ok _ _ _ _ _ E). destruct k; reflexivity. }
    destruct (with_arg_pure w v pre xs post y (fun p => vfind_ex_by v p cmp i n a) _ R E2)
      as (w' & E' & HH & D & _).
    exists (match k with Some _ => ST_TRUE | None => ST_FALSE end), k, a', js, rs, w'.
    split; [exact E'|]. split; [exact CA|]. split; [exact JS|]. split; [|auto].
    destruct k; rewrite N2Nat.id in RS; tauto.
  Qed.

  Lemma find_all_calls w v xs y (cmp : @callback C A bool) f a :
    reached w v xs -> nlen y = v_esz v -> looks (v_esz v) cmp f -> xs <> [] ->
    exists r k a' js rs w', with_arg y (fun p => vfind_by v p cmp a) w = Ok (r, k, a') w' /\
      called f xs y a js rs a' /\ (forall t j, nnth t js = Some j -> j = t) /\
      match k with
      | Some k => r = ST_TRUE /\ k = nlen js - 1 /\ nlen js <= nlen xs /\
                  exists rs0, rs = rs0 ++ [true] /\ Forall (eq false) rs0
      | None => r = ST_FALSE /\ nlen js = nlen xs /\ Forall (eq false) rs
      end /\ (forall b, heap w' b = heap w b) /\ dlog w' = dlog w.
  Proof.
    intros H L LK NE. assert (0 < nlen xs). { destruct xs; [congruence|]. rewrite nlen_cons. lia. }
    destruct (reached_rep _ _ _ H) as (pre & post & R & _).
    destruct (find_calls w v xs y cmp f 0 (nlen xs) a H L LK ltac:(lia) ltac:(lia))
      as (r & k & a' & js & rs & w' & E & CA & JS & RS & X).
    exists r, k, a', js, rs, w'. split; [unfold vfind_by; rewrite (r_size _ _ _ _ _ R); exact E|].
    split; [exact CA|]. split; [intros t j T; rewrite (JS t j T); lia|]. split; [|exact X].
    destruct k; [|exact RS]. destruct RS as (? & ? & ?). split; [auto|]. split; [lia|auto].
  Qed.

  (** ---- BinarySearch ---- *)
  Lemma log2_half m : 2 <= m -> N.log2 m = 1 + N.log2 (m / 2).
  Proof.
    intros H. pose proof (N.div_mod m 2 ltac:(lia)) as D. pose proof (N.mod_lt m 2 ltac:(lia)).
    assert (0 < m / 2) by lia. generalize dependent (m / 2). intros h D HP.
    assert (m = 2 * h \/ m = 2 * h + 1) as [->| ->] by lia.
    - rewrite N.log2_double by assumption. lia.
    - rewrite N.log2_succ_double by assumption. lia.
  Qed.
  Lemma log2_up_half s : 1 <= s -> N.log2_up (s + 1) = 1 + N.log2_up (s / 2 + 1).
  Proof.
    intros H. rewrite N.log2_up_eqn by lia. replace (N.pred (s + 1)) with s by lia.
    destruct (N.eq_dec s 1) as [->|]; [reflexivity|].
    assert (1 <= s / 2) by lia.
    rewrite N.log2_up_eqn by lia. replace (N.pred (s / 2 + 1)) with (s / 2) by lia.
    rewrite (log2_half s) by lia. lia.
  Qed.

  Lemma bs_loop_calls w v pre xs post q y (cmp : @callback C A Z) f :
    vrep w v pre xs post -> src w q y -> nlen y = v_esz v -> looks (v_esz v) cmp f ->
    forall fuel l h st a, (0 <= l)%Z -> (h < Z.of_N (nlen xs))%Z -> (l <= h + 1)%Z ->
    (h - l + 1 <= Z.of_nat fuel)%Z ->
    exists r k js rs a', bs_loop_by v (Some q) cmp l h st fuel a w = Ok (r, k, a') w /\
      called f xs y a js rs a' /\ NoDup js /\ Forall (fun j => (l <= Z.of_N j <= h)%Z) js /\
      N.log2 (Z.to_N (h - l + 1) + 1) <= nlen js <= N.log2_up (Z.to_N (h - l + 1) + 1) /\
      r = (if existsb (Z.eqb 0) rs then ST_TRUE else st) /\
      (l <= Z.of_N k <= h + 1)%Z /\ Forall2 (fun j c => (c < 0)%Z <-> j < k) js rs /\
      (Z.of_N k = l \/ In (k - 1) js) /\ (Z.of_N k = h + 1 \/ In k js)%Z.
  Proof.
    intros R Q L LK. induction fuel as [|fuel IH]; intros l h st a HL HH HLH HF; cbn [bs_loop_by].
    - destruct (Z.leb_spec l h); [lia|]. exists st, (Z.to_N l), [], [], a.
      replace (h - l + 1)%Z with 0%Z by lia.
      split; [reflexivity|]. split; [constructor|]. split; [constructor|]. split; [constructor|].
      split; [vm_compute; split; discriminate|]. split; [reflexivity|]. split; [lia|].
      split; [constructor|]. split; left; lia.
    - destruct (Z.leb_spec l h).
      + set (mid := (l + (h - l) / 2)%Z).
        assert (MB : (l <= mid <= h)%Z) by (unfold mid; lia).
        destruct (nnth_exists (Z.to_N mid) xs) as [x NX]; [lia|].
        pose proof (elem_read _ _ _ _ _ _ _ R NX) as ER.
        pose proof (src_read _ _ _ Q) as SR. rewrite L in SR.
        pose proof (LK _ _ a _ _ _ ER SR) as CE. destruct (f a x y) as [c a1] eqn:FE.
        rewrite (bind_ok _ _ _ _ _ CE).
        set (s := Z.to_N (h - l + 1)).
        assert (SB : forall s', (s + 1) / 2 <= s' + 1 -> s' <= s / 2 ->
           forall k, N.log2 (s' + 1) <= k <= N.log2_up (s' + 1) ->
           N.log2 (s + 1) <= k + 1 <= N.log2_up (s + 1)).
        { intros s' A1 A2 k KB. rewrite (log2_half (s + 1)), log2_up_half by lia.
          pose proof (N.log2_le_mono _ _ A1).
          pose proof (N.log2_up_le_mono (s' + 1) (s / 2 + 1) ltac:(lia)). lia. }
        destruct (Z.ltb_spec c 0).
        * destruct (IH (mid + 1)%Z h st a1) as (r & k & js & rs & a' & -> & CA & ND & FJ & LB & -> & KB & F2 & K1 & K2); try lia.
          assert (ZK : (Z.of_N (Z.to_N mid) = mid)%Z) by lia.
          exists (if existsb (Z.eqb 0) rs then ST_TRUE else st), k, (Z.to_N mid :: js), (c :: rs), a'.
          split; [reflexivity|]. split; [econstructor; eauto|].
          split. { constructor; [|exact ND]. intros IN. rewrite Forall_forall in FJ. specialize (FJ _ IN). lia. }
          split. { constructor; [lia|]. eapply Forall_impl; [|exact FJ]. cbn. lia. }
          split. { replace (nlen (Z.to_N mid :: js)) with (nlen js + 1) by (rewrite nlen_cons; lia). apply (SB (Z.to_N (h - (mid + 1) + 1))); [..|exact LB]; unfold s, mid; lia. }
          split. { cbn [existsb]. replace (0 =? c)%Z with false by lia. reflexivity. }
          split; [lia|]. split; [constructor; [lia|exact F2]|].
          split. { right. destruct K1 as [K1|K1]; [left; lia|right; exact K1]. }
          destruct K2 as [K2|K2]; [left; exact K2|right; right; exact K2].
        * destruct (IH l (mid - 1)%Z (if (c =? 0)%Z then ST_TRUE else st) a1)
            as (r & k & js & rs & a' & -> & CA & ND & FJ & LB & -> & KB & F2 & K1 & K2); try lia.
          exists (if existsb (Z.eqb 0) (c :: rs) then ST_TRUE else st), k, (Z.to_N mid :: js), (c :: rs), a'.
          split. { cbn [existsb]. rewrite (Z.eqb_sym c 0). destruct (0 =? c)%Z, (existsb _ rs); reflexivity. }
          split; [econstructor; eauto|].
          split. { constructor; [|exact ND]. intros IN. rewrite Forall_forall in FJ. specialize (FJ _ IN). lia. }
          split. { constructor; [lia|]. eapply Forall_impl; [|exact FJ]. cbn. lia. }
          split. { replace (nlen (Z.to_N mid :: js)) with (nlen js + 1) by (rewrite nlen_cons; lia). apply (SB (Z.to_N (mid - 1 - l + 1))); [..|exact LB]; unfold s, mid; lia. }
          split; [reflexivity|].
          split; [lia|]. split; [constructor; [lia|exact F2]|].
          split. { destruct K1 as [K1|K1]; [left; exact K1|right; right; exact K1]. }
          right. destruct K2 as [K2|K2]; [left; lia|right; exact K2].
      + exists st, (Z.to_N l), [], [], a. replace (h - l + 1)%Z with 0%Z by lia.
        split; [reflexivity|]. split; [constructor|]. split; [constructor|]. split; [constructor|].
        split; [vm_compute; split; discriminate|]. split; [reflexivity|]. split; [lia|].
        split; [constructor|]. split; left; lia.
  Qed.

  Lemma bsearch_calls w v xs y (cmp : @callback C A Z) f i n a :
    reached w v xs -> nlen y = v_esz v -> looks (v_esz v) cmp f -> i + n <= nlen xs ->
    exists r k a' js rs w', with_arg y (fun p => vbinary_search_ex_by v p cmp i n a) w = Ok (r, Some k, a') w' /\
      called f xs y a js rs a' /\ NoDup js /\ Forall (fun j => i <= j < i + n) js /\
      N.log2 (n + 1) <= nlen js <= N.log2_up (n + 1) /\
      (r = ST_TRUE /\ In 0%Z rs \/ r = ST_FALSE /\ ~ In 0%Z rs) /\
      i <= k <= i + n /\ Forall2 (fun j c => (c < 0)%Z <-> j < k) js rs /\
      (k = i \/ In (k - 1) js) /\ (k = i + n \/ In k js) /\
      (forall b, heap w' b = heap w b) /\ dlog w' = dlog w.
  Proof.
    intros H L LK B1. destruct (reached_rep _ _ _ H) as (pre & post & R & F & NF).
    pose proof (rep_len_lt _ _ _ _ _ R). pose proof (r_esz _ _ _ _ _ R).
    assert (nlen xs < 9223372036854775808).
    { destruct (argw_rep _ _ _ _ _ y R) as (R1 & _ & _). unfold fits, W64 in *. nia. }
    destruct (argw_rep _ _ _ _ _ y R) as (R1 & S1 & N1).
    destruct (bs_loop_calls _ _ _ _ _ _ _ cmp f R1 S1 L LK (N.to_nat n) (Z.of_N i) (Z.of_N (i + n) - 1) ST_FALSE a
      ltac:(lia) ltac:(lia) ltac:(lia) ltac:(lia))
      as (r & k & js & rs & a' & E & CA & ND & FJ & LB & -> & KB & F2 & K1 & K2).
    set (r := if existsb (Z.eqb 0) rs then ST_TRUE else ST_FALSE) in *.
    assert (E2 : vbinary_search_ex_by v (Some (mkptr (nextb w) 0)) cmp i n a
       (mkbuild (hset (heap w) (nextb w) (Some y)) (nextb w + 1) (orc w) (tick w) (dlog w) (checked w)) =
       Ok (r, Some k, a')
       (mkbuild (hset (heap w) (nextb w) (Some y)) (nextb w + 1) (orc w) (tick w) (dlog w) (checked w))).
    { unfold vbinary_search_ex_by. rewrite (r_size _ _ _ _ _ R), wadd_small by lia.
      replace ((nlen xs <=? i) && (0 <? n) || (nlen xs <? i + n)) with false by lia.
      destruct (N.eqb_spec n 0) as [->|NZ].
      - change (N.to_nat 0) with O in E. cbn [bs_loop_by] in E. destruct (Z.leb_spec (Z.of_N i) (Z.of_N (i + 0) - 1)); [lia|].
        unfold ret in *. rewrite N2Z.id in E. inversion E as [[E1 E2 E3]]. clear - E1. subst r. destruct (existsb (Z.eqb 0) rs); [vm_compute in E1; discriminate E1|reflexivity].
      - rewrite (bind_ok _ _ _ _ _ (rep_assert_valid _ _ _ _ _ R1)).
        rewrite wsub_small by lia. unfold to_signed.
        destruct (N.ltb_spec i 9223372036854775808); [|lia].
        destruct (N.ltb_spec (i + n - 1) 9223372036854775808); [|lia].
        replace (Z.of_N (i + n) - 1)%Z with (Z.of_N (i + n - 1)) in E by lia.
        rewrite (bind_ok _ _ _ _ _ E). reflexivity. }
    destruct (with_arg_pure w v pre xs post y (fun p => vbinary_search_ex_by v p cmp i n a) _ R E2)
      as (w' & E' & HH & D & _).
    exists r, k, a', js, rs, w'. split; [exact E'|]. split; [exact CA|]. split; [exact ND|].
    split. { eapply Forall_impl; [|exact FJ]. cbn. lia. }
    replace (Z.to_N (Z.of_N (i + n) - 1 - Z.of_N i + 1)) with n in LB by lia. split; [exact LB|].
    split. { unfold r. destruct (existsb (Z.eqb 0) rs) eqn:X.
      - left. split; [reflexivity|]. apply existsb_exists in X. destruct X as (z & IN & Z0).
        apply Z.eqb_eq in Z0. subst. exact IN.
      - right. split; [reflexivity|]. intros IN. enough (existsb (Z.eqb 0) rs = true) by congruence.
        apply existsb_exists. exists 0%Z. auto. }
    split; [lia|]. split; [exact F2|]. split; [destruct K1; [left; lia|auto]|].
    split; [destruct K2; [left; lia|auto]|]. auto.
  Qed.

  Lemma bsearch_all_calls w v xs y (cmp : @callback C A Z) f a :
    reached w v xs -> nlen y = v_esz v -> looks (v_esz v) cmp f ->
    exists r k a' js rs w', with_arg y (fun p => vbinary_search_by v p cmp a) w = Ok (r, Some k, a') w' /\
      called f xs y a js rs a' /\ NoDup js /\ Forall (fun j => j < nlen xs) js /\
      N.log2 (nlen xs + 1) <= nlen js <= N.log2_up (nlen xs + 1) /\
      (r = ST_TRUE /\ In 0%Z rs \/ r = ST_FALSE /\ ~ In 0%Z rs) /\
      k <= nlen xs /\ Forall2 (fun j c => (c < 0)%Z <-> j < k) js rs /\
      (k = 0 \/ In (k - 1) js) /\ (k = nlen xs \/ In k js) /\
      (forall b, heap w' b = heap w b) /\ dlog w' = dlog w.
  Proof.
    intros H L LK. destruct (reached_rep _ _ _ H) as (pre & post & R & _).
    destruct (bsearch_calls w v xs y cmp f 0 (nlen xs) a H L LK ltac:(lia))
      as (r & k & a' & js & rs & w' & E & CA & ND & FJ & LB & RS & KB & F2 & K1 & K2 & X).
    exists r, k, a', js, rs, w'. split; [unfold vbinary_search_by; rewrite (r_size _ _ _ _ _ R); exact E|].
    split; [exact CA|]. split; [exact ND|]. split; [eapply Forall_impl; [|exact FJ]; cbn; lia|].
    split; [exact LB|]. split; [exact RS|]. split; [lia|]. split; [exact F2|]. split; [exact K1|].
    split; [exact K2|exact X].
  Qed.

  (** ---- refused ranges ---- *)
  Lemma refused_calls w v xs y i n a :
    reached w v xs -> i + n < W64 ->
    (forall cmp : @callback C A bool, nlen xs < i + n \/ i = nlen xs ->
       exists w', with_arg y (fun p => vfind_ex_by v p cmp i n a) w = Ok (ST_OUT_OF_RANGE, None, a) w' /\
         (forall b, heap w' b = heap w b) /\ dlog w' = dlog w) /\
    (forall cmp : @callback C A Z, nlen xs < i + n ->
       exists w', with_arg y (fun p => vbinary_search_ex_by v p cmp i n a) w = Ok (ST_OUT_OF_RANGE, None, a) w' /\
         (forall b, heap w' b = heap w b) /\ dlog w' = dlog w).
  Proof.
    intros H IW. destruct (reached_rep _ _ _ H) as (pre & post & R & _).
    split; intros cmp B.
    - assert (E : vfind_ex_by v (Some (mkptr (nextb w) 0)) cmp i n a (argw w y) = Ok (ST_OUT_OF_RANGE, None, a) (argw w y)).
      { unfold vfind_ex_by. rewrite (r_size _ _ _ _ _ R), wadd_small by lia.
        replace ((nlen xs <? i + n) || (i =? nlen xs)) with true by lia. reflexivity. }
      destruct (with_arg_pure w v pre xs post y (fun p => vfind_ex_by v p cmp i n a) _ R E) as (w' & E' & HH & D & _).
      exists w'. auto.
    - assert (E : vbinary_search_ex_by v (Some (mkptr (nextb w) 0)) cmp i n a (argw w y) = Ok (ST_OUT_OF_RANGE, None, a) (argw w y)).
      { unfold vbinary_search_ex_by. rewrite (r_size _ _ _ _ _ R), wadd_small by lia.
        replace ((nlen xs <=? i) && (0 <? n) || (nlen xs <? i + n)) with true by lia. reflexivity. }
      destruct (with_arg_pure w v pre xs post y (fun p => vbinary_search_ex_by v p cmp i n a) _ R E) as (w' & E' & HH & D & _).
      exists w'. auto.
  Qed.

  (** ---- a comparison without a state ---- *)
  Lemma find_loop_agrees v p g n : forall i a w,
    find_loop_by v p (reading (v_esz v) g) i n a w =
    (let* r := find_loop v p g i n in ret (r, a)) w.
  Proof.
    induction n as [|n IH]; intros i a w; [reflexivity|].
    cbn [find_loop_by find_loop]. unfold reading at 1. unfold bind.
    destruct (mread (offset v i) (v_esz v) w) as [x w1|]; [|reflexivity].
    destruct (mread p (v_esz v) w1) as [y w2|]; [|reflexivity]. unfold ret at 1.
    destruct (g x y); [reflexivity|]. rewrite IH. reflexivity.
  Qed.
  Lemma find_agrees v p g i n a w :
    vfind_ex_by v p (reading (v_esz v) g) i n a w = (let* (r, k) := vfind_ex v p g i n in ret (r, k, a)) w.
  Proof.
    unfold vfind_ex_by, vfind_ex. destruct (_ || _); [reflexivity|]. destruct (n =? 0); [reflexivity|].
    unfold bind. destruct (assert_valid v w) as [u w1|]; [|reflexivity].
    rewrite find_loop_agrees. unfold bind. destruct (find_loop v p g i _ w1) as [k w2|]; [|reflexivity].
    unfold ret at 1. destruct k; reflexivity.
  Qed.
  Lemma bs_loop_agrees v p g fuel : forall l h st a w,
    bs_loop_by v p (reading (v_esz v) g) l h st fuel a w =
    (let* (r, k) := bs_loop v p g l h st fuel in ret (r, k, a)) w.
  Proof.
    induction fuel as [|fuel IH]; intros l h st a w; cbn [bs_loop_by bs_loop];
      destruct (l <=? h)%Z; try reflexivity.
    unfold reading at 1. unfold bind.
    destruct (mread _ (v_esz v) w) as [x w1|]; [|reflexivity].
    destruct (mread p (v_esz v) w1) as [y w2|]; [|reflexivity]. unfold ret at 1.
    destruct (g x y <? 0)%Z; rewrite IH; reflexivity.
  Qed.
  Lemma bsearch_agrees v p g i n a w :
    vbinary_search_ex_by v p (reading (v_esz v) g) i n a w =
    (let* (r, k) := vbinary_search_ex v p g i n in ret (r, k, a)) w.
  Proof.
    unfold vbinary_search_ex_by, vbinary_search_ex. destruct (_ || _); [reflexivity|].
    destruct (n =? 0); [reflexivity|].
    unfold bind. destruct (assert_valid v w) as [u w1|]; [|reflexivity].
    rewrite bs_loop_agrees. unfold bind. destruct (bs_loop v p g _ _ _ _ w1) as [[r k] w2|]; reflexivity.
  Qed.
  Lemma callbacks_agree v p w a i n :
    (forall g, vfind_ex_by v p (reading (v_esz v) g) i n a w = (let* (r, k) := vfind_ex v p g i n in ret (r, k, a)) w) /\
    (forall g, vbinary_search_ex_by v p (reading (v_esz v) g) i n a w =
       (let* (r, k) := vbinary_search_ex v p g i n in ret (r, k, a)) w).
  Proof. split; intros g; [apply find_agrees|apply bsearch_agrees]. Qed.
End CallbackProofs.

Lemma logging_looks {R} (g : list N -> list N -> R) : looks 2 (logging g) (logs g).
Proof. intros p q a x y w X Y. unfold logging. rewrite (bind_ok _ _ _ _ _ X), (bind_ok _ _ _ _ _ Y). reflexivity. Qed.

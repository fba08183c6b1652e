(** Programs over several bitsets: laws of the logical operations. *)
From Verif Require Import Base NListFacts Status Mem MemFacts VectorModel VectorSpec VectorDriver
  VectorRep VectorMore StringModel BitsetModel BitsetSpec BitsetDriver BitsetRun ExactSpec ExactProofs2 SignedProofs GateDriver GateProofs.
From Coq Require Import ZifyBool ZifyNat ZifyN.

Implicit Types (w : Mem.world N) (b : bitset) (s : raw).

Lemma gate_programs w0 cs : world_ok w0 -> allocator_ok w0 -> calls_ok 0 cs -> bitroom (calls_need cs) ->
  exists bs w w', run_bcalls [] cs w0 = Ok (fst (call_steps cs []), bs) w /\
    Forall2 (raw_shows w) bs (snd (call_steps cs [])) /\
    (forall k x, heap w0 k = Some x -> heap w k = Some x) /\
    destroy_all bs w = Ok (map (fun _ => ST_SUCCESS) bs) w' /\ forall k, heap w' k = heap w0 k.
Proof.
  intros W0 A OK RM. destruct (fam_calls w0 cs W0 w0 [] [] 0 (fam_nil _ W0 A) OK RM) as (bs & w & E & F).
  destruct (fam_destroy _ _ W0 _ _ _ F) as (w' & D & H). exists bs, w, w'. split; [exact E|].
  split; [eapply fam_shows; eauto|]. split; [|now split]. intros k x Hk. rewrite (f_else _ _ _ _ _ F); [exact Hk|].
  intros i b EB EK. destruct (f_own _ _ _ _ _ F i b EB) as (_ & L). rewrite <- EK, (W0 _ L) in Hk. discriminate.
Qed.
Lemma bitsets_fam k w bs ss : bitsets k w bs ss -> exists w0 m, wfw w0 /\ fam w0 w bs ss m /\ bitroom m /\ nlen ss = k.
Proof.
  intros (w0 & cs & rs & W0 & A & OK & RM & E & -> & LB).
  destruct (fam_calls w0 cs W0 w0 [] [] 0 (fam_nil _ W0 A) OK RM) as (bs' & w' & E' & F).
  rewrite E in E'. injection E' as -> <- <-. exists w0, (0 + calls_need cs). split; [exact W0|]. split; [exact F|]. split; [exact RM|].
  rewrite <- LB. symmetry. apply F.
Qed.
Lemma bitsets_run k w bs ss cs : bitsets k w bs ss -> calls_ok k cs -> calls_need cs = 0 ->
  exists bs' w', run_bcalls bs cs w = Ok (fst (call_steps cs ss), bs') w' /\ Forall2 (raw_shows w') bs' (snd (call_steps cs ss)).
Proof.
  intros B OK Z. destruct (bitsets_fam _ _ _ _ B) as (w0 & m & W0 & F & RM & <-).
  destruct (fam_calls w0 cs W0 w bs ss m F OK) as (bs' & w' & E & F'); [rewrite Z, N.add_0_r; exact RM|].
  exists bs', w'. split; [exact E|]. rewrite Z, N.add_0_r in F'. eapply fam_shows; eauto.
Qed.
Lemma bitsets_shows k w bs ss : bitsets k w bs ss -> Forall2 (raw_shows w) bs ss /\ nlen ss = k.
Proof. intros B. destruct (bitsets_fam _ _ _ _ B) as (w0 & m & W0 & F & RM & L). split; [eapply fam_shows; eauto|exact L]. Qed.

(** ** Laws on states *)
Lemma laws k w bs ss P Q : bitsets k w bs ss -> calls_ok k P -> calls_ok k Q -> calls_need P = 0 -> calls_need Q = 0 ->
  fst (call_steps P ss) = map (fun _ => ST_SUCCESS) P -> fst (call_steps Q ss) = map (fun _ => ST_SUCCESS) Q ->
  (forall x, nnth x (snd (call_steps P ss)) = nnth x (snd (call_steps Q ss))) -> same_effect bs w P Q.
Proof.
  intros B OP OQ ZP ZQ SP SQ EQ. destruct (bitsets_run _ _ _ _ P B OP ZP) as (bs1 & w1 & E1 & F1).
  destruct (bitsets_run _ _ _ _ Q B OQ ZQ) as (bs2 & w2 & E2 & F2). rewrite SP in E1. rewrite SQ in E2.
  rewrite <- (nnth_ext _ _ EQ) in F2. exists bs1, w1, bs2, w2, (snd (call_steps P ss)). now repeat split.
Qed.
(** Bits of results. *)
Lemma bits_same (xs ys : list bool) : (forall k, nnth k xs = nnth k ys) -> xs = ys.
Proof. apply nnth_ext. Qed.
Lemma some_eq (n : N) (xs ys : list bool) : xs = ys -> Some (n, xs) = Some (n, ys).
Proof. now intros ->. Qed.
Ltac long := first [assumption | rewrite put_len; long].
Ltac look :=
  repeat (cbn [call_step call_steps raw_step fst snd gate_fun];
    repeat (rewrite put_nth by long); rewrite ?N.eqb_refl;
    repeat match goal with
    | H : nnth ?i ?l = _ |- context [nnth ?i ?l] => rewrite H
    | H : (?i =? ?j) = _ |- context [?i =? ?j] => rewrite H
    end).
Ltac bits :=
  apply some_eq, bits_same; let k := fresh "k" in intros k; rewrite ?merge_nth, ?nnth_map, ?merge_nth, ?nnth_map, ?merge_nth, ?nnth_map, ?merge_nth;
  repeat match goal with |- context [nnth k ?l] => is_var l; destruct (nnth k l) as [[]|] end; reflexivity.
Lemma law2 k w bs ss i j P Q : bitsets k w bs ss -> i < k -> j < k -> calls_ok k P -> calls_ok k Q -> calls_need P = 0 -> calls_need Q = 0 ->
  (forall n xs m ys, nlen ss = k -> nnth i ss = Some (n, xs) -> nnth j ss = Some (m, ys) ->
    fst (call_steps P ss) = map (fun _ => ST_SUCCESS) P /\ fst (call_steps Q ss) = map (fun _ => ST_SUCCESS) Q /\
    forall x, nnth x (snd (call_steps P ss)) = nnth x (snd (call_steps Q ss))) -> same_effect bs w P Q.
Proof.
  intros B LI LJ OP OQ ZP ZQ H. pose proof (proj2 (bitsets_shows _ _ _ _ B)) as L. destruct (nnth_exists i ss) as ([n xs] & EI); [lia|].
  destruct (nnth_exists j ss) as ([m ys] & EJ); [lia|]. destruct (H n xs m ys L EI EJ) as (H1 & H2 & H3). eapply laws; eauto.
Qed.
Ltac law i j :=
  let n := fresh "n" in let xs := fresh "xs" in let m := fresh "m" in let ys := fresh "ys" in
  intros n xs m ys L EI EJ; pose proof (nnth_lt _ _ _ EI) as LI; pose proof (nnth_lt _ _ _ EJ) as LJ;
  destruct (N.eq_dec i j) as [<-|NE];
  [ rewrite EI in EJ; injection EJ as <- <-
  | pose proof (proj2 (N.eqb_neq _ _) NE) as E1; pose proof (proj2 (N.eqb_neq _ _) (not_eq_sym NE)) as E2 ];
  (split; [|split]; [look; reflexivity | look; reflexivity|]);
  intros x; look; destruct (N.eqb_spec x i) as [->|]; try destruct (N.eqb_spec x j) as [->|]; look; try (exfalso; lia); try reflexivity; try bits.
Lemma de_morgan_or k w bs ss i j : bitsets k w bs ss -> i < k -> j < k ->
  same_effect bs w [BOn i BFlip; BOn j BFlip; BCombine And i j; BOn i BFlip; BOn j BFlip] [BCombine Or i j].
Proof. intros B LI LJ. eapply (law2 k w bs ss i j); eauto; try (cbn; auto 9); try reflexivity. clear LI LJ. law i j. Qed.
Lemma de_morgan_and k w bs ss i j : bitsets k w bs ss -> i < k -> j < k ->
  same_effect bs w [BOn i BFlip; BOn j BFlip; BCombine Or i j; BOn i BFlip; BOn j BFlip] [BCombine And i j].
Proof. intros B LI LJ. eapply (law2 k w bs ss i j); eauto; try (cbn; auto 9); try reflexivity. clear LI LJ. law i j. Qed.
Lemma xor_twice k w bs ss i j : bitsets k w bs ss -> i < k -> j < k -> i <> j ->
  same_effect bs w [BCombine Xor i j; BCombine Xor i j] [].
Proof. intros B LI LJ NE0. eapply (law2 k w bs ss i j); eauto; try (cbn; auto 9); try reflexivity. clear LI LJ. law i j. Qed.
Lemma difference k w bs ss i j : bitsets k w bs ss -> i < k -> j < k -> i <> j ->
  same_effect bs w [BCombine Or i j; BCombine Xor i j] [BOn j BFlip; BCombine And i j; BOn j BFlip].
Proof. intros B LI LJ NE0. eapply (law2 k w bs ss i j); eauto; try (cbn; auto 9); try reflexivity. clear LI LJ. law i j. Qed.
Lemma again k w bs ss i j g : bitsets k w bs ss -> i < k -> j < k -> g <> Xor ->
  same_effect bs w [BCombine g i j; BCombine g i j] [BCombine g i j].
Proof. intros B LI LJ NE0. eapply (law2 k w bs ss i j); eauto; try (cbn; auto 9); try reflexivity. clear LI LJ. destruct g; [law i j..|congruence]. Qed.
Lemma any_order k w bs ss g i j l : bitsets k w bs ss -> i < k -> j < k -> l < k -> i <> j -> i <> l ->
  same_effect bs w [BCombine g i j; BCombine g i l] [BCombine g i l; BCombine g i j].
Proof.
  intros B LI LJ LL NE NE2. eapply (law2 k w bs ss i j); eauto; try (cbn; auto 9); try reflexivity. clear LI LJ.
  intros n xs m ys L EI EJ. destruct (nnth_exists l ss) as ([q zs] & EL); [lia|].
  pose proof (nnth_lt _ _ _ EI) as LI. pose proof (nnth_lt _ _ _ EJ) as LJ. pose proof (nnth_lt _ _ _ EL) as LL2.
  pose proof (proj2 (N.eqb_neq _ _) (not_eq_sym NE)) as E1. pose proof (proj2 (N.eqb_neq _ _) (not_eq_sym NE2)) as E2.
  split; [look; reflexivity|]. split; [look; reflexivity|]. intros x. look. destruct (N.eqb_spec x i) as [->|]; [|reflexivity].
  destruct g; bits.
Qed.
(** Exchanging and copying. *)
Lemma xor_swap k w bs ss i j n xs m ys : bitsets k w bs ss -> i <> j -> nnth i ss = Some (n, xs) -> nnth j ss = Some (m, ys) ->
  nlen xs = nlen ys ->
  exists bs' w', run_bcalls bs [BCombine Xor i j; BCombine Xor j i; BCombine Xor i j] w = Ok ([ST_SUCCESS; ST_SUCCESS; ST_SUCCESS], bs') w' /\
    Forall2 (raw_shows w') bs' (put_at i (n, ys) (put_at j (m, xs) ss)).
Proof.
  intros B NE EI EJ EL. pose proof (proj2 (bitsets_shows _ _ _ _ B)) as L.
  pose proof (nnth_lt _ _ _ EI) as LI. pose proof (nnth_lt _ _ _ EJ) as LJ.
  destruct (bitsets_run _ _ _ _ [BCombine Xor i j; BCombine Xor j i; BCombine Xor i j] B) as (bs' & w' & E & F); [cbn; lia|reflexivity|].
  pose proof (proj2 (N.eqb_neq _ _) NE) as E1. pose proof (proj2 (N.eqb_neq _ _) (not_eq_sym NE)) as E2.
  exists bs', w'. split; [rewrite E; look; reflexivity|].
  replace (put_at i (n, ys) (put_at j (m, xs) ss)) with (snd (call_steps [BCombine Xor i j; BCombine Xor j i; BCombine Xor i j] ss)); [exact F|].
  apply nnth_ext. intros x. look.
  assert (SAME : forall k, nnth k xs = None <-> nnth k ys = None).
  { intros x0. destruct (N.lt_ge_cases x0 (nlen xs)) as [LT|GE].
    - destruct (nnth_exists x0 xs LT) as (a & ->), (nnth_exists x0 ys) as (b0 & ->); [lia|]. now split.
    - rewrite !nnth_ge by lia. now split. }
  destruct (N.eqb_spec x i) as [->|]; [|destruct (N.eqb_spec x j) as [->|]]; look; try reflexivity;
    (apply some_eq, bits_same; intros z; specialize (SAME z); rewrite !merge_nth;
     destruct (nnth z xs) as [[]|], (nnth z ys) as [[]|]; try reflexivity; (discriminate (proj1 SAME eq_refl) || discriminate (proj2 SAME eq_refl))).
Qed.
Lemma copy_bits k w bs ss i j n xs m ys : bitsets k w bs ss -> i <> j -> nnth i ss = Some (n, xs) -> nnth j ss = Some (m, ys) ->
  exists bs' w', run_bcalls bs [BOn i BResetAll; BCombine Or i j] w = Ok ([ST_SUCCESS; ST_SUCCESS], bs') w' /\
    Forall2 (raw_shows w') bs' (put_at i (n, nfirst (nlen xs) ys ++ zeros (nlen xs - nlen ys)) ss).
Proof.
  intros B NE EI EJ. pose proof (proj2 (bitsets_shows _ _ _ _ B)) as L.
  pose proof (nnth_lt _ _ _ EI) as LI. pose proof (nnth_lt _ _ _ EJ) as LJ.
  destruct (bitsets_run _ _ _ _ [BOn i BResetAll; BCombine Or i j] B) as (bs' & w' & E & F); [cbn; lia|reflexivity|].
  pose proof (proj2 (N.eqb_neq _ _) NE) as E1. pose proof (proj2 (N.eqb_neq _ _) (not_eq_sym NE)) as E2.
  exists bs', w'. split; [rewrite E; look; reflexivity|].
  replace (put_at i (n, nfirst (nlen xs) ys ++ zeros (nlen xs - nlen ys)) ss) with (snd (call_steps [BOn i BResetAll; BCombine Or i j] ss)); [exact F|].
  apply nnth_ext. intros x. look. destruct (N.eqb_spec x i) as [->|]; [|reflexivity]. apply some_eq. clear. revert ys.
  induction xs as [|x xs IH]; intros [|y ys].
  - reflexivity.
  - reflexivity.
  - change (nlen (@nil bool)) with 0. rewrite N.sub_0_r. unfold zeros, nrepeat, nfirst. rewrite firstn_nil. cbn [app map merge_bits].
    unfold nlen. rewrite Nnat.Nat2N.id. cbn [length repeat]. f_equal. clear. induction xs as [|z xs IH]; [reflexivity|]. cbn. now rewrite IH.
  - cbn [map merge_bits orb]. rewrite IH. rewrite !nlen_cons. replace (1 + nlen xs - (1 + nlen ys)) with (nlen xs - nlen ys) by lia.
    unfold nfirst. replace (N.to_nat (1 + nlen xs)) with (Datatypes.S (N.to_nat (nlen xs))) by lia. reflexivity.
Qed.

(** Programs over several bitsets. *)
From Verif Require Import Base NListFacts Status Mem MemFacts VectorModel VectorSpec VectorDriver
  VectorRep VectorProofs VectorProofs2 VectorProofs3 VectorRefine VectorFail VectorMore StringModel StringBytes StringProofs
  BitsetModel BitsetSpec BitsetDriver BitsetBits BitsetProofs BitsetRun BitsetQuery BitsetFinal ExactSpec ExactProofs
  ExactProofs2 ExactProofs3 ViewProofs GateDriver.
From Coq Require Import ZifyBool ZifyNat ZifyN.

Implicit Types (w : Mem.world N) (b : bitset) (v : vector N) (s : raw).

(** ** Replacing an element *)
Lemma put_len {A} i (x : A) l : i < nlen l -> nlen (put_at i x l) = nlen l.
Proof. intros L. unfold put_at. rewrite nlen_app, nlen_cons, nlen_nfirst, nlen_nskip. lia. Qed.
Lemma put_nth {A} i (x : A) l k : i < nlen l -> nnth k (put_at i x l) = if k =? i then Some x else nnth k l.
Proof.
  intros L. unfold put_at. assert (F : nlen (nfirst i l) = i) by (rewrite nlen_nfirst; lia).
  destruct (N.eqb_spec k i) as [->|NE].
  - now apply nnth_mid.
  - destruct (N.lt_ge_cases k i).
    + rewrite nnth_app1 by lia. now apply nnth_nfirst.
    + change (x :: nskip (i + 1) l) with ([x] ++ nskip (i + 1) l). rewrite app_assoc.
      assert (F1 : nlen (nfirst i l ++ [x]) = i + 1) by (rewrite nlen_app, F; reflexivity).
      rewrite nnth_app2 by lia. rewrite nnth_skip_add. f_equal. lia.
Qed.
Lemma nth_snoc {A} (l : list A) x k : nnth k (l ++ [x]) = if k =? nlen l then Some x else nnth k l.
Proof.
  destruct (N.eqb_spec k (nlen l)) as [->|NE]; [now apply nnth_mid|]. destruct (N.lt_ge_cases k (nlen l)).
  - now rewrite nnth_app1.
  - rewrite !nnth_ge; auto. rewrite nlen_app. change (nlen [x]) with 1. lia.
Qed.

(** ** The state of a program *)
Record fam (w0 w : Mem.world N) (bs : list bitset) (ss : list raw) (m : N) : Prop := mkfam {
  f_wf : wfw w;
  f_all : forall t, exists fill, orc w t = AOk fill;
  f_len : nlen bs = nlen ss;
  f_rep : forall i b, nnth i bs = Some b -> exists l s, nnth i ss = Some s /\ yrep w b [] l [] s /\ nlen (snd s) <= m;
  f_own : forall i b, nnth i bs = Some b -> v_alloc (bs_bits b) = true /\ nextb w0 <= blk (bs_bits b);
  f_apart : forall i j b c, i <> j -> nnth i bs = Some b -> nnth j bs = Some c -> blk (bs_bits b) <> blk (bs_bits c);
  f_next : nextb w0 <= nextb w;
  f_else : forall k, (forall i b, nnth i bs = Some b -> blk (bs_bits b) <> k) -> heap w k = heap w0 k
}.
Lemma fam_nil w : wfw w -> (forall t, exists fill, orc w t = AOk fill) -> fam w w [] [] 0.
Proof.
  intros W A. split; auto; try reflexivity; intros i b; try (intros E; rewrite nnth_ge in E by apply N.le_0_l; discriminate).
  intros c d _ E. rewrite nnth_ge in E by apply N.le_0_l. discriminate.
Qed.
Lemma fam_le w0 w bs ss m n : fam w0 w bs ss m -> m <= n -> fam w0 w bs ss n.
Proof.
  intros [] L. split; auto. intros i b E. destruct (f_rep0 i b E) as (l & s & H1 & H2 & H3). exists l, s. split; [exact H1|]. split; [exact H2|lia].
Qed.
Lemma fam_at w0 w bs ss m i : fam w0 w bs ss m -> i < nlen ss -> exists b l s,
  nnth i bs = Some b /\ nnth i ss = Some s /\ yrep w b [] l [] s /\ nlen (snd s) <= m.
Proof.
  intros F L. rewrite <- (f_len _ _ _ _ _ F) in L. destruct (nnth_exists i bs L) as (b & E).
  destruct (f_rep _ _ _ _ _ F i b E) as (l & s & H). exists b, l, s. now split.
Qed.
(** A bitset changed by a call. *)
Lemma fam_step w0 w bs ss m i b w' b' l' s' : wfw w0 -> fam w0 w bs ss m -> nnth i bs = Some b ->
  yrep w' b' [] l' [] s' -> nlen (snd s') <= m -> bgood w (bs_bits b) w' (bs_bits b') [] l' [] ->
  fam w0 w' (put_at i b' bs) (put_at i s' ss) m.
Proof.
  intros W0 F E Y LS G. pose proof G as [GR GC GF GK]. pose proof (nnth_lt _ _ _ E) as L.
  pose proof (f_len _ _ _ _ _ F) as FL. assert (L2 : i < nlen ss) by lia.
  destruct (f_own _ _ _ _ _ F i b E) as (AL & OB).
  assert (OB' : nextb w0 <= blk (bs_bits b')).
  { destruct (N.eq_dec (blk (bs_bits b')) (blk (bs_bits b))) as [->|NE]; [exact OB|]. destruct (fr_old _ _ _ _ GF NE) as (_ & _ & H).
    pose proof (f_next _ _ _ _ _ F). lia. }
  assert (OTHER : forall j c, j <> i -> nnth j bs = Some c -> exists l s, nnth j ss = Some s /\ yrep w' c [] l [] s /\
    nlen (snd s) <= m /\ blk (bs_bits c) <> blk (bs_bits b')).
  { intros j c NE EC. destruct (f_rep _ _ _ _ _ F j c EC) as (l & s & H1 & H2 & H3).
    destruct (brep_other w (bs_bits c) [] l [] (bs_bits b) w' (bs_bits b') [] l' []) as [R' NB]; auto; [apply H2|eapply f_apart; eauto|].
    exists l, s. split; [exact H1|]. split; [destruct H2; now split|]. now split. }
  split.
  - apply (brep_wf _ _ _ _ _ GR).
  - intros t. rewrite (fr_orc _ _ _ _ GF). eapply f_all; eauto.
  - now rewrite !put_len.
  - intros j c. rewrite !put_nth by assumption. destruct (N.eqb_spec j i) as [->|NE].
    + intros [= <-]. exists l', s'. now split.
    + intros EC. destruct (OTHER j c NE EC) as (l & s & H1 & H2 & H3 & _). exists l, s. now split.
  - intros j c. rewrite put_nth by assumption. destruct (N.eqb_spec j i) as [->|NE]; [intros [= <-]|eapply f_own; eauto].
    split; [|exact OB']. destruct GC. congruence.
  - intros j k c d NE. rewrite !put_nth by assumption. destruct (N.eqb_spec j i) as [->|NJ], (N.eqb_spec k i) as [->|NK].
    + now destruct NE.
    + intros [= <-] ED EQ. destruct (OTHER k d NK ED) as (? & ? & _ & _ & _ & H). now apply H.
    + intros EC [= <-]. destruct (OTHER j c NJ EC) as (? & ? & _ & _ & _ & H). exact H.
    + eapply f_apart; eauto.
  - pose proof (f_next _ _ _ _ _ F) as K1. pose proof (fr_next _ _ _ _ GF). lia.
  - intros k H. assert (NB : blk (bs_bits b') <> k).
    { apply (H i). rewrite put_nth, N.eqb_refl by assumption. reflexivity. }
    destruct (N.eq_dec k (blk (bs_bits b))) as [->|NE].
    + destruct (fr_old _ _ _ _ GF NB) as (_ & -> & _). symmetry. apply W0. exact OB.
    + rewrite (fr_heap _ _ _ _ GF) by congruence. apply (f_else _ _ _ _ _ F). intros j c EC.
      destruct (N.eq_dec j i) as [->|NJ]; [rewrite E in EC; injection EC as <-; congruence|].
      apply (H j). rewrite put_nth by assumption. now destruct (N.eqb_spec j i).
Qed.
Lemma put_same {A} i (x : A) l : nnth i l = Some x -> put_at i x l = l.
Proof.
  intros E. pose proof (nnth_lt _ _ _ E). apply nnth_ext. intros k. rewrite put_nth by assumption.
  now destruct (N.eqb_spec k i) as [->|].
Qed.
Lemma fam_new w0 w bs ss m w' v n : wfw w0 -> fam w0 w bs ss m -> 8 * whole_bytes n <= m ->
  yrep w' (mkbitset n v) [] (repeat 0 (N.to_nat (whole_bytes n))) [] (raw_init n) -> v_alloc v = true -> nextb w <= blk v ->
  nextb w <= nextb w' -> orc w' = orc w -> (forall k, k <> blk v -> heap w' k = heap w k) ->
  fam w0 w' (bs ++ [mkbitset n v]) (ss ++ [raw_init n]) m.
Proof.
  intros W0 F LM Y AL NB NX OR HP. pose proof (f_len _ _ _ _ _ F) as FL. pose proof (brep_wf _ _ _ _ _ (y_rep _ _ _ _ _ _ Y)) as W'.
  assert (OTHER : forall j c, nnth j bs = Some c -> exists l s, nnth j ss = Some s /\ yrep w' c [] l [] s /\
    nlen (snd s) <= m /\ blk (bs_bits c) < blk v).
  { intros j c EC. destruct (f_rep _ _ _ _ _ F j c EC) as (l & s & H1 & H2 & H3).
    pose proof (brep_lt _ _ _ _ _ (y_rep _ _ _ _ _ _ H2)) as LT. exists l, s. split; [exact H1|]. split; [|split; [exact H3|lia]].
    destruct H2 as [R B S0 WD H]. split; auto. apply (brep_heap_eq _ _ _ _ _ w' R); auto. apply HP. lia. }
  pose proof (f_next _ _ _ _ _ F) as FN.
  split.
  - exact W'.
  - intros t. rewrite OR. eapply f_all; eauto.
  - rewrite !nlen_app, FL. reflexivity.
  - intros j c. rewrite !nth_snoc, FL. destruct (N.eqb_spec j (nlen ss)) as [->|NE].
    + intros [= <-]. eexists _, _. split; [reflexivity|]. split; [exact Y|]. now rewrite nlen_raw_init.
    + intros EC. destruct (OTHER j c EC) as (l & s & H1 & H2 & H3 & _). exists l, s. now split.
  - intros j c. rewrite nth_snoc. destruct (N.eqb_spec j (nlen bs)) as [->|NE]; [intros [= <-]|eapply f_own; eauto].
    split; [exact AL|]. cbn [bs_bits]. lia.
  - intros j k c d NE. rewrite !nth_snoc. destruct (N.eqb_spec j (nlen bs)) as [->|NJ], (N.eqb_spec k (nlen bs)) as [->|NK].
    + now destruct NE.
    + intros [= <-] ED. destruct (OTHER k d ED) as (? & ? & _ & _ & _ & H). cbn [bs_bits]. lia.
    + intros EC [= <-]. destruct (OTHER j c EC) as (? & ? & _ & _ & _ & H). cbn [bs_bits]. lia.
    + eapply f_apart; eauto.
  - lia.
  - intros k H. assert (NK : blk v <> k).
    { apply (H (nlen bs) (mkbitset n v)). rewrite nth_snoc, N.eqb_refl. reflexivity. }
    rewrite HP by congruence. apply (f_else _ _ _ _ _ F). intros j c EC. apply (H j). rewrite nth_snoc.
    destruct (N.eqb_spec j (nlen bs)) as [->|]; [|exact EC]. pose proof (nnth_lt _ _ _ EC). lia.
Qed.
Definition gate_op (g : gate) := match g with And => op_and | Or => op_or | Xor => op_xor end.
Lemma gate_bytewise g : bytewise (gate_op g) (gate_fun g).
Proof. destruct g; [apply and_bytewise|apply or_bytewise|apply xor_bytewise]. Qed.
Lemma gate_eq g : gate_call g = bs_byte_op (gate_op g).
Proof. now destruct g. Qed.
Lemma merge_self f xs : merge_bits f xs xs = map (fun x => f x x) xs.
Proof. induction xs as [|x xs IH]; [reflexivity|]. cbn. now rewrite IH. Qed.
Lemma fam_combine w0 w bs ss m g i j : wfw w0 -> fam w0 w bs ss m -> i < nlen ss -> j < nlen ss ->
  exists w', run_bcall bs (BCombine g i j) w = Ok (fst (call_step (BCombine g i j) ss), bs) w' /\
    fst (call_step (BCombine g i j) ss) = ST_SUCCESS /\
    fam w0 w' bs (snd (call_step (BCombine g i j) ss)) m.
Proof.
  intros W0 F LI LJ. destruct (fam_at _ _ _ _ _ i F LI) as (b & l & s & EB & ES & Y & LS).
  destruct (fam_at _ _ _ _ _ j F LJ) as (c & l2 & t & EC & ET & Y2 & _).
  cbn [run_bcall call_step]. rewrite EB, EC, ES, ET. cbn [fst snd]. rewrite gate_eq.
  pose proof Y as [R B S0 WD HB]. pose proof Y2 as [R2 B2 _ _ HB2]. pose proof (gate_bytewise g) as OP.
  assert (H : exists w' l', bs_byte_op (gate_op g) b c w = Ok ST_SUCCESS w' /\ bgood w (bs_bits b) w' (bs_bits b) [] l' [] /\
    Forall isbyte l' /\ bits_of l' = merge_bits (gate_fun g) (snd s) (snd t)).
  { destruct (N.eq_dec i j) as [<-|NE].
    - rewrite EB in EC. injection EC as <-. rewrite ES in ET. injection ET as <-.
      destruct (self_loop (gate_op g) (gate_fun g) b [] [] OP l w [] R B) as (w' & E & G). unfold bs_byte_op.
      rewrite (brep_size _ _ _ _ _ R). replace (N.to_nat (N.min (nlen l) (nlen l))) with (length l) by (unfold nlen; lia).
      cbn [app] in G. exists w', (map (fun x => snd (gate_op g x x)) l). split; [exact E|]. split; [exact G|]. split.
      + apply Forall_forall. intros y IY. apply in_map_iff in IY as (x & <- & IX). rewrite Forall_forall in B.
        specialize (B _ IX). now apply OP.
      + rewrite merge_self, HB. apply map_bits_of; [|exact B]. intros x k LX _. now apply OP.
    - assert (NB : blk (bs_bits c) <> blk (bs_bits b)) by (eapply f_apart; [exact F| |exact EC|exact EB]; congruence).
      destruct (zip_loop (gate_op g) (gate_fun g) b c [] [] [] [] OP NB l l2 w [] [] eq_refl R R2 B B2) as (w' & E & G).
      unfold bs_byte_op. rewrite (brep_size _ _ _ _ _ R), (brep_size _ _ _ _ _ R2).
      replace (N.to_nat (N.min (nlen l) (nlen l2))) with (Nat.min (length l) (length l2)) by (unfold nlen; lia).
      cbn [app] in *. exists w', (zip (gate_op g) l l2). split; [exact E|]. split; [exact G|]. split; [eapply zip_bytes; eauto|].
      rewrite HB, HB2. now apply zip_merge. }
  destruct H as (w' & l' & E & G & B' & HB'). exists w'. split; [now rewrite (bind_ok _ _ _ _ _ E)|]. split; [reflexivity|].
  rewrite <- (put_same i b bs EB) at 1. eapply fam_step; [exact W0|exact F|exact EB| | |exact G].
  - split; [apply G|exact B'|exact S0|exact WD|]. cbn [snd]. now rewrite HB'.
  - cbn [snd]. now rewrite merge_len.
Qed.

(** ** One call *)
Definition need1 (c : bcall) : N := calls_need [c].
Definition ok1 (k : N) (c : bcall) : Prop := calls_ok k [c].
Definition count1 (k : N) (c : bcall) : N := match c with BNew _ _ _ => k + 1 | _ => k end.
Lemma calls_ok_cons k c cs : calls_ok k (c :: cs) <-> ok1 k c /\ calls_ok (count1 k c) cs.
Proof. destruct c; unfold ok1; cbn [calls_ok count1]; intuition. Qed.
Lemma calls_need_cons c cs : calls_need (c :: cs) = need1 c + calls_need cs.
Proof. destruct c; unfold need1; cbn [calls_need]; lia. Qed.
Lemma call_steps_cons c cs ss : call_steps (c :: cs) ss =
  (fst (call_step c ss) :: fst (call_steps cs (snd (call_step c ss))), snd (call_steps cs (snd (call_step c ss)))).
Proof. cbn [call_steps]. destruct (call_step c ss) as [r s1]. cbn [fst snd]. now destruct (call_steps cs s1). Qed.
Lemma call_count c ss : ok1 (nlen ss) c -> nlen (snd (call_step c ss)) = count1 (nlen ss) c.
Proof.
  destruct c; cbn [call_step count1].
  - intros _. cbn [snd]. now rewrite nlen_app.
  - intros (L & _). destruct (nnth_exists i ss L) as (s & E). rewrite E. destruct (raw_step None o s). cbn [snd]. now apply put_len.
  - intros (L & L2 & _). destruct (nnth_exists i ss L) as (s & E), (nnth_exists j ss L2) as (t & E2). rewrite E, E2. cbn [snd]. now apply put_len.
Qed.
Lemma fam_call w0 w bs ss m c : wfw w0 -> fam w0 w bs ss m -> ok1 (nlen ss) c -> bitroom (m + need1 c) ->
  exists bs' w', run_bcall bs c w = Ok (fst (call_step c ss), bs') w' /\ fam w0 w' bs' (snd (call_step c ss)) (m + need1 c).
Proof.
  intros W0 F OK RM. pose proof (f_all _ _ _ _ _ F) as A. destruct c as [n g t|i o|g i j]; cbn [ok1] in OK.
  - destruct OK as (LN & LG & LT & _). destruct (any_init w n g t) as (w' & v & E & Y & NF & AL & B1 & B2 & OR & HP).
    { split; [apply (f_wf _ _ _ _ _ F)|]. now split. }
    cbn [run_bcall call_step fst snd]. rewrite (bind_ok _ _ _ _ _ E). eexists _, w'. split; [reflexivity|].
    unfold need1 in *. cbn [calls_need] in *. eapply fam_new; eauto; [|lia]. eapply fam_le; [exact F|lia].
  - destruct OK as (LI & _). destruct (fam_at _ _ _ _ _ i F LI) as (b & l & s & EB & ES & Y & LS).
    destruct (f_own _ _ _ _ _ F i b EB) as (AL & _).
    assert (LEN : nlen (snd s) = 8 * nlen l) by (rewrite (y_bits _ _ _ _ _ _ Y); apply nlen_bits_of).
    destruct (ystep o w b [] l [] s Y) as (w' & b' & l' & E & Y' & G).
    { intros _. apply A. }
    { assert (R1 : bitroom (8 * nlen l)) by (eapply bitroom_le; [|exact RM]; lia). unfold bitroom in R1.
      rewrite (N.mul_comm 8), N.div_mul in R1 by discriminate. exact R1. }
    rewrite (limit_none _ AL) in *. cbn [run_bcall call_step]. rewrite EB, ES, (bind_ok _ _ _ _ _ E).
    pose proof (raw_step_len None o s) as SL. destruct (raw_step None o s) as [r s1]. cbn [fst snd] in *.
    eexists _, w'. split; [reflexivity|]. eapply fam_step; [exact W0|eapply fam_le; [exact F|lia]|exact EB|exact Y'| |exact G].
    unfold need1. cbn [calls_need]. lia.
  - destruct OK as (LI & LJ & _). destruct (fam_combine w0 w bs ss m g i j W0 F LI LJ) as (w' & E & _ & F').
    exists bs, w'. split; [exact E|]. eapply fam_le; [exact F'|lia].
Qed.
Lemma fam_calls w0 cs : wfw w0 -> forall w bs ss m, fam w0 w bs ss m -> calls_ok (nlen ss) cs -> bitroom (m + calls_need cs) ->
  exists bs' w', run_bcalls bs cs w = Ok (fst (call_steps cs ss), bs') w' /\
    fam w0 w' bs' (snd (call_steps cs ss)) (m + calls_need cs).
Proof.
  intros W0. induction cs as [|c cs IH]; intros w bs ss m F OK RM.
  - exists bs, w. split; [reflexivity|]. cbn [calls_need call_steps snd]. now rewrite N.add_0_r.
  - apply calls_ok_cons in OK as [OK1 OK]. rewrite calls_need_cons, N.add_assoc in RM.
    destruct (fam_call w0 w bs ss m c W0 F OK1) as (bs1 & w1 & E1 & F1); [eapply bitroom_le; [|exact RM]; lia|].
    rewrite <- (call_count c ss OK1) in OK. destruct (IH w1 bs1 _ _ F1 OK RM) as (bs2 & w2 & E2 & F2).
    exists bs2, w2. rewrite call_steps_cons, calls_need_cons. cbn [fst snd run_bcalls].
    rewrite (bind_ok _ _ _ _ _ E1), (bind_ok _ _ _ _ _ E2). split; [reflexivity|]. now rewrite N.add_assoc.
Qed.
Lemma fam_shows w0 w bs ss m : fam w0 w bs ss m -> bitroom m -> Forall2 (raw_shows w) bs ss.
Proof.
  intros F RM. assert (G : forall bs ss, nlen bs = nlen ss -> (forall i b, nnth i bs = Some b -> exists s, nnth i ss = Some s /\ raw_shows w b s) ->
    Forall2 (raw_shows w) bs ss).
  { clear. induction bs as [|b bs IH]; intros [|s ss] L H; try (rewrite ?nlen_cons in L; change (nlen (@nil bitset)) with 0 in L; change (nlen (@nil raw)) with 0 in L; lia); constructor.
    - destruct (H 0 b eq_refl) as (s' & E & R). change (nnth 0 (s :: ss)) with (Some s) in E. now injection E as <-.
    - apply IH; [rewrite !nlen_cons in L; lia|]. intros i c E. destruct (H (i + 1) c) as (s' & E2 & R).
      + change (b :: bs) with ([b] ++ bs). rewrite nnth_app2; change (nlen [b]) with 1; [|lia]. now rewrite N.add_sub.
      + exists s'. split; [|exact R]. change (s :: ss) with ([s] ++ ss) in E2. rewrite nnth_app2 in E2; change (nlen [s]) with 1 in *; [|lia].
        now rewrite N.add_sub in E2. }
  apply G; [apply F|]. intros i b E. destruct (f_rep _ _ _ _ _ F i b E) as (l & s & H1 & H2 & H3). exists s. split; [exact H1|].
  eapply yshows; [exact H2|]. eapply yroom; eauto.
Qed.
Lemma destroy_rest w v pre l post r w' : brep w v pre l post -> v_alloc v = true -> vdestroy v w = Ok r w' ->
  orc w' = orc w /\ nextb w' = nextb w.
Proof.
  intros R AL. pose proof R as (R0 & _ & DT). unfold vdestroy, destroy_range. rewrite (bind_ok _ _ _ _ _ (rep_assert_valid _ _ _ _ _ R0)).
  rewrite DT, AL. cbn [andb].
  assert (K : forall st x, dealloc (v_data v) (v_esz v) (v_cap v) w = Ok st x -> orc x = orc w /\ nextb x = nextb w).
  { intros st x. unfold dealloc.
    repeat match goal with |- context [match ?x with _ => _ end] => destruct x end; intros E; try discriminate E; injection E as _ <-; now split. }
  unfold bind at 1. cbn [ret]. unfold ret at 1. destruct (v_cap v =? 0); cbn [negb].
  - intros E. injection E as _ <-. now split.
  - unfold bind. destruct (dealloc (v_data v) (v_esz v) (v_cap v) w) as [st x|] eqn:E; [|discriminate].
    destruct (st_success st); intros H; injection H as _ <-; exact (K _ _ eq_refl).
Qed.
Lemma fam_destroy w0 m : wfw w0 -> forall bs w ss, fam w0 w bs ss m ->
  exists w', destroy_all bs w = Ok (map (fun _ => ST_SUCCESS) bs) w' /\ forall k, heap w' k = heap w0 k.
Proof.
  intros W0. induction bs as [|b bs IH]; intros w ss F.
  - exists w. split; [reflexivity|]. intros k. apply (f_else _ _ _ _ _ F). intros i b E.
    rewrite nnth_ge in E by apply N.le_0_l. discriminate.
  - destruct (f_rep _ _ _ _ _ F 0 b eq_refl) as (l & s & E0 & Y & LS). destruct (f_own _ _ _ _ _ F 0 b eq_refl) as (AL & OB).
    pose proof Y as [R _ _ _ _].
    destruct (destroy_ok w (bs_bits b) [] (cells l) [] (proj1 R)) as (w1 & D & _ & D1 & _ & D2).
    pose proof (f_wf _ _ _ _ _ F) as W.
    destruct ss as [|s0 ss]; [discriminate|].
    assert (UP : forall A (x : A) xs i, nnth (i + 1) (x :: xs) = nnth i xs).
    { intros A x xs i. change (x :: xs) with ([x] ++ xs). rewrite nnth_app2; change (nlen [x]) with 1; [|lia]. now rewrite N.add_sub. }
    assert (OD : orc w1 = orc w /\ nextb w1 = nextb w) by exact (destroy_rest _ _ _ _ _ _ _ R AL D).
    assert (W1 : wfw w1).
    { intros k L. destruct (N.eq_dec k (blk (bs_bits b))) as [->|NE]; [now apply D1|]. rewrite D2 by exact NE. apply W. lia. }
    assert (F1 : fam w0 w1 bs ss m).
    { pose proof (f_len _ _ _ _ _ F) as FL. rewrite !nlen_cons in FL. split.
      - exact W1.
      - intros t. rewrite (proj1 OD). eapply f_all; eauto.
      - lia.
      - intros i c E. rewrite <- (UP _ b) in E. destruct (f_rep _ _ _ _ _ F _ c E) as (l2 & s2 & H1 & H2 & H3). rewrite UP in H1.
        exists l2, s2. split; [exact H1|]. split; [|exact H3]. destruct H2 as [R2 B2 S2 WD2 HB2]. split; auto.
        apply (brep_heap_eq _ _ _ _ _ w1 R2 W1); [apply OD|]. apply D2. eapply (f_apart _ _ _ _ _ F (i + 1) 0); [lia|exact E|reflexivity].
      - intros i c E. rewrite <- (UP _ b) in E. eapply f_own; eauto.
      - intros i j c d NE E1 E2. rewrite <- (UP _ b) in E1, E2. eapply (f_apart _ _ _ _ _ F (i + 1) (j + 1)); eauto. lia.
      - rewrite (proj2 OD). apply (f_next _ _ _ _ _ F).
      - intros k H. destruct (N.eq_dec k (blk (bs_bits b))) as [->|NE].
        + rewrite (D1 AL). symmetry. apply W0. exact OB.
        + rewrite (D2 _ NE). apply (f_else _ _ _ _ _ F). intros i c E. destruct (N.eq_dec i 0) as [->|NI].
          * injection E as <-. congruence.
          * apply (H (i - 1)). rewrite <- (UP _ b). now replace (i - 1 + 1) with i by lia. }
    destruct (IH w1 ss F1) as (w2 & E2 & H2). exists w2. split; [|exact H2]. cbn [destroy_all map].
    assert (D0 : bs_destroy b w = Ok (ST_SUCCESS, mkbitset (bs_size b) (idle (bs_bits b))) w1) by (unfold bs_destroy; now rewrite (bind_ok _ _ _ _ _ D)).
    rewrite (bind_ok _ _ _ _ _ D0). now rewrite (bind_ok _ _ _ _ _ E2).
Qed.

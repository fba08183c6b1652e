(** Proofs about alignment. *)
From Coq Require Import Permutation.
From Verif Require Import Base NListFacts Status Mem MemFacts VectorModel VectorSpec VectorDriver VectorRep VectorProofs VectorMore.
From Verif Require Import ListModel ListSpec ListDriver ListHeap ListRep ListProofs ListFinal ListFinal2 AlignSpec.
From Coq Require Import ZifyBool ZifyNat ZifyN.

Lemma mod0 a x : a <> 0 -> x mod a = 0 -> exists k, x = k * a.
Proof. intros A H. exists (x / a). pose proof (N.div_mod x a A). lia. Qed.
Lemma mod0_of a k : a <> 0 -> (k * a) mod a = 0.
Proof. apply N.mod_mul. Qed.
Lemma node_data_addr p : lget_node_data (Some p) = Some (mkptr (pb p) (po p + 16)).
Proof. reflexivity. Qed.

Lemma growable_aligned w0 e d l0 w1 ops rs l (w : Mem.world cell) ps xs addr a : linit_args_ok w0 e d ->
  linit_ex e d true w0 = Ok (ST_SUCCESS, Some l0) w1 ->
  Forall (larg_ok e) ops -> ldemands ops < W64 -> run_lops l0 ops w1 = Ok (rs, l) w -> lshows w l ps xs ->
  a <> 0 -> aligned a 16 -> (forall b, aligned a (addr b)) -> Forall (node_aligned addr a) ps.
Proof.
  intros A E AO DW R SH A0 A16 AB. destruct (init_rep _ _ _ A) as (l1 & E1 & REP). rewrite E in E1. injection E1 as -> ->.
  destruct (run_lops_ok e d _ _ ops w0 l1 [] [] [] REP AO) as (w' & l' & rs' & ps' & us & xs' & gone & new & R' & SP & REP' & S); [exact DW|].
  rewrite R in R'. injection R' as _ -> ->. destruct (shows_unique _ _ _ _ _ _ SH (lrep_shows _ _ _ _ _ _ _ _ _ REP')) as [-> ->].
  destruct REP' as (_ & _ & _ & _ & _ & _ & _ & (_ & _ & _ & P & _)). apply Forall_forall. intros p I.
  destruct (P p I) as (P0 & _). destruct (mod0 _ _ A0 A16) as (k & K). destruct (mod0 _ _ A0 (AB (pb p))) as (j & J).
  unfold node_aligned, aligned, address. rewrite node_data_addr. rewrite P0, J. split.
  - rewrite N.add_0_r. now apply mod0_of.
  - eexists. split; [reflexivity|]. cbn [pb po]. rewrite J. replace (j * a + (0 + 16)) with ((j + k) * a) by lia. now apply mod0_of.
Qed.

Lemma fixed_aligned w0 e d cap b pre buf post l0 w1 ops rs l w ps xs addr a : lbuffer_args_ok w0 e d cap b pre buf post ->
  linit_custom e d (Some (mkptr b (nlen pre))) cap w0 = Ok (ST_SUCCESS, Some l0) w1 ->
  Forall (larg_ok e) ops -> ldemands ops < W64 -> run_lops l0 ops w1 = Ok (rs, l) w -> lshows w l ps xs ->
  a <> 0 -> aligned a 16 -> aligned a e -> aligned a (addr b + nlen pre) -> Forall (node_aligned addr a) ps.
Proof.
  intros A E AO DW R SH A0 A16 AE AB. destruct (fixed_slots _ _ _ _ _ _ _ _ _ _ _ _ _ _ _ _ A E AO DW R SH) as (_ & F & _).
  eapply Forall_impl; [|exact F]. intros p (i & _ & -> & _). unfold node_aligned, aligned, address. rewrite node_data_addr.
  destruct (mod0 _ _ A0 A16) as (k & K). destruct (mod0 _ _ A0 AE) as (n & NE). destruct (mod0 _ _ A0 AB) as (j & J).
  cbn [slot pb po]. unfold NODE_SIZE. split.
  - replace (addr b + (nlen pre + i * (16 + e))) with ((j + i * (k + n)) * a) by nia. now apply mod0_of.
  - eexists. split; [reflexivity|]. cbn [pb po]. replace (addr b + (nlen pre + i * (16 + e) + 16)) with ((j + i * (k + n) + k) * a) by nia. now apply mod0_of.
Qed.

Lemma full_misaligned w0 e d cap b pre buf post l0 w1 ops rs l w ps xs addr a : lbuffer_args_ok w0 e d cap b pre buf post ->
  linit_custom e d (Some (mkptr b (nlen pre))) cap w0 = Ok (ST_SUCCESS, Some l0) w1 ->
  Forall (larg_ok e) ops -> ldemands ops < W64 -> run_lops l0 ops w1 = Ok (rs, l) w -> lshows w l ps xs ->
  a <> 0 -> aligned a 16 -> ~ aligned a e -> aligned a (addr b + nlen pre) -> 2 <= nodes_in cap e -> nlen xs = nodes_in cap e ->
  exists p, In p ps /\ ~ aligned a (address addr p).
Proof.
  intros A E AO DW R SH A0 A16 AE AB N2 FU. destruct (fixed_slots _ _ _ _ _ _ _ _ _ _ _ _ _ _ _ _ A E AO DW R SH) as (ND & F & _).
  exists (slot b (nlen pre) e 1). split.
  - set (sl := map (fun i => slot b (nlen pre) e (N.of_nat i)) (seq 0 (N.to_nat (nodes_in cap e)))).
    assert (I : incl sl ps).
    { apply NoDup_length_incl; [exact ND| |].
      - unfold sl. rewrite map_length, seq_length. destruct SH as (LE & _). rewrite LE. unfold nlen in FU. lia.
      - intros p IP. rewrite Forall_forall in F. destruct (F p IP) as (i & LI & -> & _). unfold sl. apply in_map_iff.
        exists (N.to_nat i). rewrite N2Nat.id. split; [reflexivity|]. apply in_seq. lia. }
    apply I. unfold sl. apply in_map_iff. exists 1%nat. split; [reflexivity|]. apply in_seq. lia.
  - unfold aligned, address in *. cbn [slot pb po]. unfold NODE_SIZE. intros X. apply AE.
    destruct (mod0 _ _ A0 A16) as (k & K). destruct (mod0 _ _ A0 AB) as (j & J). destruct (mod0 _ _ A0 X) as (n & NE).
    replace e with ((n - j - k) * a) by nia. now apply mod0_of.
Qed.

Lemma full_misaligned8 w0 e d cap b pre buf post l0 w1 ops rs l w ps xs addr : lbuffer_args_ok w0 e d cap b pre buf post ->
  linit_custom e d (Some (mkptr b (nlen pre))) cap w0 = Ok (ST_SUCCESS, Some l0) w1 ->
  Forall (larg_ok e) ops -> ldemands ops < W64 -> run_lops l0 ops w1 = Ok (rs, l) w -> lshows w l ps xs ->
  aligned POINTER_ALIGNMENT (addr b + nlen pre) -> ~ aligned POINTER_ALIGNMENT e ->
  2 <= nodes_in cap e -> nlen xs = nodes_in cap e ->
  exists p, In p ps /\ ~ aligned POINTER_ALIGNMENT (address addr p).
Proof.
  intros A E AO DW R SH AB AE N2 FU.
  exact (full_misaligned _ _ _ _ _ _ _ _ _ _ _ _ _ _ _ _ _ POINTER_ALIGNMENT A E AO DW R SH ltac:(discriminate) eq_refl AE AB N2 FU).
Qed.

Section V.
  Context {C : Type}.
  Lemma vget_where w (v : vector C) pre xs post i : vrep w v pre xs post -> i < nlen xs ->
    vget v i w = Ok (Some (mkptr (blk v) (nlen pre + i * v_esz v))) w.
  Proof.
    intros R L. unfold vget. pose proof (r_size _ _ _ _ _ R) as SZ. pose proof (r_le _ _ _ _ _ R) as LE. rewrite SZ.
    destruct (N.leb_spec (nlen xs) i); [lia|]. rewrite (bind_ok _ _ _ _ _ (rep_assert_valid _ _ _ _ _ R)).
    now rewrite (rep_offset _ _ _ _ _ i R) by lia.
  Qed.
  Lemma own_vector_aligned w (v : vector C) xs addr a i : reached_own w v xs -> i < nlen xs ->
    a <> 0 -> aligned a (v_esz v) -> (forall b, aligned a (addr b)) ->
    exists p, vget v i w = Ok (Some p) w /\ aligned a (address addr p).
  Proof.
    intros R L A0 AE AB. destruct (reached_own_rep _ _ _ R) as (RP & _). rewrite (vget_where _ _ _ _ _ _ RP L).
    eexists. split; [reflexivity|]. unfold aligned, address in *. cbn [pb po]. change (nlen (@nil C)) with 0.
    destruct (mod0 _ _ A0 AE) as (k & K). destruct (mod0 _ _ A0 (AB (blk v))) as (j & J). rewrite K, J.
    replace (j * a + (0 + i * (k * a))) with ((j + i * k) * a) by lia. now apply mod0_of.
  Qed.
  Lemma buffer_vector_aligned w0 e cap d b pre buf post v0 w1 ops rs (v : vector C) w xs addr a i :
    buffer_args_ok w0 e cap d b pre buf post -> Forall (arg_ok e) ops -> room (demands ops) e ->
    vinit_custom e (Some (mkptr b (nlen pre))) cap d w0 = Ok (ST_SUCCESS, Some v0) w1 ->
    run_ops v0 ops w1 = Ok (rs, v) w -> shows w v xs -> i < nlen xs ->
    a <> 0 -> aligned a e -> aligned a (addr b + nlen pre) ->
    exists p, vget v i w = Ok (Some p) w /\ aligned a (address addr p).
  Proof.
    intros I A RM E ER SH L A0 AE AB. destruct (buf_run w0 e cap d b pre buf post ops I A RM) as
        (v0' & rs' & v' & w' & xs' & buf' & E' & ER' & _ & R & F & CF & BK & _).
    rewrite E in E'. inv E'. rewrite ER in ER'. inv ER'. pose proof (rep_shows_eq _ _ _ _ _ _ R SH) as ->.
    rewrite (vget_where _ _ _ _ _ _ R L). eexists. split; [reflexivity|]. unfold aligned, address in *. cbn [pb po].
    unfold cfg_of in CF. injection CF as _ _ _ CE _. rewrite CE.
    destruct (mod0 _ _ A0 AE) as (k & K). destruct (mod0 _ _ A0 AB) as (j & J). rewrite K, N.add_assoc, J.
    replace (j * a + i * (k * a)) with ((j + i * k) * a) by lia. now apply mod0_of.
  Qed.
End V.

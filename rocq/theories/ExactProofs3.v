(** What the exact bitset machine implies for all bitsets. *)
From Verif Require Import Base NListFacts Status Mem MemFacts VectorModel VectorSpec VectorDriver
  VectorRep VectorProofs VectorProofs2 VectorProofs3 VectorRefine VectorFail StringModel StringBytes StringProofs BitsetModel BitsetSpec BitsetDriver BitsetBits BitsetProofs BitsetRun BitsetQuery BitsetFinal ExactSpec ExactProofs ExactProofs2.
From Coq Require Import ZifyBool ZifyNat ZifyN.

Implicit Types (w : Mem.world N) (b : bitset) (s : raw).

Lemma raw_eta limit n cs o : raw_steps limit [o] (n, cs) =
  ([fst (raw_step limit o (n, cs))], snd (raw_step limit o (n, cs))).
Proof. unfold raw_steps. now destruct (raw_step limit o (n, cs)). Qed.
Lemma whole_le n : whole_bytes n <= n / 8.
Proof.
  unfold whole_bytes. destruct (N.ltb_spec (n / 8) W32); [lia|].
  pose proof (N.mod_lt (n / 8 + 1) W32 ltac:(discriminate)). lia.
Qed.

(** Init is one of the reached bitsets. *)
Lemma init_reached w n g t : any_init_args w n g t -> bitroom (8 * whole_bytes n) -> exists b w',
  with_zero (fun z => bs_init_ex z n true g t) w = Ok (ST_SUCCESS, Some b) w' /\ raw_reached None w' b (raw_init n).
Proof.
  intros A RM. destruct (any_init w n g t A) as (w1 & v & E & _). eexists _, w1. split; [exact E|].
  exists w. exists n, [], (mkbitset n v), w1, []. split; [now exists g, t|]. split; [now rewrite N.add_0_r|]. now split.
Qed.
Lemma whole_room n : bitroom (8 * whole_bytes n).
Proof.
  unfold bitroom. pose proof (whole_lt n). rewrite (N.mul_comm 8), N.div_mul by discriminate.
  change W32 with 4294967296 in *. change W64 with 18446744073709551616. lia.
Qed.
Lemma reached_shows limit w b s : raw_reached limit w b s -> raw_shows w b s.
Proof.
  intros (w0 & H). apply raw_built_rep in H as (pre & l & post & Y & NF & _ & RM & _).
  eapply yshows; [exact Y|]. eapply yroom; [exact Y|apply N.le_refl|exact RM].
Qed.
Lemma reached_both limit w b s : raw_reached limit w b s -> raw_behaves limit w b s /\ raw_shows w b s.
Proof. intros H. split; [exact (reached_behaves _ _ _ _ H)|exact (reached_shows _ _ _ _ H)]. Qed.
Lemma reached_room limit w b s : raw_reached limit w b s -> fst s < W64 /\ nlen (snd s) mod 8 = 0.
Proof.
  intros (w0 & H). apply raw_built_rep in H as (pre & l & post & [_ _ _ Y ->] & _). split; [exact Y|].
  rewrite nlen_bits_of, N.mul_comm. now apply N.mod_mul.
Qed.

Lemma reached_bitroom limit w b s : raw_reached limit w b s -> bitroom (nlen (snd s)).
Proof. intros (w0 & H). apply raw_built_rep in H as (pre & l & post & _ & _ & _ & RM & _). exact RM. Qed.
(** Every state of the machine within the bounds is reached. *)
Lemma raw_reach w0 n g t ops : any_init_args w0 n g t -> bitroom (8 * whole_bytes n + 8 * pushes ops) ->
  exists w b, raw_built None w0 w b (snd (raw_steps None ops (raw_init n))).
Proof.
  intros A RM. destruct (exact_growable w0 n g t ops A RM) as (b0 & w1 & b & w & _ & _ & E1 & E2 & _).
  exists w, b. eexists n, ops, b0, w1, _. split; [now exists g, t|]. split; [exact RM|]. split; [exact E2|reflexivity].
Qed.
Lemma raw_reach_buffer w0 n cap blk0 pre buf post ops : any_buffer_args w0 n cap blk0 pre buf post -> whole_bytes n <= cap ->
  bitroom (8 * whole_bytes n + 8 * pushes ops) ->
  exists w b, raw_built (Some (8 * cap)) w0 w b (snd (raw_steps (Some (8 * cap)) ops (raw_init n))).
Proof.
  intros A LW RM. destruct (exact_fixed w0 n cap blk0 pre buf post ops A LW RM) as (b0 & w1 & b & w & _ & E1 & E2 & _).
  exists w, b. eexists n, ops, b0, w1, _. split; [now exists cap, blk0, pre, buf, post|]. split; [exact RM|]. split; [exact E2|reflexivity].
Qed.

(** A bitset whose size was not a multiple of 8 in Init is one byte short for ever. *)
Definition one_short (s : raw) : Prop := nlen (snd s) + 8 <= 8 * ((fst s + 7) / 8).
Lemma push_short limit value s : one_short s -> fst s + 1 < W64 -> 
  fst (raw_step limit (BPush value) s) <> ST_SUCCESS /\ (limit = None -> fst (raw_step limit (BPush value) s) = ST_OUT_OF_RANGE) /\
  fst (snd (raw_step limit (BPush value) s)) = fst s + 1 /\ one_short (snd (raw_step limit (BPush value) s)).
Proof.
  destruct s as [n cs]. unfold one_short. cbn [fst snd raw_step]. intros SH LT. rewrite (N.mod_small (n + 1)) by exact LT.
  destruct (N.eqb_spec (n mod 8) 0) as [Z|NZ]; [destruct (holds_bits limit (nlen cs + 8)) eqn:HB|]; unfold raw_change.
  - rewrite nlen_app, nlen_zeros. destruct (N.leb_spec (n + 1) n); [lia|]. destruct (N.leb_spec (nlen cs + 8) n); [|lia].
    cbn [orb fst snd]. rewrite nlen_app, nlen_zeros. repeat split; try discriminate; lia.
  - cbn [fst snd]. split; [discriminate|]. split; [intros ->; discriminate|]. split; lia.
  - destruct (N.leb_spec (n + 1) n); [lia|]. destruct (N.leb_spec (nlen cs) n); [|lia].
    cbn [orb fst snd]. repeat split; try discriminate; lia.
Qed.
Lemma pushes_short limit values : forall s, one_short s -> fst s + nlen values < W64 ->
  Forall (fun r => r <> ST_SUCCESS) (fst (raw_steps limit (map BPush values) s)) /\
  (limit = None -> fst (raw_steps limit (map BPush values) s) = map (fun _ => ST_OUT_OF_RANGE) values) /\
  fst (snd (raw_steps limit (map BPush values) s)) = fst s + nlen values.
Proof.
  induction values as [|x l IH]; intros s SH LT.
  - cbn [map raw_steps fst snd]. rewrite nlen_nil, N.add_0_r. repeat split. constructor.
  - rewrite nlen_cons in *. destruct (push_short limit x s SH ltac:(lia)) as (P1 & P2 & P3 & P4).
    cbn [map raw_steps]. destruct (raw_step limit (BPush x) s) as [r s1]. cbn [fst snd] in *.
    destruct (IH s1 P4 ltac:(lia)) as (I1 & I2 & I3). destruct (raw_steps limit (map BPush l) s1) as [rs s2]. cbn [fst snd] in *.
    split; [now constructor|]. split; [|lia]. intros E. now rewrite P2, I2.
Qed.
Lemma pushes_map values : pushes (map BPush values) = nlen values.
Proof. induction values as [|x l IH]; [reflexivity|]. cbn [map]. rewrite pushes_cons, IH, nlen_cons. reflexivity. Qed.
Lemma init_short n : n mod 8 <> 0 -> one_short (raw_init n).
Proof. intros NZ. unfold one_short. rewrite nlen_raw_init. cbn [raw_init fst]. pose proof (whole_le n). lia. Qed.
Lemma exact_pushes_lost w0 n g t values : any_init_args w0 n g t -> n mod 8 <> 0 -> n + nlen values < W64 ->
  bitroom (8 * whole_bytes n + 8 * nlen values) ->
  exists b w b' w', with_zero (fun z => bs_init_ex z n true g t) w0 = Ok (ST_SUCCESS, Some b) w /\
    run_bitops b (map BPush values) w = Ok (map (fun _ => ST_OUT_OF_RANGE) values, b') w' /\
    bs_get_size b' = (ST_SUCCESS, n + nlen values).
Proof.
  intros A NZ LT RM. destruct (init_reached w0 n g t A (whole_room n)) as (b & w & E & H).
  destruct (reached_behaves _ _ _ _ H (map BPush values)) as (b' & w' & E2 & S2 & _).
  { now rewrite nlen_raw_init, pushes_map. }
  destruct (pushes_short None values (raw_init n) (init_short n NZ) LT) as (_ & P & Q). rewrite P in E2 by reflexivity.
  exists b, w, b', w'. split; [exact E|]. split; [exact E2|]. now rewrite S2, Q.
Qed.
Lemma exact_pushes_lost_fixed w0 n cap blk0 pre buf post values : any_buffer_args w0 n cap blk0 pre buf post -> whole_bytes n <= cap ->
  n mod 8 <> 0 -> n + nlen values < W64 -> bitroom (8 * whole_bytes n + 8 * nlen values) ->
  exists b w rs b' w', with_zero (fun z => bs_init_buffer z n (Some (mkptr blk0 (nlen pre))) cap) w0 = Ok (ST_SUCCESS, Some b) w /\
    run_bitops b (map BPush values) w = Ok (rs, b') w' /\ Forall (fun r => r <> ST_SUCCESS) rs /\
    bs_get_size b' = (ST_SUCCESS, n + nlen values).
Proof.
  intros A LW NZ LT RM. rewrite <- (pushes_map values) in RM.
  destruct (exact_fixed w0 n cap blk0 pre buf post _ A LW RM) as (b0 & w1 & b & w & _ & E & E2 & (S2 & _) & _).
  destruct (pushes_short (Some (8 * cap)) values (raw_init n) (init_short n NZ) LT) as (P & _ & Q).
  eexists b0, w1, _, b, w. split; [exact E|]. split; [exact E2|]. split; [exact P|]. now rewrite S2, Q.
Qed.

(** Pops down to the last whole byte remove that byte. *)
Lemma pops_cut limit r : forall n cs, n mod 8 = N.of_nat (S r) -> 8 <= nlen cs ->
  raw_steps limit (repeat BPop (S r)) (n, cs) =
  (repeat ST_SUCCESS (S r), (n - N.of_nat (S r), nfirst (nlen cs - 8) cs)).
Proof.
  induction r as [|r IH]; intros n cs M LC.
  - change (repeat BPop 1) with [BPop]. rewrite raw_eta. cbn [raw_step].
    destruct (N.eqb_spec n 0); [subst; discriminate|]. destruct (N.eqb_spec ((n - 1) mod 8) 0); [|lia].
    destruct (N.eqb_spec (nlen cs) 0); [lia|]. reflexivity.
  - set (m := S r) in *. cbn [repeat raw_steps]. cbn [raw_step].
    destruct (N.eqb_spec n 0); [subst n; cbn in M; lia|]. destruct (N.eqb_spec ((n - 1) mod 8) 0); [lia|].
    rewrite IH by lia. replace (n - 1 - N.of_nat m) with (n - N.of_nat (S m)) by lia. reflexivity.
Qed.
Lemma exact_pops_cut w0 n g t : any_init_args w0 n g t -> n mod 8 <> 0 -> 8 <= n -> n / 8 < W32 ->
  exists b w b' w', with_zero (fun z => bs_init_ex z n true g t) w0 = Ok (ST_SUCCESS, Some b) w /\
    bs_test b (n / 8 * 8 - 1) w = Ok ST_FALSE w /\
    run_bitops b (repeat BPop (N.to_nat (n mod 8))) w = Ok (repeat ST_SUCCESS (N.to_nat (n mod 8)), b') w' /\
    bs_get_size b' = (ST_SUCCESS, n / 8 * 8) /\ bs_get_size_bytes b' = (ST_SUCCESS, n / 8 - 1) /\
    bs_test b' (n / 8 * 8 - 1) w' = Ok ST_OUT_OF_RANGE w'.
Proof.
  intros A NZ LE LT. destruct (init_reached w0 n g t A (whole_room n)) as (b & w & E & H).
  pose proof (N.mod_lt n 8 ltac:(discriminate)) as L8. pose proof (proj1 (reached_room _ _ _ _ H)) as LW. cbn [raw_init fst] in LW.
  assert (WB : whole_bytes n = n / 8) by (unfold whole_bytes; destruct (N.ltb_spec (n / 8) W32); [reflexivity|lia]).
  destruct (reached_shows _ _ _ _ H) as (_ & _ & T0 & _).
  assert (P0 : pushes (repeat BPop (N.to_nat (n mod 8))) = 0).
  { generalize (N.to_nat (n mod 8)). induction n0 as [|k IH]; [reflexivity|]. cbn [repeat]. rewrite pushes_cons, IH. reflexivity. }
  destruct (reached_behaves _ _ _ _ H (repeat BPop (N.to_nat (n mod 8)))) as (b' & w' & E2 & SH).
  { rewrite nlen_raw_init, P0, N.add_0_r. apply whole_room. }
  destruct (N.to_nat (n mod 8)) as [|r] eqn:ER; [lia|]. unfold raw_init in *. rewrite WB in *.
  rewrite (pops_cut None r n (zeros (8 * (n / 8)))) in E2, SH by (rewrite ?nlen_zeros; lia). cbn [fst snd] in *.
  destruct SH as (S1 & S2 & S3 & _). cbn [fst snd] in *. rewrite nlen_nfirst, nlen_zeros in S2.
  exists b, w, b', w'. split; [exact E|]. split.
  { rewrite T0 by lia. unfold raw_bit. cbn [fst snd]. destruct (N.leb_spec n (n / 8 * 8 - 1)); [lia|].
    unfold zeros; rewrite nnth_zeros by lia; reflexivity. }
  split; [exact E2|]. split; [rewrite S1; f_equal; lia|]. split; [rewrite S2; f_equal; lia|].
  rewrite S3 by lia. unfold raw_bit. cbn [fst snd]. destruct (N.leb_spec (n - N.of_nat (S r)) (n / 8 * 8 - 1)); [reflexivity|].
  rewrite nnth_ge; [reflexivity|]. rewrite nlen_nfirst, nlen_zeros. lia.
Qed.

(** Sizes of 2^35 bits and more. *)
Lemma exact_init_huge w0 n g t : any_init_args w0 n g t -> W32 <= n / 8 ->
  exists b w, with_zero (fun z => bs_init_ex z n true g t) w0 = Ok (ST_SUCCESS, Some b) w /\
    bs_get_size b = (ST_SUCCESS, n) /\ bs_get_size_bytes b = (ST_SUCCESS, (n / 8 + 1) mod W32) /\
    8 * ((n / 8 + 1) mod W32) < n /\
    forall i, 8 * ((n / 8 + 1) mod W32) <= i -> i < W64 -> bs_test b i w = Ok ST_OUT_OF_RANGE w.
Proof.
  intros A LE. destruct (init_reached w0 n g t A (whole_room n)) as (b & w & E & H).
  destruct (reached_shows _ _ _ _ H) as (S1 & S2 & S3 & _). rewrite nlen_raw_init in S2.
  assert (WB : whole_bytes n = (n / 8 + 1) mod W32) by (unfold whole_bytes; destruct (N.ltb_spec (n / 8) W32); [lia|reflexivity]).
  pose proof (N.mod_lt (n / 8 + 1) W32 ltac:(discriminate)) as L. rewrite <- WB in *.
  exists b, w. split; [exact E|]. split; [exact S1|]. split; [rewrite S2, N.mul_comm, N.div_mul; [reflexivity|discriminate]|].
  split; [lia|]. intros i LI LW. rewrite S3 by exact LW. unfold raw_bit. cbn [raw_init fst snd].
  destruct (n <=? i); [reflexivity|]. rewrite nnth_ge; [reflexivity|]. rewrite nlen_zeros. exact LI.
Qed.

(** Pop on an empty bitset, and the Push after it. *)
Lemma exact_pop_empty limit w b value : raw_reached limit w b (0, []) ->
  exists b' w' b'' w'', run_bitops b [BPop] w = Ok ([ST_SUCCESS], b') w' /\ raw_shows w' b' (W64 - 1, []) /\
    run_bitops b [BPop; BPush value] w = Ok ([ST_SUCCESS; ST_OUT_OF_RANGE], b'') w'' /\ raw_shows w'' b'' (0, []).
Proof.
  intros H. assert (BE := reached_behaves _ _ _ _ H).
  destruct (BE [BPop] eq_refl) as (b1 & w1 & E1 & S1). destruct (BE [BPop; BPush value] eq_refl) as (b2 & w2 & E2 & S2).
  exists b1, w1, b2, w2. split; [exact E1|]. split; [exact S1|]. split; [exact E2|]. exact S2.
Qed.

(** All, Any and None do not look at bit 4 of the last byte. *)
Lemma list8 (l : list bool) : nlen l = 8 -> exists a k c d e f g h : bool, l = [a;k;c;d;e;f;g;h].
Proof.
  intros L. do 8 (destruct l as [|? l]; [discriminate L|]). destruct l; [|rewrite !nlen_cons in L; lia]. now repeat eexists.
Qed.
Lemma looked_full n cs x : nlen cs = n -> n mod 8 = 0 -> n <> 0 -> In x (looked_at (n, cs)) ->
  exists i, i < n /\ i <> n - 4 /\ nnth i cs = Some x.
Proof.
  intros L M NZ IX. assert (8 <= n) by lia. unfold looked_at in IX. cbn [fst snd] in IX. rewrite L, M in IX. apply in_app_or in IX as [IX|IX].
  - apply In_nth_error in IX as (k & K). exists (N.of_nat k).
    assert (KN : nnth (N.of_nat k) (nfirst (n - 8) cs) = Some x) by (unfold nnth; now rewrite Nat2N.id).
    assert (KL : N.of_nat k < n - 8).
    { destruct (N.ltb_spec (N.of_nat k) (n - 8)); [assumption|]. rewrite nnth_ge in KN; [discriminate|]. rewrite nlen_nfirst. lia. }
    split; [lia|]. split; [lia|]. rewrite <- (nfirst_skip (n - 8) cs). rewrite nnth_app1; [exact KN|]. rewrite nlen_nfirst. lia.
  - destruct (list8 (nskip (n - 8) cs)) as (a & b & c & d & e & f & g & h & E8); [rewrite nlen_nskip; lia|].
    rewrite E8 in IX.
    assert (K : forall k y, k < 8 -> nnth k [a;b;c;d;e;f;g;h] = Some y -> nnth (n - 8 + k) cs = Some y).
    { intros k y LK Hk. rewrite <- (nfirst_skip (n - 8) cs). rewrite nnth_app2 by (rewrite nlen_nfirst; lia).
      rewrite nlen_nfirst. replace (n - 8 + k - N.min (n - 8) (nlen cs)) with k by lia. now rewrite E8. }
    change (In x [a;b;c;d;f;g;h]) in IX. cbn [In] in IX. decompose [or] IX; try contradiction; match goal with E : _ = x |- _ => rewrite <- E end;
      first [exists (n - 8 + 0); split; [lia|]; split; [lia|]; apply (K 0); reflexivity
            |exists (n - 8 + 1); split; [lia|]; split; [lia|]; apply (K 1); reflexivity
            |exists (n - 8 + 2); split; [lia|]; split; [lia|]; apply (K 2); reflexivity
            |exists (n - 8 + 3); split; [lia|]; split; [lia|]; apply (K 3); reflexivity
            |exists (n - 8 + 5); split; [lia|]; split; [lia|]; apply (K 5); reflexivity
            |exists (n - 8 + 6); split; [lia|]; split; [lia|]; apply (K 6); reflexivity
            |exists (n - 8 + 7); split; [lia|]; split; [lia|]; apply (K 7); reflexivity].
Qed.
Lemma exact_any_blind limit w b s : raw_reached limit w b s -> nlen (snd s) = fst s -> fst s <> 0 ->
  (forall i, raw_bit s i = Some true <-> i = fst s - 4) ->
  bs_test b (fst s - 4) w = Ok ST_TRUE w /\ bs_any b w = Ok ST_FALSE w /\ bs_none b w = Ok ST_TRUE w.
Proof.
  intros H L NZ B. destruct (reached_room _ _ _ _ H) as [LW M]. destruct (reached_shows _ _ _ _ H) as (_ & _ & T & _ & _ & _ & _ & A1 & A2).
  destruct s as [n cs]. cbn [fst snd] in *. rewrite L in M.
  assert (K : existsb id_bool (looked_at (n, cs)) = false).
  { apply Bool.not_true_is_false. intros X. apply existsb_exists in X as (x & IX & X). unfold id_bool in X. subst x.
    destruct (looked_full n cs true L M NZ IX) as (i & LI & NI & HI). apply NI, B. unfold raw_bit. cbn [fst snd].
    destruct (N.leb_spec n i); [lia|]. exact HI. }
  rewrite K in A1, A2. split; [|now split]. rewrite T by lia. now rewrite (proj2 (B (n - 4)) eq_refl).
Qed.
Lemma exact_all_blind limit w b s : raw_reached limit w b s -> nlen (snd s) = fst s -> fst s <> 0 ->
  (forall i, raw_bit s i = Some false <-> i = fst s - 4) ->
  bs_test b (fst s - 4) w = Ok ST_FALSE w /\ bs_all b w = Ok ST_TRUE w.
Proof.
  intros H L NZ B. destruct (reached_room _ _ _ _ H) as [LW M]. destruct (reached_shows _ _ _ _ H) as (_ & _ & T & _ & _ & _ & A1 & _).
  destruct s as [n cs]. cbn [fst snd] in *. rewrite L in M.
  assert (K : forallb id_bool (looked_at (n, cs)) = true).
  { apply forallb_forall. intros [|] IX; [reflexivity|].
    destruct (looked_full n cs false L M NZ IX) as (i & LI & NI & HI). exfalso. apply NI, B. unfold raw_bit. cbn [fst snd].
    destruct (N.leb_spec n i); [lia|]. exact HI. }
  rewrite K in A1. split; [|exact A1]. rewrite T by lia. now rewrite (proj2 (B (n - 4)) eq_refl).
Qed.

(** A popped bit is still counted, and seen by Any. *)
Lemma exact_pop_counted limit w b s : raw_reached limit w b s -> fst s mod 8 <> 1 -> raw_bit s (fst s - 1) = Some true ->
  ones (snd s) < fst s ->
  exists b' w', run_bitops b [BPop] w = Ok ([ST_SUCCESS], b') w' /\ bs_get_size b' = (ST_SUCCESS, fst s - 1) /\
    bs_count b w = Ok (ST_SUCCESS, ones (snd s)) w /\ bs_count b' w' = Ok (ST_SUCCESS, ones (snd s)) w' /\
    (fst s mod 8 <> 0 -> fst s mod 8 <> 7 -> bs_any b' w' = Ok ST_TRUE w').
Proof.
  intros H M BT LO. assert (RM := reached_bitroom _ _ _ _ H). destruct (reached_room _ _ _ _ H) as [LW M8]. destruct (reached_shows _ _ _ _ H) as (_ & _ & _ & _ & _ & CN & _).
  destruct (reached_behaves _ _ _ _ H [BPop]) as (b' & w' & E & SH); [now rewrite N.add_0_r|].
  destruct s as [n cs]. cbn [fst snd] in *. rewrite raw_eta in E, SH. cbn [raw_step] in E, SH.
  destruct (N.eqb_spec n 0); [lia|]. destruct (N.eqb_spec ((n - 1) mod 8) 0); [lia|]. cbn [fst snd] in E, SH.
  destruct SH as (S1 & _ & _ & _ & _ & C1 & _ & A1 & _). cbn [fst snd] in *.
  exists b', w'. split; [exact E|]. split; [exact S1|]. split; [rewrite CN; f_equal; f_equal; f_equal; lia|]. split; [rewrite C1; f_equal; f_equal; f_equal; lia|].
  intros NZ0 NZ7. rewrite A1. enough (K : existsb id_bool (looked_at (n - 1, cs)) = true) by now rewrite K.
  apply existsb_exists. exists true. split; [|reflexivity]. unfold raw_bit in BT. cbn [fst snd] in BT.
  destruct (N.leb_spec n (n - 1)); [discriminate|]. assert (LI := nnth_lt _ _ _ BT).
  unfold looked_at. cbn [fst snd]. apply in_or_app.
  destruct (N.ltb_spec (n - 1) (nlen cs - 8)) as [LL|LL].
  - left. rewrite <- (nfirst_skip (nlen cs - 8) cs) in BT. rewrite nnth_app1 in BT by (rewrite nlen_nfirst; lia).
    eapply nth_error_In. exact BT.
  - right. destruct (list8 (nskip (nlen cs - 8) cs)) as (a & bb & c & d & e & f & g & h & E8); [rewrite nlen_nskip; lia|].
    rewrite E8. rewrite <- (nfirst_skip (nlen cs - 8) cs) in BT. rewrite nnth_app2 in BT by (rewrite nlen_nfirst; lia).
    rewrite nlen_nfirst, E8 in BT. replace (n - 1 - N.min (nlen cs - 8) (nlen cs)) with ((n - 1) mod 8) in BT by lia.
    assert (R : (n - 1) mod 8 = 1 \/ (n - 1) mod 8 = 2 \/ (n - 1) mod 8 = 3 \/ (n - 1) mod 8 = 4 \/ (n - 1) mod 8 = 5) by lia.
    destruct R as [R|[R|[R|[R|R]]]]; rewrite R in *; injection BT as ->; vm_compute; tauto.
Qed.

(** AND clears bits of the destination which the source does not have. *)
Lemma exact_and_clears limd w d s lims w1 e t i : raw_reached limd w d s -> raw_built lims w w1 e t -> apart d e ->
  raw_bit s i = Some true -> fst t <= i -> nnth i (snd t) = Some false ->
  exists w2, bs_and d e w1 = Ok ST_SUCCESS w2 /\ bs_test e i w1 = Ok ST_OUT_OF_RANGE w1 /\
    bs_test d i w2 = Ok ST_FALSE w2.
Proof.
  intros HD HS AP BT LT NT. assert (RM := reached_bitroom _ _ _ _ HD). destruct (exact_and limd w d s lims w1 e t HD HS AP) as (w2 & E & BD & _). exists w2. split; [exact E|].
  destruct (reached_room _ _ _ _ HD) as [LW _]. unfold raw_bit in BT. destruct (N.leb_spec (fst s) i); [discriminate|]. split.
  - destruct (reached_shows lims w1 e t) as (_ & _ & T & _); [now exists w|]. rewrite T by lia. unfold raw_bit.
    destruct (N.leb_spec (fst t) i); [reflexivity|lia].
  - destruct (BD []) as (b' & w' & E' & S'); [cbn [snd pushes]; rewrite merge_len; now rewrite N.add_0_r|].
    cbn in E'. injection E' as <- <-. destruct S' as (_ & _ & T & _). rewrite T by lia.
    cbn [raw_steps snd]. unfold raw_bit. cbn [fst snd]. destruct (N.leb_spec (fst s) i); [lia|].
    rewrite merge_nth, BT, NT. reflexivity.
Qed.

(** For the examples. *)
Lemma built_world limit w0 w b s n g t : allocator_ok w0 -> raw_built limit w0 w b s -> 1 <= g < 256 -> t < 256 -> n < W64 ->
  any_init_args w n g t.
Proof.
  intros O H G T LN. apply raw_built_rep in H as (pre & l & post & Y & NF & _ & _ & OR & _).
  split; [eapply brep_wf, Y|]. split; [|now repeat split]. intros k. rewrite OR. apply O.
Qed.
Lemma built_apart limit w0 w d s w1 e t : raw_built limit w0 w d s -> raw_built None w w1 e t -> apart d e.
Proof.
  intros HD (n & ops & b0 & w2 & rs & (g & u & A & IE) & RM & RE & _) p q P Q.
  apply raw_built_rep in HD as (pre & l & post & Y & _). assert (LD := brep_lt _ _ _ _ _ (y_rep _ _ _ _ _ _ Y)).
  destruct (any_init w n g u A) as (w2' & v & E & Y0 & NF & AL & B1 & B2 & OR & HP). rewrite E in IE. injection IE as <- <-.
  rewrite <- nlen_raw_init in RM. destruct (ysteps ops w2' _ _ _ _ _ Y0 NF RM) as (w3 & b3 & l3 & E3 & Y3 & [GR GC GF GK] & _).
  rewrite RE in E3. injection E3 as -> -> ->. cbn [bs_bits] in *.
  rewrite (brep_data _ _ _ _ _ GR) in Q. injection Q as <-. rewrite (brep_data _ _ _ _ _ (y_rep _ _ _ _ _ _ Y)) in P. injection P as <-. cbn.
  destruct (N.eq_dec (blk (bs_bits b3)) (blk v)) as [->|NE]; [lia|]. destruct (fr_old _ _ _ _ GF NE) as (_ & _ & L). lia.
Qed.
Lemma one_bit_16 i : raw_bit (snd (raw_steps None [BSet 12] (raw_init 16))) i = Some true <-> i = 12.
Proof.
  destruct (N.ltb_spec i 16) as [L|L].
  - assert (K : i = 0 \/ i = 1 \/ i = 2 \/ i = 3 \/ i = 4 \/ i = 5 \/ i = 6 \/ i = 7 \/ i = 8 \/ i = 9 \/ i = 10 \/ i = 11 \/
      i = 12 \/ i = 13 \/ i = 14 \/ i = 15) by lia.
    decompose [or] K; subst i; vm_compute; split; congruence.
  - unfold raw_bit. change (fst (snd (raw_steps None [BSet 12] (raw_init 16)))) with 16. destruct (N.leb_spec 16 i); [|lia].
    split; [discriminate|lia].
Qed.
(** A bitset combined with itself. *)
Lemma self_logic op f limit w b s : bytewise op f -> raw_reached limit w b s ->
  exists w', bs_byte_op op b b w = Ok ST_SUCCESS w' /\ raw_behaves limit w' b (fst s, map (fun x => f x x) (snd s)).
Proof.
  intros OP (w0 & H). apply raw_built_rep in H as (pre & l & post & Y & NF & LM & RM & _). pose proof Y as [R B S0 W HB].
  destruct (self_loop op f b pre post OP l w [] R B) as (w' & E & G). unfold bs_byte_op.
  rewrite (brep_size _ _ _ _ _ R). replace (N.to_nat (N.min (nlen l) (nlen l))) with (length l) by (unfold nlen; lia).
  exists w'. split; [exact E|]. rewrite <- LM. cbn [app] in G.
  apply ybehaves with pre (map (fun x => snd (op x x)) l) post; [split|].
  - apply G.
  - apply Forall_forall. intros y IY. apply in_map_iff in IY as (x & <- & IX). rewrite Forall_forall in B.
    specialize (B _ IX). now apply OP.
  - exact S0.
  - exact W.
  - cbn [snd]. rewrite HB. symmetry. apply map_bits_of; [|exact B]. intros x k LX _. now apply OP.
  - intros A t. destruct G as [_ _ GF _]. rewrite (fr_orc _ _ _ _ GF). now apply NF.
Qed.
Lemma map_eta_id (f : bool -> bool) (l : list bool) : (forall x, f x = x) -> map f l = l.
Proof. intros H. rewrite <- (map_id l) at 2. apply map_ext, H. Qed.
Lemma exact_self limit w b s : raw_reached limit w b s ->
  (exists w', bs_and b b w = Ok ST_SUCCESS w' /\ raw_behaves limit w' b s) /\
  (exists w', bs_or b b w = Ok ST_SUCCESS w' /\ raw_behaves limit w' b s) /\
  (exists w', bs_xor b b w = Ok ST_SUCCESS w' /\ raw_behaves limit w' b (fst s, map (fun _ => false) (snd s))).
Proof.
  intros H. destruct (self_logic _ _ _ _ _ _ and_bytewise H) as (w1 & E1 & B1).
  destruct (self_logic _ _ _ _ _ _ or_bytewise H) as (w2 & E2 & B2).
  destruct (self_logic _ _ _ _ _ _ xor_bytewise H) as (w3 & E3 & B3).
  rewrite map_eta_id in B1 by now intros []. rewrite map_eta_id in B2 by now intros [].
  rewrite <- surjective_pairing in B1, B2.
  rewrite (map_ext _ (fun _ => false)) in B3 by now intros [].
  split; [|split]; eauto.
Qed.

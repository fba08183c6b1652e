(** C86: amortised cost of the calls of strings and bitsets. *)
From Verif Require Import Base NListFacts Status Mem VectorModel VectorSpec VectorDriver VectorExamples CostSpec
  StringModel StringSpec StringDriver StringExamples AliasExamples BitsetModel BitsetSpec BitsetDriver BitsetExamples
  StrCostSpec StrCostProofs StrCostProofs2.
From Coq Require Import ZifyBool ZifyNat ZifyN.

(** With a growth factor of at least 2, and a shrink threshold that is larger than it (or 0: never shrink), the blocks that a
    history of calls on a string asks the allocator for are together not larger than a constant times the number of characters
    the calls put in or took out and the number of calls of Clear, plus a constant. *)
Theorem c86_string_partial :
  forall w s cs ops, sreached_own w s cs -> 2 <= v_growth (s_vec s) -> v_shrink (s_vec s) = 0 \/ v_growth (s_vec s) < v_shrink (s_vec s) ->
    Forall sums_ok ops -> forallb sautomatic ops = true -> sroom (nlen cs + sdemands ops) ->
    exists blocks changes s' w', run_scost s ops w = Ok (blocks, changes, s') w' /\
      blocks <= v_growth (s_vec s) * v_growth (s_vec s) * (clears ops + changes) +
                v_growth (s_vec s) * distance (v_growth (s_vec s) * (nlen cs + 1)) (gotten (sget_capacity s w) + 1).
Proof. exact samortised. Qed.
Print Assumptions c86_string_partial.
Example c86_string_hypotheses_met : exists w s, sreached_own w s [97;98;99] /\ 2 <= v_growth (s_vec s) /\ v_shrink (s_vec s) = 4 /\
  let ops := [SAppend [100;101]; SInsert 1 [33]; SDelete 0 2; STruncate 1; SResize 40; SToUpper; SClear] in
  Forall sums_ok ops /\ forallb sautomatic ops = true /\ sroom (3 + sdemands ops).
Proof.
  destruct (ex_string_sized [97;98;99] 0 4) as (w & s & s0 & w1 & rs & R & E & E2); [reflexivity|reflexivity|reflexivity|].
  exists w, s. split; [exact R|]. vm_compute in E. injection E as <- <-. vm_compute in E2. injection E2 as _ <- _. cbv zeta.
  split; [vm_compute; discriminate|]. split; [reflexivity|]. split; [repeat constructor|]. split; reflexivity.
Qed.

(** A new string with the default parameters. *)
Theorem c86_default_string :
  forall w cap ops, sinit_args_ok w cap STRING_DEFAULT_GROWTH STRING_DEFAULT_SHRINK ->
    Forall sums_ok ops -> forallb sautomatic ops = true -> sroom (sdemands ops) ->
    exists s w1 blocks changes s' w', sinit cap w = Ok (ST_SUCCESS, Some s) w1 /\
      run_scost s ops w1 = Ok (blocks, changes, s') w' /\ blocks <= 4 * (clears ops + changes) + 2 * (N.max 32 cap - 1).
Proof. exact samortised_new. Qed.
Print Assumptions c86_default_string.
(** Forty characters, deleted in halves, and Clear: blocks of 82, 20 and 1 bytes; 80 characters put in or taken out. *)
Example c86_default_string_hypotheses_met : let ops := [SAppend (nrepeat 97 40); STruncate 20; STruncate 9; SClear] in
  sinit_args_ok (text_world []) 0 STRING_DEFAULT_GROWTH STRING_DEFAULT_SHRINK /\ Forall sums_ok ops /\
  forallb sautomatic ops = true /\ sroom (sdemands ops) /\
  match sinit 0 (text_world []) with
  | Ok (_, Some s) w1 => match run_scost s ops w1 with Ok (blocks, changes, _) _ => Some (blocks, changes) | _ => None end
  | _ => None
  end = Some (103, 80).
Proof.
  cbv zeta. split; [apply sinit_args_example; [vm_compute; split; [discriminate|reflexivity]|reflexivity|reflexivity]|].
  split; [repeat constructor|]. split; [reflexivity|]. split; [reflexivity|]. vm_compute. reflexivity.
Qed.

(** The same for bitsets, with the number of bits pushed, popped or cleared. *)
Theorem c86_bitset_partial :
  forall w b bs ops, bitreached None w b bs -> 2 <= v_growth (bs_bits b) -> v_shrink (bs_bits b) = 0 \/ v_growth (bs_bits b) < v_shrink (bs_bits b) ->
    legal None ops bs -> forallb bautomatic ops = true -> bitroom (nlen bs + pushes ops) ->
    exists blocks changes b' w', run_bcost b ops w = Ok (blocks, changes, b') w' /\
      blocks <= v_growth (bs_bits b) * v_growth (bs_bits b) * changes +
                v_growth (bs_bits b) * distance (v_growth (bs_bits b) * snd (bs_get_size_bytes b)) (snd (bs_get_capacity_bytes b)).
Proof. exact bamortised. Qed.
Print Assumptions c86_bitset_partial.
(** A bitset with growth factor 2 and shrink threshold 4: 30 bits pushed and 29 popped, in blocks of 4, 10 and 4 bytes. *)
Example c86_bitset_hypotheses_met :
  let ops := repeat (BPush true) 30 ++ repeat BPop 29 in
  exists w b, bitreached None w b (zeros 8) /\ v_growth (bs_bits b) = 2 /\ v_shrink (bs_bits b) = 4 /\
    legal None ops (zeros 8) /\ forallb bautomatic ops = true /\ bitroom (8 + pushes ops) /\
    match run_bcost b ops w with Ok (blocks, changes, _) _ => Some (blocks, changes) | _ => None end = Some (18, 59).
Proof.
  cbv zeta. destruct (with_zero (fun z => bs_init_ex z 8 true 2 4) world0) as [[st [b|]] w|f] eqn:E; [|exfalso; vm_compute in E; discriminate..].
  assert (ST : st = ST_SUCCESS) by (vm_compute in E; now injection E as <- _ _). subst st.
  exists w, b. split.
  { exists world0, 8, [], b, w, []. split; [exists 2, 4; split; [|exact E]|].
    - repeat split; try apply world0_ok; lia.
    - repeat split; reflexivity. }
  vm_compute in E. injection E as <- <-. split; [reflexivity|]. split; [reflexivity|]. split; [vm_compute; repeat split; discriminate|].
  split; [reflexivity|]. split; [reflexivity|]. vm_compute. reflexivity.
Qed.

(** The parameters that ZyanBitsetInit chooses are not such: its shrink threshold is its growth factor.  Popping the bits of a
    new bitset, all but the last eight, asks for blocks whose total size grows with the square of the number of pops. *)
Theorem c86_default_bitset_refuted :
  forall w m, bitinit_args_ok w (16 * m) BITSET_GROWTH BITSET_SHRINK -> 1 <= m ->
    exists b w1 b' w', with_zero (fun z => bs_init z (16 * m)) w = Ok (ST_SUCCESS, Some b) w1 /\
      run_bcost b (repeat BPop (N.to_nat (16 * m - 8))) w1 = Ok (m * (m - 1), 16 * m - 8, b') w' /\ tick w' = tick w1 + (m - 1).
Proof. exact default_pops. Qed.
Print Assumptions c86_default_bitset_refuted.
Example c86_default_bitset_hypotheses_met : bitinit_args_ok world0 (16 * 1000) BITSET_GROWTH BITSET_SHRINK /\ 1 <= 1000.
Proof. repeat split; try apply world0_ok; vm_compute; reflexivity || discriminate. Qed.

(** With a shrink threshold from 1 to the growth factor, every eighth pop asks for a new block. *)
Theorem c86_bitset_pops_refuted :
  forall w b bs n, bitreached None w b bs -> 1 <= v_shrink (bs_bits b) <= v_growth (bs_bits b) -> nlen bs mod 8 = 0 ->
    v_shrink (bs_bits b) * (nlen bs / 8 - 1) < snd (bs_get_capacity_bytes b) -> N.of_nat n < nlen bs / 8 ->
    exists blocks b' w', run_bcost b (repeat BPop (8 * n)) w = Ok (blocks, 8 * N.of_nat n, b') w' /\
      2 * blocks = v_growth (bs_bits b) * (N.of_nat n * (2 * (nlen bs / 8) - N.of_nat n - 1)) /\ tick w' = tick w + N.of_nat n.
Proof. exact bpops_tight. Qed.
Print Assumptions c86_bitset_pops_refuted.
(** 24 bits in 8 bytes. *)
Example c86_bitset_pops_hypotheses_met :
  exists w b, bitreached None w b (zeros 24) /\ 1 <= v_shrink (bs_bits b) <= v_growth (bs_bits b) /\ nlen (zeros 24) mod 8 = 0 /\
    v_shrink (bs_bits b) * (nlen (zeros 24) / 8 - 1) < snd (bs_get_capacity_bytes b) /\ N.of_nat 2 < nlen (zeros 24) / 8.
Proof.
  destruct (with_zero (fun z => bs_init_ex z 24 true 2 2) world0) as [[st [b0|]] w1|f] eqn:E; [|exfalso; vm_compute in E; discriminate..].
  assert (ST : st = ST_SUCCESS) by (vm_compute in E; now injection E as <- _ _). subst st.
  destruct (run_bitops b0 [BReserve 64] w1) as [[rs b] w|f] eqn:E2; [|exfalso; vm_compute in E; injection E as <- <-; vm_compute in E2; discriminate].
  exists w, b. split.
  { exists world0, 24, [BReserve 64], b0, w1, rs. split; [exists 2, 2; split; [|exact E]|].
    - repeat split; try apply world0_ok; lia.
    - repeat split; auto. }
  vm_compute in E. injection E as <- <-. vm_compute in E2. injection E2 as _ <- _. vm_compute. repeat split; discriminate || reflexivity.
Qed.

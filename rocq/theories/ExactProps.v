(** Property theorems on bitsets under every history of calls (C98), and what it means for the properties which the
    code does not have, for all bitsets instead of one.  Statements only. *)
From Verif Require Import Base Status Mem VectorModel VectorDriver VectorExamples StringModel StringExamples
  BitsetModel BitsetSpec BitsetDriver BitsetFinal BitsetExamples ExactSpec ExactProofs ExactProofs2 ExactProofs3.
From Verif Require Import Mem.

(** C98.  Init with any number of bits succeeds; then any calls in any order return the statuses of the machine
    [raw_steps], the queries answer as it says, no memory of others changes, and Destroy gives the memory back. *)
Theorem c98_growable :
  forall (w0 : world N) n g t ops,
    any_init_args w0 n g t -> bitroom (8 * whole_bytes n + 8 * pushes ops) ->
    exists b0 w1 b w b' w',
      with_zero (fun z => bs_init_ex z n true g t) w0 = Ok (ST_SUCCESS, Some b0) w1 /\
      run_bitops b0 ops w1 = Ok (fst (raw_steps None ops (raw_init n)), b) w /\
      raw_shows w b (snd (raw_steps None ops (raw_init n))) /\
      (forall k x, heap w0 k = Some x -> heap w k = Some x) /\
      bs_destroy b w = Ok (ST_SUCCESS, b') w' /\ forall k, heap w' k = heap w0 k.
Proof. exact exact_growable. Qed.
Print Assumptions c98_growable.
Example c98_growable_hypotheses_met : any_init_args world0 13 2 4 /\
  bitroom (8 * whole_bytes 13 + 8 * pushes [BPush true; BPop; BPop; BPop; BPop; BPop; BPop; BSet 3; BPush true]) /\
  raw_steps None [BPush true; BPop; BPop; BPop; BPop; BPop; BPop; BSet 3; BPush true] (raw_init 13) =
    ([ST_OUT_OF_RANGE; ST_SUCCESS; ST_SUCCESS; ST_SUCCESS; ST_SUCCESS; ST_SUCCESS; ST_SUCCESS; ST_OUT_OF_RANGE; ST_OUT_OF_RANGE],
     (9, zeros 8)).
Proof. repeat split; try apply world0_ok; try reflexivity; discriminate. Qed.
(** In a caller's buffer: nothing is allocated and nothing outside the buffer changes. *)
Theorem c98_fixed :
  forall (w0 : world N) n cap blk0 pre buf post ops,
    any_buffer_args w0 n cap blk0 pre buf post -> whole_bytes n <= cap -> bitroom (8 * whole_bytes n + 8 * pushes ops) ->
    exists b0 w1 b w buf',
      with_zero (fun z => bs_init_buffer z n (Some (mkptr blk0 (nlen pre))) cap) w0 = Ok (ST_SUCCESS, Some b0) w1 /\
      run_bitops b0 ops w1 = Ok (fst (raw_steps (Some (8 * cap)) ops (raw_init n)), b) w /\
      raw_shows w b (snd (raw_steps (Some (8 * cap)) ops (raw_init n))) /\
      heap w blk0 = Some (pre ++ buf' ++ post) /\ nlen buf' = cap /\ tick w = tick w0 /\
      (forall k, k <> blk0 -> heap w k = heap w0 k).
Proof. exact exact_fixed. Qed.
Print Assumptions c98_fixed.
(** ... and a buffer that is too small is refused before anything is written. *)
Theorem c98_fixed_too_small :
  forall (w0 : world N) n cap blk0 pre buf post,
    any_buffer_args w0 n cap blk0 pre buf post -> cap < whole_bytes n -> forall z,
    bs_init_buffer z n (Some (mkptr blk0 (nlen pre))) cap w0 = Ok (ST_INSUFFICIENT_BUFFER_SIZE, None) w0.
Proof. exact exact_small. Qed.
Print Assumptions c98_fixed_too_small.
Example c98_fixed_hypotheses_met :
  any_buffer_args (text_world [1;9;9;9;2]) 13 3 0 [1] [9;9;9] [2] /\ whole_bytes 13 <= 3 /\
  any_buffer_args (text_world [1;9;9;9;2]) 33 3 0 [1] [9;9;9] [2] /\ 3 < whole_bytes 33 /\
  raw_steps (Some 24) [BPush true; BSetAll; BPush true; BPush true; BPush true; BPush true; BReserve 25; BFlip] (raw_init 13) =
    ([ST_OUT_OF_RANGE; ST_SUCCESS; ST_OUT_OF_RANGE; ST_OUT_OF_RANGE; ST_OUT_OF_RANGE; ST_OUT_OF_RANGE; ST_SUCCESS; ST_SUCCESS],
     (18, zeros 8 ++ nrepeat true 8)).
Proof. split; [split; [apply text_world_ok|now repeat split]|]. split; [discriminate|]. split; [split; [apply text_world_ok|now repeat split]|]. split; reflexivity. Qed.
(** The logical operations combine the bytes both bitsets have, whatever the sizes say; both go on from there. *)
Theorem c98_and : raw_combines bs_and andb.
Proof. exact exact_and. Qed.
Print Assumptions c98_and.
Theorem c98_or : raw_combines bs_or orb.
Proof. exact exact_or. Qed.
Print Assumptions c98_or.
Theorem c98_xor : raw_combines bs_xor xorb.
Proof. exact exact_xor. Qed.
Print Assumptions c98_xor.
(** A bitset combined with itself: AND and OR leave it, XOR clears all its bits. *)
Theorem c98_self :
  forall limit (w : world N) b s, raw_reached limit w b s ->
    (exists w', bs_and b b w = Ok ST_SUCCESS w' /\ raw_behaves limit w' b s) /\
    (exists w', bs_or b b w = Ok ST_SUCCESS w' /\ raw_behaves limit w' b s) /\
    (exists w', bs_xor b b w = Ok ST_SUCCESS w' /\ raw_behaves limit w' b (fst s, map (fun _ => false) (snd s))).
Proof. exact exact_self. Qed.
Print Assumptions c98_self.
Theorem c98_reached_behaves :
  forall limit (w : world N) b s, raw_reached limit w b s -> raw_behaves limit w b s /\ raw_shows w b s.
Proof. exact reached_both. Qed.
Print Assumptions c98_reached_behaves.
(** Reached bitsets as the hypotheses above ask for: 11 bits of which the last has no byte, and 2 pushed bits. *)
Example c98_reached_instance : exists (w : world N) d w1 e,
  raw_reached (Some 24) w d (11, [true;true;true;true;true;true;true;true]) /\
  raw_built None w w1 e (2, [true;false;false;false;false;false;false;false]) /\ apart d e.
Proof.
  destruct (raw_reach_buffer (text_world [1;9;9;9;2]) 10 3 0 [1] [9;9;9] [2] [BSetAll; BPush true]) as (w & d & H);
    [split; [apply text_world_ok|now repeat split]|discriminate|reflexivity|].
  assert (WI : any_init_args w 0 2 4).
  { exact (built_world _ _ _ _ _ 0 2 4 (proj2 (text_world_ok _)) H ltac:(now split) ltac:(reflexivity) ltac:(reflexivity)). }
  destruct (raw_reach w 0 2 4 [BPush true; BPush false] WI eq_refl) as (w1 & e & H2).
  exists w, d, w1, e. split; [now exists (text_world [1;9;9;9;2])|]. split; [exact H2|]. exact (built_apart _ _ _ _ _ _ _ _ H H2).
Qed.

(** C35 fails further: after Init with a size that is not a multiple of 8 no Push ever succeeds again, although each of
    them raises the size; *)
Theorem c98_pushes_lost_refuted :
  forall (w0 : world N) n g t values, any_init_args w0 n g t -> n mod 8 <> 0 -> n + nlen values < W64 ->
    bitroom (8 * whole_bytes n + 8 * nlen values) ->
    exists b w b' w', with_zero (fun z => bs_init_ex z n true g t) w0 = Ok (ST_SUCCESS, Some b) w /\
      run_bitops b (map BPush values) w = Ok (map (fun _ => ST_OUT_OF_RANGE) values, b') w' /\
      bs_get_size b' = (ST_SUCCESS, n + nlen values).
Proof. exact exact_pushes_lost. Qed.
Print Assumptions c98_pushes_lost_refuted.
Theorem c98_pushes_lost_fixed_refuted :
  forall (w0 : world N) n cap blk0 pre buf post values, any_buffer_args w0 n cap blk0 pre buf post -> whole_bytes n <= cap ->
    n mod 8 <> 0 -> n + nlen values < W64 -> bitroom (8 * whole_bytes n + 8 * nlen values) ->
    exists b w rs b' w',
      with_zero (fun z => bs_init_buffer z n (Some (mkptr blk0 (nlen pre))) cap) w0 = Ok (ST_SUCCESS, Some b) w /\
      run_bitops b (map BPush values) w = Ok (rs, b') w' /\ Forall (fun r => r <> ST_SUCCESS) rs /\
      bs_get_size b' = (ST_SUCCESS, n + nlen values).
Proof. exact exact_pushes_lost_fixed. Qed.
Print Assumptions c98_pushes_lost_fixed_refuted.
(** ... and as many Pops as bring the size back to the whole bytes remove the last whole byte with its 8 bits. *)
Theorem c98_pops_lose_byte_refuted :
  forall (w0 : world N) n g t, any_init_args w0 n g t -> n mod 8 <> 0 -> 8 <= n -> n / 8 < W32 ->
    exists b w b' w', with_zero (fun z => bs_init_ex z n true g t) w0 = Ok (ST_SUCCESS, Some b) w /\
      bs_test b (n / 8 * 8 - 1) w = Ok ST_FALSE w /\
      run_bitops b (repeat BPop (N.to_nat (n mod 8))) w = Ok (repeat ST_SUCCESS (N.to_nat (n mod 8)), b') w' /\
      bs_get_size b' = (ST_SUCCESS, n / 8 * 8) /\ bs_get_size_bytes b' = (ST_SUCCESS, n / 8 - 1) /\
      bs_test b' (n / 8 * 8 - 1) w' = Ok ST_OUT_OF_RANGE w'.
Proof. exact exact_pops_cut. Qed.
Print Assumptions c98_pops_lose_byte_refuted.
(** Every size from 2^35 on: Init succeeds with too few bytes. *)
Theorem c98_init_huge_refuted :
  forall (w0 : world N) n g t, any_init_args w0 n g t -> W32 <= n / 8 ->
    exists b w, with_zero (fun z => bs_init_ex z n true g t) w0 = Ok (ST_SUCCESS, Some b) w /\
      bs_get_size b = (ST_SUCCESS, n) /\ bs_get_size_bytes b = (ST_SUCCESS, (n / 8 + 1) mod W32) /\
      8 * ((n / 8 + 1) mod W32) < n /\
      forall i, 8 * ((n / 8 + 1) mod W32) <= i -> i < W64 -> bs_test b i w = Ok ST_OUT_OF_RANGE w.
Proof. exact exact_init_huge. Qed.
Print Assumptions c98_init_huge_refuted.
Example c98_init_instances :
  any_init_args world0 13 2 4 /\ 13 mod 8 <> 0 /\ 8 <= 13 /\ 13 / 8 < W32 /\
  bitroom (8 * whole_bytes 13 + 8 * nlen [true;false;true;true;true]) /\
  any_buffer_args (text_world [1;9;9;9;2]) 13 3 0 [1] [9;9;9] [2] /\
  any_init_args world0 (2 ^ 35 + 77) 2 4 /\ W32 <= (2 ^ 35 + 77) / 8.
Proof.
  repeat split; try apply world0_ok; try apply text_world_ok; try reflexivity; discriminate.
Qed.
(** C39: after a Pop of any empty bitset, in a buffer or not, the size is 2^64-1 and there is no bit; the Push after it
    is lost. *)
Theorem c98_pop_empty_refuted :
  forall limit (w : world N) b value, raw_reached limit w b (0, []) ->
    exists b' w' b'' w'', run_bitops b [BPop] w = Ok ([ST_SUCCESS], b') w' /\ raw_shows w' b' (W64 - 1, []) /\
      run_bitops b [BPop; BPush value] w = Ok ([ST_SUCCESS; ST_OUT_OF_RANGE], b'') w'' /\ raw_shows w'' b'' (0, []).
Proof. exact exact_pop_empty. Qed.
Print Assumptions c98_pop_empty_refuted.
Example c98_pop_empty_instance : exists (w : world N) b, raw_reached None w b (0, []).
Proof.
  destruct (raw_reach world0 0 2 4 [BPush true; BClear]) as (w & b & H); [repeat split; try apply world0_ok; try reflexivity; discriminate|reflexivity|].
  exists w, b. now exists world0.
Qed.
(** C36: in every bitset of whole bytes All, Any and None are blind for bit 4 of the last byte. *)
Theorem c98_any_none_refuted :
  forall limit (w : world N) b s, raw_reached limit w b s -> nlen (snd s) = fst s -> fst s <> 0 ->
    (forall i, raw_bit s i = Some true <-> i = fst s - 4) ->
    bs_test b (fst s - 4) w = Ok ST_TRUE w /\ bs_any b w = Ok ST_FALSE w /\ bs_none b w = Ok ST_TRUE w.
Proof. exact exact_any_blind. Qed.
Print Assumptions c98_any_none_refuted.
Theorem c98_all_refuted :
  forall limit (w : world N) b s, raw_reached limit w b s -> nlen (snd s) = fst s -> fst s <> 0 ->
    (forall i, raw_bit s i = Some false <-> i = fst s - 4) ->
    bs_test b (fst s - 4) w = Ok ST_FALSE w /\ bs_all b w = Ok ST_TRUE w.
Proof. exact exact_all_blind. Qed.
Print Assumptions c98_all_refuted.
Example c98_blind_instance : exists (w : world N) b s, raw_reached None w b s /\ nlen (snd s) = fst s /\ fst s = 16 /\
  (forall i, raw_bit s i = Some true <-> i = fst s - 4).
Proof.
  destruct (raw_reach world0 16 2 4 [BSet 12]) as (w & b & H); [repeat split; try apply world0_ok; try reflexivity; discriminate|reflexivity|].
  exists w, b. eexists. split; [exists world0; exact H|]. split; [reflexivity|]. split; [reflexivity|]. exact one_bit_16.
Qed.
(** C37: in every bitset a set bit that is popped and does not start a byte is still counted; Any sees it, too. *)
Theorem c98_count_pop_refuted :
  forall limit (w : world N) b s, raw_reached limit w b s -> fst s mod 8 <> 1 -> raw_bit s (fst s - 1) = Some true ->
    ones (snd s) < fst s ->
    exists b' w', run_bitops b [BPop] w = Ok ([ST_SUCCESS], b') w' /\ bs_get_size b' = (ST_SUCCESS, fst s - 1) /\
      bs_count b w = Ok (ST_SUCCESS, ones (snd s)) w /\ bs_count b' w' = Ok (ST_SUCCESS, ones (snd s)) w' /\
      (fst s mod 8 <> 0 -> fst s mod 8 <> 7 -> bs_any b' w' = Ok ST_TRUE w').
Proof. exact exact_pop_counted. Qed.
Print Assumptions c98_count_pop_refuted.
Example c98_count_pop_instance : exists (w : world N) b s, raw_reached None w b s /\ fst s = 3 /\ raw_bit s 2 = Some true /\
  ones (snd s) = 1.
Proof.
  destruct (raw_reach world0 0 2 4 [BPush false; BPush false; BPush true]) as (w & b & H); [repeat split; try apply world0_ok; try reflexivity; discriminate|reflexivity|].
  exists w, b. eexists. split; [exists world0; exact H|]. now repeat split.
Qed.
(** C38: AND clears, in every destination, set bits which the source does not have, if its last byte holds a 0 there. *)
Theorem c98_and_clears_refuted :
  forall limd (w : world N) d s lims w1 e t i, raw_reached limd w d s -> raw_built lims w w1 e t -> apart d e ->
    raw_bit s i = Some true -> fst t <= i -> nnth i (snd t) = Some false ->
    exists w2, bs_and d e w1 = Ok ST_SUCCESS w2 /\ bs_test e i w1 = Ok ST_OUT_OF_RANGE w1 /\
      bs_test d i w2 = Ok ST_FALSE w2.
Proof. exact exact_and_clears. Qed.
Print Assumptions c98_and_clears_refuted.
(** [c98_reached_instance] meets these hypotheses for i = 2. *)
Example c98_and_clears_instance :
  raw_bit (11, [true;true;true;true;true;true;true;true]) 2 = Some true /\
  nnth 2 [true;false;false;false;false;false;false;false] = Some false.
Proof. now split. Qed.

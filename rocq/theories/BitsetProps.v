(** Property theorems of the bitset (C34-C39, C61, C62).  Statements only; the counterexamples are in BitsetRefuted.v. *)
From Verif Require Import Base Status Mem VectorModel VectorDriver VectorExamples StringModel StringExamples
  BitsetModel BitsetSpec BitsetDriver BitsetFinal BitsetExamples.
From Coq Require Import ZifyBool ZifyNat ZifyN.

(** C34.  Any legal sequence of calls on a growable bitset returns the statuses and leaves the bits of the machine
    [bitsteps] over lists of booleans; all other memory is untouched. *)
Theorem c34_growable_bitset :
  forall (w0 : world N) n g s ops,
    bitinit_args_ok w0 n g s -> n mod 8 = 0 -> legal None ops (zeros n) -> bitroom (n + pushes ops) ->
    exists b0 w1 b w,
      with_zero (fun z => bs_init_ex z n true g s) w0 = Ok (ST_SUCCESS, Some b0) w1 /\
      run_bitops b0 ops w1 = Ok (fst (bitsteps None ops (zeros n)), b) w /\
      bitshows w b (snd (bitsteps None ops (zeros n))) /\
      (forall k x, heap w0 k = Some x -> heap w k = Some x).
Proof. exact growable_bitset. Qed.
Print Assumptions c34_growable_bitset.
(** The same in a caller's buffer; nothing is allocated and nothing outside the buffer changes. *)
Theorem c34_fixed_bitset :
  forall (w0 : world N) n cap blk0 pre buf post ops,
    bitbuffer_args_ok w0 n cap blk0 pre buf post -> n mod 8 = 0 -> legal (Some (8 * cap)) ops (zeros n) ->
    bitroom (n + pushes ops) ->
    exists b0 w1 b w buf',
      with_zero (fun z => bs_init_buffer z n (Some (mkptr blk0 (nlen pre))) cap) w0 = Ok (ST_SUCCESS, Some b0) w1 /\
      run_bitops b0 ops w1 = Ok (fst (bitsteps (Some (8 * cap)) ops (zeros n)), b) w /\
      bitshows w b (snd (bitsteps (Some (8 * cap)) ops (zeros n))) /\
      heap w blk0 = Some (pre ++ buf' ++ post) /\ nlen buf' = cap /\ tick w = tick w0 /\
      (forall k, k <> blk0 -> heap w k = heap w0 k).
Proof. exact fixed_bitset. Qed.
Print Assumptions c34_fixed_bitset.
(** Destroy after any legal history gives the memory back. *)
Theorem c34_destroy :
  forall (w0 : world N) n g s ops b0 w1 rs b w,
    bitinit_args_ok w0 n g s -> n mod 8 = 0 -> legal None ops (zeros n) -> bitroom (n + pushes ops) ->
    with_zero (fun z => bs_init_ex z n true g s) w0 = Ok (ST_SUCCESS, Some b0) w1 ->
    run_bitops b0 ops w1 = Ok (rs, b) w ->
    exists b' w', bs_destroy b w = Ok (ST_SUCCESS, b') w' /\ forall k, heap w' k = heap w0 k.
Proof. exact growable_bitset_destroy. Qed.
Print Assumptions c34_destroy.
Theorem c34_destroy_buffer :
  forall (w0 : world N) n cap blk0 pre buf post ops b0 w1 rs b w,
    bitbuffer_args_ok w0 n cap blk0 pre buf post -> n mod 8 = 0 -> legal (Some (8 * cap)) ops (zeros n) ->
    bitroom (n + pushes ops) ->
    with_zero (fun z => bs_init_buffer z n (Some (mkptr blk0 (nlen pre))) cap) w0 = Ok (ST_SUCCESS, Some b0) w1 ->
    run_bitops b0 ops w1 = Ok (rs, b) w ->
    exists b', bs_destroy b w = Ok (ST_SUCCESS, b') w.
Proof. exact fixed_bitset_destroy. Qed.
Print Assumptions c34_destroy_buffer.
Example c34_hypotheses_met :
  (bitinit_args_ok world0 8 2 4 /\ 8 mod 8 = 0 /\ legal None bit_history (zeros 8) /\ bitroom (8 + pushes bit_history)) /\
  bitbuffer_args_ok (text_world [1;9;9;9;2]) 8 3 0 [1] [9;9;9] [2] /\ legal (Some 24) bit_history (zeros 8).
Proof.
  split; [split; [repeat split; try apply world0_ok; lia|split; [reflexivity|split; [|reflexivity]]]|
          split; [split; [apply text_world_ok|repeat split; try reflexivity; discriminate]|]].
  - cbn. repeat split; discriminate.
  - cbn. repeat split; discriminate.
Qed.
Example c34_history_bits :
  bitsteps None bit_history (zeros 8) =
  (repeat ST_SUCCESS 12, [true;false;true;true;true;true;true;true;true;true]).
Proof. reflexivity. Qed.

(** C35, for sizes that are a multiple of 8 (below 2^35): exactly [n] usable bits, all clear.  The full statement, for
    every [n], is false: [c35_init_refuted]. *)
Theorem c35_init_partial :
  forall (w0 : world N) n g s, bitinit_args_ok w0 n g s -> n mod 8 = 0 ->
    exists b w, with_zero (fun z => bs_init_ex z n true g s) w0 = Ok (ST_SUCCESS, Some b) w /\
      bitshows w b (zeros n) /\ bitbehaves_as None w b (zeros n).
Proof. exact init_zero. Qed.
Print Assumptions c35_init_partial.
Theorem c35_init_buffer_partial :
  forall (w0 : world N) n cap blk0 pre buf post, bitbuffer_args_ok w0 n cap blk0 pre buf post -> n mod 8 = 0 ->
    exists b w, with_zero (fun z => bs_init_buffer z n (Some (mkptr blk0 (nlen pre))) cap) w0 = Ok (ST_SUCCESS, Some b) w /\
      bitshows w b (zeros n) /\ bitbehaves_as (Some (8 * cap)) w b (zeros n).
Proof. exact init_buffer_zero. Qed.
Print Assumptions c35_init_buffer_partial.
Example c35_hypotheses_met :
  bitinit_args_ok world0 16 2 4 /\ bitbuffer_args_ok (text_world [1;9;9;9;2]) 16 3 0 [1] [9;9;9] [2].
Proof.
  split; [repeat split; try apply world0_ok; lia|].
  split; [apply text_world_ok|repeat split; try reflexivity; discriminate].
Qed.

(** C36.  All three answers are right when the size is 0 or 7 modulo 8 is 7; Any and None also whenever the history
    left no stale bits and the size is not a multiple of 8.  For multiples of 8 all three ignore the fourth-last bit,
    and are the right answers for the other bits.  The full statement is false: [c36_any_none_refuted] and following;
    [c36_all_unused_refuted] gives the answer of All for the other sizes. *)
Theorem c36_queries_partial :
  forall limit (w : world N) b bs, bitreached limit w b bs -> bs = [] \/ nlen bs mod 8 = 7 ->
    bs_all b w = Ok (yes_no (forallb id_bool bs)) w /\
    bs_any b w = Ok (yes_no (existsb id_bool bs)) w /\ bs_none b w = Ok (yes_no (negb (existsb id_bool bs))) w.
Proof. exact queries_7. Qed.
Print Assumptions c36_queries_partial.
Theorem c36_any_none_partial :
  forall limit (w : world N) b bs, bitreached_tidy limit w b bs -> bs = [] \/ nlen bs mod 8 <> 0 ->
    bs_any b w = Ok (yes_no (existsb id_bool bs)) w /\ bs_none b w = Ok (yes_no (negb (existsb id_bool bs))) w.
Proof. exact any_none_tidy. Qed.
Print Assumptions c36_any_none_partial.
Theorem c36_whole_bytes_partial :
  forall limit (w : world N) b bs, bitreached limit w b bs -> bs <> [] -> nlen bs mod 8 = 0 ->
    let seen := all_but (nlen bs - 4) bs in
    bs_all b w = Ok (yes_no (forallb id_bool seen)) w /\
    bs_any b w = Ok (yes_no (existsb id_bool seen)) w /\ bs_none b w = Ok (yes_no (negb (existsb id_bool seen))) w.
Proof. exact queries_full. Qed.
Print Assumptions c36_whole_bytes_partial.
Example c36_hypotheses_met :
  (exists (w : world N) b, bitreached None w b [true;false;false;true;true;false;true]) /\
  (exists (w : world N) b, bitreached_tidy None w b [true;false;false]) /\
  (exists (w : world N) b, bitreached None w b [true;false;false;true;true;false;true;false]).
Proof.
  split; [|split].
  - destruct (bitreach_any [true;false;false;true;true;false;true]) as (w & b & H & _); [reflexivity|now exists w, b].
  - destruct (bitreach_any [true;false;false]) as (w & b & _ & H); [reflexivity|now exists w, b].
  - destruct (bitreach_any [true;false;false;true;true;false;true;false]) as (w & b & H & _); [reflexivity|now exists w, b].
Qed.

(** C37.  Count is right for multiples of 8 and whenever the history left no stale bits; it is always between the
    number of set bits and the size.  The full statement is false: [c37_count_pop_refuted]. *)
Theorem c37_count_whole_bytes_partial :
  forall limit (w : world N) b bs, bitreached limit w b bs -> nlen bs mod 8 = 0 ->
    bs_count b w = Ok (ST_SUCCESS, ones bs) w.
Proof. exact count_full. Qed.
Print Assumptions c37_count_whole_bytes_partial.
Theorem c37_count_tidy_partial :
  forall limit (w : world N) b bs, bitreached_tidy limit w b bs -> bs_count b w = Ok (ST_SUCCESS, ones bs) w.
Proof. exact count_tidy. Qed.
Print Assumptions c37_count_tidy_partial.
Theorem c37_count_bounds_partial :
  forall limit (w : world N) b bs, bitreached limit w b bs ->
    exists n, bs_count b w = Ok (ST_SUCCESS, n) w /\ ones bs <= n <= nlen bs.
Proof. exact count_bounds. Qed.
Print Assumptions c37_count_bounds_partial.
Example c37_hypotheses_met :
  (exists (w : world N) b, bitreached None w b [true;false;false;true;true;false;true;false]) /\
  (exists (w : world N) b, bitreached_tidy None w b [true;false;true]) /\ ones [true;false;true] = 2.
Proof.
  split; [|split; [|reflexivity]].
  - destruct (bitreach_any [true;false;false;true;true;false;true;false]) as (w & b & H & _); [reflexivity|now exists w, b].
  - destruct (bitreach_any [true;false;true]) as (w & b & _ & H); [reflexivity|now exists w, b].
Qed.

(** C38.  The bits both bitsets have are combined; the source, both sizes and the destination's bits after the
    source's last byte stay.  The full statement, for all bits after the source's last bit, is false:
    [c38_partial_byte_refuted]. *)
Theorem c38_and_partial : combines bs_and andb.
Proof. exact (fun limd w d xs lims w1 s ys => logic_ok op_and andb limd w d xs lims w1 s ys and_bytewise). Qed.
Print Assumptions c38_and_partial.
Theorem c38_or_partial : combines bs_or orb.
Proof. exact (fun limd w d xs lims w1 s ys => logic_ok op_or orb limd w d xs lims w1 s ys or_bytewise). Qed.
Print Assumptions c38_or_partial.
Theorem c38_xor_partial : combines bs_xor xorb.
Proof. exact (fun limd w d xs lims w1 s ys => logic_ok op_xor xorb limd w d xs lims w1 s ys xor_bytewise). Qed.
Print Assumptions c38_xor_partial.
(** The hypothesis [apart] holds whenever the source is growable and was built after the destination. *)
Theorem c38_apart :
  forall limd (w : world N) d xs w1 s ys, bitreached limd w d xs -> bitbuilt None w w1 s ys -> apart d s.
Proof. exact built_apart. Qed.
Print Assumptions c38_apart.
(** A bitset combined with itself. *)
Theorem c38_self :
  forall limit (w : world N) b bs, bitreached limit w b bs ->
    (exists w', bs_and b b w = Ok ST_SUCCESS w' /\ bitbehaves_as limit w' b (map (fun x => x && x)%bool bs)) /\
    (exists w', bs_or b b w = Ok ST_SUCCESS w' /\ bitbehaves_as limit w' b (map (fun x => x || x)%bool bs)) /\
    (exists w', bs_xor b b w = Ok ST_SUCCESS w' /\ bitbehaves_as limit w' b (map (fun x => xorb x x) bs)).
Proof.
  exact (fun limit w b bs H => conj (logic_self op_and andb limit w b bs and_bytewise H)
    (conj (logic_self op_or orb limit w b bs or_bytewise H) (logic_self op_xor xorb limit w b bs xor_bytewise H))).
Qed.
Print Assumptions c38_self.
Example c38_hypotheses_met : exists limd (w : world N) d xs lims w1 s ys,
  bitreached limd w d xs /\ bitbuilt lims w w1 s ys /\ apart d s /\ xs = [true;false;true;true] /\ ys = [true;true;false].
Proof. exact two_bitsets. Qed.

(** C39, for nonempty bitsets: Pop removes the last bit.  The claim about empty ones is false:
    [c39_pop_empty_refuted]. *)
Theorem c39_pop_partial :
  forall limit (w : world N) b bs, bitreached limit w b bs -> bs <> [] ->
    exists b' w', bs_pop b w = Ok (ST_SUCCESS, b') w' /\ bitbehaves_as limit w' b' (nfirst (nlen bs - 1) bs).
Proof. exact pop_nonempty. Qed.
Print Assumptions c39_pop_partial.
Example c39_hypotheses_met : exists (w : world N) b, bitreached (Some 16) w b [true;false;true].
Proof. apply (bitreach_buf_any _ 2); [reflexivity|discriminate|now split]. Qed.

(** C62, for multiples of 8 below 2^35.  The full statement is false: [c62_reserve_refuted]. *)
Theorem c62_reserve_partial :
  forall limit (w : world N) b bs n, bitreached limit w b bs -> n mod 8 = 0 -> n / 8 < W32 ->
    exists r b' w', bs_reserve b n w = Ok (r, b') w' /\ bitbehaves_as limit w' b' bs /\
      (r = ST_SUCCESS -> exists c, bs_get_capacity_bytes b' = (ST_SUCCESS, c) /\ n <= 8 * c).
Proof. exact reserve_capacity. Qed.
Print Assumptions c62_reserve_partial.
Example c62_hypotheses_met : (exists (w : world N) b, bitreached (Some 16) w b [true;false;true]) /\ 64 mod 8 = 0 /\ 64 / 8 < W32.
Proof. split; [exact c39_hypotheses_met|now split]. Qed.

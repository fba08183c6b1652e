(** Property theorems on programs over several bitsets (C112).  Statements only. *)
From Verif Require Import Base Status Mem VectorModel VectorDriver VectorExamples StringModel BitsetModel BitsetSpec
  BitsetDriver ExactSpec ViewProofs GateDriver GateProofs2.
From Verif Require Import Mem.

(** C112: every legal program that creates any number of bitsets, changes them and combines any two of them (also one
    with itself) runs without a fault; every status and, at the end, every query on every bitset is what the machine of
    the specification says, so no bitset is ever changed by a call on another one; memory not theirs is left alone, and
    destroying all of them releases exactly what the program allocated. *)
Theorem c112_programs :
  forall (w0 : world N) cs, world_ok w0 -> allocator_ok w0 -> calls_ok 0 cs -> bitroom (calls_need cs) ->
    exists bs w w', run_bcalls [] cs w0 = Ok (fst (call_steps cs []), bs) w /\
      Forall2 (raw_shows w) bs (snd (call_steps cs [])) /\
      (forall k x, heap w0 k = Some x -> heap w k = Some x) /\
      destroy_all bs w = Ok (map (fun _ => ST_SUCCESS) bs) w' /\ forall k, heap w' k = heap w0 k.
Proof. exact gate_programs. Qed.
Print Assumptions c112_programs.
(** Three bitsets, one of 13 bits, whose last five have no byte; all three operations, one with itself, and pushes. *)
Example c112_programs_met :
  let cs := [BNew 16 2 4; BNew 13 1 0; BOn 0 (BSet 3); BOn 0 (BSet 12); BOn 1 BFlip; BNew 0 255 255; BOn 2 (BPush true);
             BCombine And 0 1; BCombine Or 2 0; BCombine Xor 1 1; BOn 1 BPop] in
  calls_ok 0 cs /\ bitroom (calls_need cs) /\
  call_steps cs [] = ([ST_SUCCESS; ST_SUCCESS; ST_SUCCESS; ST_SUCCESS; ST_SUCCESS; ST_SUCCESS; ST_SUCCESS; ST_SUCCESS;
      ST_SUCCESS; ST_SUCCESS; ST_SUCCESS],
    [(16, [false;false;false;true;false;false;false;false;false;false;false;false;true;false;false;false]);
     (12, zeros 8); (1, [true;false;false;true;false;false;false;false])]).
Proof. cbv zeta. split; [cbn; change W64 with 18446744073709551616; repeat split; lia|]. split; [reflexivity|]. vm_compute. reflexivity. Qed.
(** The bitsets of a program show their states. *)
Theorem c112_bitsets_show :
  forall k (w : world N) bs ss, bitsets k w bs ss -> Forall2 (raw_shows w) bs ss /\ nlen ss = k.
Proof. exact bitsets_shows. Qed.
Print Assumptions c112_bitsets_show.

(** ** Laws, for bitsets of any, also different, sizes *)
(** De Morgan. *)
Theorem c112_de_morgan_or :
  forall k (w : world N) bs ss i j, bitsets k w bs ss -> i < k -> j < k ->
    same_effect bs w [BOn i BFlip; BOn j BFlip; BCombine And i j; BOn i BFlip; BOn j BFlip] [BCombine Or i j].
Proof. exact de_morgan_or. Qed.
Print Assumptions c112_de_morgan_or.
Theorem c112_de_morgan_and :
  forall k (w : world N) bs ss i j, bitsets k w bs ss -> i < k -> j < k ->
    same_effect bs w [BOn i BFlip; BOn j BFlip; BCombine Or i j; BOn i BFlip; BOn j BFlip] [BCombine And i j].
Proof. exact de_morgan_and. Qed.
Print Assumptions c112_de_morgan_and.
(** XOR with the same bitset twice changes nothing. *)
Theorem c112_xor_twice :
  forall k (w : world N) bs ss i j, bitsets k w bs ss -> i < k -> j < k -> i <> j ->
    same_effect bs w [BCombine Xor i j; BCombine Xor i j] [].
Proof. exact xor_twice. Qed.
Print Assumptions c112_xor_twice.
(** Set difference, in two ways. *)
Theorem c112_difference :
  forall k (w : world N) bs ss i j, bitsets k w bs ss -> i < k -> j < k -> i <> j ->
    same_effect bs w [BCombine Or i j; BCombine Xor i j] [BOn j BFlip; BCombine And i j; BOn j BFlip].
Proof. exact difference. Qed.
Print Assumptions c112_difference.
(** AND and OR done again change nothing more. *)
Theorem c112_again :
  forall k (w : world N) bs ss i j g, bitsets k w bs ss -> i < k -> j < k -> g <> Xor ->
    same_effect bs w [BCombine g i j; BCombine g i j] [BCombine g i j].
Proof. exact again. Qed.
Print Assumptions c112_again.
(** The order in which other bitsets are combined into one does not matter. *)
Theorem c112_any_order :
  forall k (w : world N) bs ss g i j l, bitsets k w bs ss -> i < k -> j < k -> l < k -> i <> j -> i <> l ->
    same_effect bs w [BCombine g i j; BCombine g i l] [BCombine g i l; BCombine g i j].
Proof. exact any_order. Qed.
Print Assumptions c112_any_order.
(** XOR three times exchanges the bits of two bitsets with the same number of bytes. *)
Theorem c112_xor_swap :
  forall k (w : world N) bs ss i j n xs m ys, bitsets k w bs ss -> i <> j -> nnth i ss = Some (n, xs) ->
    nnth j ss = Some (m, ys) -> nlen xs = nlen ys ->
    exists bs' w', run_bcalls bs [BCombine Xor i j; BCombine Xor j i; BCombine Xor i j] w =
        Ok ([ST_SUCCESS; ST_SUCCESS; ST_SUCCESS], bs') w' /\
      Forall2 (raw_shows w') bs' (put_at i (n, ys) (put_at j (m, xs) ss)).
Proof. exact xor_swap. Qed.
Print Assumptions c112_xor_swap.
(** ResetAll and OR copy the bits of another bitset, as far as the bytes of the destination go. *)
Theorem c112_copy :
  forall k (w : world N) bs ss i j n xs m ys, bitsets k w bs ss -> i <> j -> nnth i ss = Some (n, xs) ->
    nnth j ss = Some (m, ys) ->
    exists bs' w', run_bcalls bs [BOn i BResetAll; BCombine Or i j] w = Ok ([ST_SUCCESS; ST_SUCCESS], bs') w' /\
      Forall2 (raw_shows w') bs' (put_at i (n, nfirst (nlen xs) ys ++ zeros (nlen xs - nlen ys)) ss).
Proof. exact copy_bits. Qed.
Print Assumptions c112_copy.
(** Three bitsets, two of them with two bytes. *)
Example c112_laws_met : exists (w : world N) bs ss, bitsets 3 w bs ss /\
  nnth 0 ss = Some (16, put_bit (fun _ => true) 3 (zeros 16)) /\ nnth 1 ss = Some (17, map negb (zeros 16)) /\
  nnth 2 ss = Some (8, zeros 8).
Proof.
  destruct (c112_programs world0 [BNew 16 2 4; BNew 17 2 4; BNew 8 2 4; BOn 0 (BSet 3); BOn 1 BFlip]) as (bs & w & w' & E & F & _);
    [apply world0_ok|apply world0_ok|cbn; change W64 with 18446744073709551616; repeat split; lia|reflexivity|].
  exists w, bs. eexists. split; [|split; [|split]].
  - exists world0, [BNew 16 2 4; BNew 17 2 4; BNew 8 2 4; BOn 0 (BSet 3); BOn 1 BFlip]. eexists. split; [apply world0_ok|]. split; [apply world0_ok|].
    split; [cbn; change W64 with 18446744073709551616; repeat split; lia|]. split; [reflexivity|]. split; [exact E|]. split; [reflexivity|].
    apply f2_len in F. rewrite F. reflexivity.
  - reflexivity.
  - reflexivity.
  - reflexivity.
Qed.

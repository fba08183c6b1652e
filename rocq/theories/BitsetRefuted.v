(** Bitset properties that the code does not have: concrete programs, evaluated by the kernel, and general facts. *)
From Verif Require Import Base Status Mem VectorModel VectorDriver VectorExamples StringModel StringExamples
  BitsetModel BitsetSpec BitsetDriver BitsetFinal BitsetExamples.
From Coq Require Import ZifyBool ZifyNat ZifyN.

(** C35 is false for every size that is not a multiple of 8: the bits of the last, incomplete byte do not exist. *)
Theorem c35_init_refuted :
  forall (w0 : world N) n g s, bitinit_args_ok w0 n g s -> n mod 8 <> 0 ->
    exists b w, with_zero (fun z => bs_init_ex z n true g s) w0 = Ok (ST_SUCCESS, Some b) w /\
      bs_get_size b = (ST_SUCCESS, n) /\ n - 1 < n /\
      forall i, n / 8 * 8 <= i -> bs_test b i w = Ok ST_OUT_OF_RANGE w /\ bs_set b i w = Ok ST_OUT_OF_RANGE w.
Proof. exact init_tail. Qed.
Print Assumptions c35_init_refuted.
Example c35_init_instance : exists w0 : world N, bitinit_args_ok w0 13 2 4 /\ 13 mod 8 <> 0.
Proof. exists world0. repeat split; try apply world0_ok; vm_compute; congruence. Qed.
(** ... and for 2^35 bits, whose byte count does not fit into 32 bits: Init reports success with one byte. *)
Theorem c35_init_huge_refuted :
  exists (w : world N),
    result ((let* (rs, b) := start_bits 34359738368 [] in
             let* r := bs_test b 8 in ret (rs, bs_get_size b, r)) w)
    = inr ([], (ST_SUCCESS, 34359738368), ST_OUT_OF_RANGE).
Proof. exists world0. vm_compute. reflexivity. Qed.

(** C36 is false for 8 bits of which only bit 4 is set (Any FALSE, None TRUE), for 8 bits of which only bit 4 is
    clear (All TRUE), and for one set bit (All FALSE). *)
Theorem c36_any_none_refuted :
  exists (w : world N) k, k < 8 /\
    result ((let* (rs, b) := start_bits 8 [BSet k] in
             let* t := bs_test b k in let* r1 := bs_any b in let* r2 := bs_none b in ret (rs, t, r1, r2)) w)
    = inr ([ST_SUCCESS], ST_TRUE, ST_FALSE, ST_TRUE).
Proof. exists world0, 4. vm_compute. split; reflexivity. Qed.
Theorem c36_all_refuted :
  exists (w : world N) k, k < 8 /\
    result ((let* (rs, b) := start_bits 8 [BSetAll; BReset k] in
             let* t := bs_test b k in let* r := bs_all b in ret (rs, t, r)) w)
    = inr ([ST_SUCCESS; ST_SUCCESS], ST_FALSE, ST_TRUE).
Proof. exists world0, 4. vm_compute. split; reflexivity. Qed.
Theorem c36_all_one_bit_refuted :
  exists (w : world N),
    result ((let* (rs, b) := start_bits 0 [BPush true] in
             let* t := bs_test b 0 in let* r := bs_all b in ret (rs, bs_get_size b, t, r)) w)
    = inr ([ST_SUCCESS], (ST_SUCCESS, 1), ST_TRUE, ST_FALSE).
Proof. exists world0. vm_compute. reflexivity. Qed.
(** ... and All is FALSE for every bitset of 1 to 6 modulo 8 bits without stale bits, even if all its bits are set. *)
Theorem c36_all_unused_refuted :
  forall limit (w : world N) b bs, bitreached_tidy limit w b bs -> 1 <= nlen bs mod 8 <= 6 ->
    bs_all b w = Ok ST_FALSE w.
Proof. exact all_unused. Qed.
Print Assumptions c36_all_unused_refuted.
Example c36_all_unused_instance : exists (w : world N) b, bitreached_tidy None w b (nrepeat true 13).
Proof. destruct (bitreach_any (nrepeat true 13)) as (w & b & _ & H); [reflexivity|now exists w, b]. Qed.
(** ... and Any can be TRUE although no bit is set: a popped bit is still counted. *)
Theorem c36_any_stale_refuted :
  exists (w : world N),
    result ((let* (rs, b) := start_bits 0 [BPush false; BPush true; BPop] in
             let* t := bs_test b 0 in let* r := bs_any b in ret (rs, bs_get_size b, t, r)) w)
    = inr ([ST_SUCCESS; ST_SUCCESS; ST_SUCCESS], (ST_SUCCESS, 1), ST_FALSE, ST_TRUE).
Proof. exists world0. vm_compute. reflexivity. Qed.

(** C37 is false after a Pop of a set bit, and after SetAll on a size that is not a multiple of 8. *)
Theorem c37_count_pop_refuted :
  exists (w : world N),
    result ((let* (rs, b) := start_bits 0 [BPush false; BPush true; BPop] in
             let* t := bs_test b 0 in let* c := bs_count b in ret (rs, bs_get_size b, t, c)) w)
    = inr ([ST_SUCCESS; ST_SUCCESS; ST_SUCCESS], (ST_SUCCESS, 1), ST_FALSE, (ST_SUCCESS, 1)).
Proof. exists world0. vm_compute. reflexivity. Qed.
Theorem c37_count_set_all_refuted :
  exists (w : world N),
    result ((let* (rs, b) := start_bits 0 [BPush false; BPush false; BPush false; BSetAll; BReset 0; BReset 1] in
             let* t0 := bs_test b 0 in let* t1 := bs_test b 1 in let* t2 := bs_test b 2 in
             let* c := bs_count b in ret (snd (bs_get_size b), t0, t1, t2, c)) w)
    = inr (3, ST_FALSE, ST_FALSE, ST_TRUE, (ST_SUCCESS, 3)).
Proof. exists world0. vm_compute. reflexivity. Qed.

(** C38 is false for bits past the source's size inside its last byte: AND of [1 1] with [1] clears bit 1. *)
Theorem c38_partial_byte_refuted :
  exists (w : world N),
    result ((let* (_, d) := start_bits 0 [BPush true; BPush true] in
             let* (_, s) := start_bits 0 [BPush true] in
             let* r := bs_and d s in
             let* t0 := bs_test d 0 in let* t1 := bs_test d 1 in
             ret (r, snd (bs_get_size d), snd (bs_get_size s), t0, t1)) w)
    = inr (ST_SUCCESS, 2, 1, ST_TRUE, ST_FALSE).
Proof. exists world0. vm_compute. reflexivity. Qed.

(** C39 is false for every empty bitset: Pop reports success and the size becomes 2^64-1. *)
Theorem c39_pop_empty_refuted :
  forall limit (w : world N) b, bitreached limit w b [] ->
    exists b', bs_pop b w = Ok (ST_SUCCESS, b') w /\ bs_get_size b' = (ST_SUCCESS, W64 - 1).
Proof. exact pop_empty. Qed.
Print Assumptions c39_pop_empty_refuted.
Example c39_instances : (exists (w : world N) b, bitreached None w b []) /\ exists (w : world N) b, bitreached (Some 16) w b [].
Proof.
  split; [destruct (bitreach_any []) as (w & b & H & _); [reflexivity|]; now exists w, b|].
  apply (bitreach_buf_any [] 2); [reflexivity|discriminate|now split].
Qed.

(** C61 is false for every full fixed buffer: the failing Push has already raised the size, by a bit that does not
    exist. *)
Theorem c61_push_full_refuted :
  forall k (w : world N) b bs value, bitreached (Some k) w b bs -> nlen bs = k ->
    exists b' w', with_zero (fun z => bs_push z b value) w = Ok (ST_INSUFFICIENT_BUFFER_SIZE, b') w' /\
      bs_get_size b' = (ST_SUCCESS, nlen bs + 1) /\ bs_test b' (nlen bs) w' = Ok ST_OUT_OF_RANGE w' /\
      (forall i, i < nlen bs -> bs_test b' i w' = Ok (verdict (nnth i bs)) w').
Proof. exact push_full. Qed.
Print Assumptions c61_push_full_refuted.
Example c61_instance : exists (w : world N) b,
  bitreached (Some 8) w b [true;false;false;true;true;true;false;false].
Proof. apply (bitreach_buf_any _ 1); [reflexivity|discriminate|now split]. Qed.
(** ... the same when the allocation of the next byte fails. *)
Theorem c61_push_allocation_refuted :
  exists (w : world N),
    result ((let* (rs, b) := start_bits 0 [BPush true; BPush false; BPush false; BPush false; BPush true; BPush false; BPush false;
              BPush false; BPush true] in
             let* r := bs_test b 8 in ret (rs, bs_get_size b, r)) w)
    = inr (repeat ST_SUCCESS 8 ++ [err_status 7], (ST_SUCCESS, 9), ST_OUT_OF_RANGE).
Proof. exists (world_failing [1]). vm_compute. reflexivity. Qed.

(** C62 is false for sizes that are not a multiple of 8, and for 2^35. *)
Theorem c62_reserve_refuted :
  exists (w : world N),
    result ((let* (rs, b) := start_bits 0 [BReserve 9] in ret (rs, bs_get_capacity b)) w) = inr ([ST_SUCCESS], (ST_SUCCESS, 8)) /\
    result ((let* (rs, b) := start_bits 0 [BReserve 34359738368] in ret (rs, bs_get_capacity b)) w)
      = inr ([ST_SUCCESS], (ST_SUCCESS, 8)).
Proof. exists world0. split; vm_compute; reflexivity. Qed.
(** ... more generally for every growable bitset and every size that is not a multiple of 8, unless the capacity was
    larger before. *)
Theorem c62_reserve_short_refuted :
  forall (w : world N) b bs n c0,
    bitreached None w b bs -> bs_get_capacity_bytes b = (ST_SUCCESS, c0) -> c0 <= n / 8 -> n mod 8 <> 0 -> n / 8 < W32 ->
    exists b' w', bs_reserve b n w = Ok (ST_SUCCESS, b') w' /\ bs_get_capacity_bytes b' = (ST_SUCCESS, n / 8) /\
      8 * (n / 8) < n.
Proof. exact reserve_short. Qed.
Print Assumptions c62_reserve_short_refuted.
Example c62_instance : exists (w : world N) b c0, bitreached None w b [true;false;true] /\
  bs_get_capacity_bytes b = (ST_SUCCESS, c0) /\ c0 <= (8 * c0 + 5) / 8 /\ (8 * c0 + 5) mod 8 <> 0.
Proof.
  destruct (bitreach_any [true;false;true]) as (w & b & H & _); [reflexivity|]. exists w, b, (v_cap (bs_bits b)).
  split; [exact H|]. split; [reflexivity|]. lia.
Qed.

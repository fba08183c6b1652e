(** C23: what Reserve leaves, and what the next Append does with it, for every growable string.  C62: what Reserve leaves of
    every bitset. *)
From Coq Require Import ZifyBool ZifyNat ZifyN.
From Verif Require Import Base Status Mem VectorModel VectorSpec VectorDriver StringModel StringSpec StringDriver
  StringFinal StringFinal2 ReserveProofs StringExamples VectorExamples BitsetModel BitsetSpec BitsetDriver
  BitsetExamples ExactSpec ReserveBits Mem.

(** After Reserve(n), GetCapacity reports n - 1 whenever it reported less before. *)
Theorem c23_reserve_exact :
  forall (w : world N) s cs c n,
    sreached_own w s cs -> sget_capacity s w = Ok (ST_SUCCESS, c) w -> n < W64 ->
    exists w' s', sreserve s n w = Ok (ST_SUCCESS, s') w' /\ sshows w' s' cs /\
      sget_capacity s' w' = Ok (ST_SUCCESS, N.max c (n - 1)) w'.
Proof. exact reserve_exact. Qed.
Print Assumptions c23_reserve_exact.
(** ... so that the capacity asked for is not there, for every string and every n above its capacity. *)
Theorem c23_reserve_short_refuted :
  forall (w : world N) s cs c n,
    sreached_own w s cs -> sget_capacity s w = Ok (ST_SUCCESS, c) w -> c < n < W64 ->
    exists w' s' c', sreserve s n w = Ok (ST_SUCCESS, s') w' /\ sget_capacity s' w' = Ok (ST_SUCCESS, c') w' /\ c' < n.
Proof. exact reserve_short. Qed.
Print Assumptions c23_reserve_short_refuted.

(** An Append that follows Reserve(n), under any allocator from then on, for growth factor g and shrink threshold t.  [room]
    is the number of bytes there are, [bytes] the number there must be.  If the bytes fit and shrinking is off or the room is
    at most t times what is needed, nothing is requested and the Append succeeds.  Otherwise one request is made, the capacity
    becomes g * bytes - 1, and the Append succeeds exactly if the request is granted. *)
Theorem c23_append_after_reserve :
  forall (w0 : world N) cap g t s0 w1 ops rs s w cs c n x orc',
    sinit_args_ok w0 cap g t -> Forall sums_ok ops -> sroom (sdemands ops) ->
    sinit_ex cap true g t w0 = Ok (ST_SUCCESS, Some s0) w1 -> run_sops s0 ops w1 = Ok (rs, s) w -> sshows w s cs ->
    sget_capacity s w = Ok (ST_SUCCESS, c) w -> n < W64 -> sroom (nlen cs + nlen x) -> x <> [] ->
    let bytes := nlen cs + nlen x + 1 in let room := N.max n (c + 1) in
    exists s1 w2 r s2 w3 cs2 c2,
      sreserve s n w = Ok (ST_SUCCESS, s1) w2 /\
      run_sop s1 (SAppend x) (with_oracle w2 orc') = Ok (r, s2) w3 /\
      sshows w3 s2 cs2 /\ sget_capacity s2 w3 = Ok (ST_SUCCESS, c2) w3 /\
      (bytes <= room /\ (t = 0 \/ room <= bytes * t) ->
         r = ST_SUCCESS /\ cs2 = cs ++ x /\ c2 = room - 1 /\ tick w3 = tick w2) /\
      (room < bytes \/ t <> 0 /\ bytes * t < room ->
         tick w3 = tick w2 + 1 /\ c2 = bytes * g - 1 /\
         match orc' (tick w2) with AOk _ => r = ST_SUCCESS /\ cs2 = cs ++ x | AFail e => r = err_status e /\ cs2 = cs end).
Proof. exact append_after_reserve. Qed.
Print Assumptions c23_append_after_reserve.
(** With shrinking on, an Append after a Reserve for more than t times what is needed gives the reserved space back, and
    fails if the allocator refuses the request this takes: for every string and every such n. *)
Theorem c23_given_back_refuted :
  forall (w0 : world N) cap g t s0 w1 ops rs s w cs n x,
    sinit_args_ok w0 cap g t -> Forall sums_ok ops -> sroom (sdemands ops) ->
    sinit_ex cap true g t w0 = Ok (ST_SUCCESS, Some s0) w1 -> run_sops s0 ops w1 = Ok (rs, s) w -> sshows w s cs ->
    1 <= g <= t -> x <> [] -> (nlen cs + nlen x + 1) * t < n -> n < W64 -> sroom (nlen cs + nlen x) ->
    exists s1 w2, sreserve s n w = Ok (ST_SUCCESS, s1) w2 /\
      (forall orc' fill, orc' (tick w2) = AOk fill -> exists s2 w3 c2,
         run_sop s1 (SAppend x) (with_oracle w2 orc') = Ok (ST_SUCCESS, s2) w3 /\
         sget_capacity s2 w3 = Ok (ST_SUCCESS, c2) w3 /\ c2 + 1 < n) /\
      (forall orc' e, orc' (tick w2) = AFail e -> exists s2 w3,
         run_sop s1 (SAppend x) (with_oracle w2 orc') = Ok (err_status e, s2) w3 /\ sshows w3 s2 cs).
Proof. exact reserved_given_back. Qed.
Print Assumptions c23_given_back_refuted.
(** Two characters appended to a string with growth factor 2 and shrink threshold 4, then Reserve(200) and two more. *)
Example c23_reserve_met : exists s0 w1 rs s w c,
  sinit_args_ok (text_world []) 0 2 4 /\ sinit_ex 0 true 2 4 (text_world []) = Ok (ST_SUCCESS, Some s0) w1 /\
  run_sops s0 [SAppend [97;98]] w1 = Ok (rs, s) w /\ sshows w s [97;98] /\ sget_capacity s w = Ok (ST_SUCCESS, c) w /\
  sreached_own w s [97;98] /\ c < 200 /\ (nlen [97;98] + nlen [99;100] + 1) * 4 < 200 /\ sroom (nlen [97;98] + nlen [99;100]).
Proof.
  assert (A : sinit_args_ok (text_world []) 0 2 4) by (apply sinit_args_example; [lia|lia|reflexivity]).
  destruct (growable_string (text_world []) 0 2 4 [SAppend [97;98]] A) as (s0 & w1 & rs & s & w & cs & E & E2 & K & SH & _).
  { repeat constructor. } { reflexivity. }
  apply sspecs_append in K; [|reflexivity]. subst cs.
  assert (RO : sreached_own w s [97;98]) by (exists (text_world []), 0, 2, 4, s0, w1, [SAppend [97;98]], rs; split; [exact A|]; split; [now repeat constructor|]; split; [reflexivity|]; auto).
  destruct (c23_small_capacity s0 w1 rs s w A SH E E2) as (c & CP & LC).
  exists s0, w1, rs, s, w, c. repeat (split; [assumption|]). split; reflexivity.
Qed.

(** C62 for every count: Reserve(n) makes a growable bitset's capacity at least [whole_bytes n] bytes (n / 8, without the last,
    incomplete byte, and wrapped around from 2^32 bytes on); a fixed buffer keeps its capacity and refuses if that is less. *)
Theorem c62_reserve_exact :
  forall limit (w : world N) b bs n c0,
    bitreached limit w b bs -> bs_get_capacity_bytes b = (ST_SUCCESS, c0) ->
    let r := match limit with Some _ => if whole_bytes n <=? c0 then ST_SUCCESS else ST_INSUFFICIENT_BUFFER_SIZE | None => ST_SUCCESS end in
    let c := match limit with Some _ => c0 | None => N.max c0 (whole_bytes n) end in
    exists b' w', bs_reserve b n w = Ok (r, b') w' /\ bitbehaves_as limit w' b' bs /\ bs_get_capacity_bytes b' = (ST_SUCCESS, c).
Proof. exact bit_reserve_exact. Qed.
Print Assumptions c62_reserve_exact.
(** The capacity asked for is there exactly if it was there before, or n is a multiple of 8 below 2^35. *)
Theorem c62_reserve_enough_refuted :
  forall (w : world N) b bs n c0,
    bitreached None w b bs -> bs_get_capacity_bytes b = (ST_SUCCESS, c0) ->
    exists b' w' c, bs_reserve b n w = Ok (ST_SUCCESS, b') w' /\ bs_get_capacity_bytes b' = (ST_SUCCESS, c) /\
      (n <= 8 * c <-> n <= 8 * c0 \/ n mod 8 = 0 /\ n / 8 < W32).
Proof. exact bit_reserve_enough. Qed.
Print Assumptions c62_reserve_enough_refuted.
Example c62_reserve_met :
  (exists (w : world N) b c0, bitreached None w b [true;false;true] /\ bs_get_capacity_bytes b = (ST_SUCCESS, c0)) /\
  (exists (w : world N) b c0, bitreached (Some 16) w b [true;false;true] /\ bs_get_capacity_bytes b = (ST_SUCCESS, c0)).
Proof.
  split.
  - destruct (bitreach_any [true;false;true]) as (w & b & H & _); [reflexivity|]. now exists w, b, (v_cap (bs_bits b)).
  - destruct (bitreach_buf_any [true;false;true] 2) as (w & b & H); [reflexivity|discriminate|now split|].
    now exists w, b, (v_cap (bs_bits b)).
Qed.

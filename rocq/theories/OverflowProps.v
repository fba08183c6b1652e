(** C79: sizes that do not fit are refused.  The property fails: neither the library nor its default
    allocator checks the product of the number of elements and the size of an element. *)
From Verif Require Import Base NListFacts Status Mem MemFacts VectorModel VectorSpec VectorDriver VectorExamples
  StringModel StringDriver StringExamples OverflowExamples OverflowSpec OverflowProofs OverflowProofs2.
From Coq Require Import ZifyBool ZifyNat ZifyN.

(** What holds: when the bytes can be counted, Reserve gives the room it reports, and filling it asks
    for no more memory. *)
Theorem c79_reserve_partial :
  forall C (w : Mem.world C) v xs n, reached_own w v xs -> snd (vget_capacity v) < n -> n * v_esz v < W64 ->
    exists v' w', vreserve v n w = Ok (ST_SUCCESS, v') w' /\ vget_capacity v' = (ST_SUCCESS, n) /\ shows w' v' xs /\
      forall ys, Forall (fun y => nlen y = v_esz v) ys -> nlen xs + nlen ys <= n ->
        exists v2 w2, run_ops v' (map OPushBack ys) w' = Ok (map (fun _ => ST_SUCCESS) ys, v2) w2 /\ shows w2 v2 (xs ++ ys) /\
          tick w2 = tick w'.
Proof. exact (@reserve_enough). Qed.
Print Assumptions c79_reserve_partial.
Example c79_reserve_hypotheses_met : exists (w : Mem.world N) v, reached_own w v [[1;2];[3;4];[5;6]] /\
  snd (vget_capacity v) < 9223372036854775807 /\ 9223372036854775807 * v_esz v < W64.
Proof.
  destruct ex_reached as (w & v & R & E & _ & CP). exists w, v. rewrite CP, E. split; [exact R|]. split; reflexivity.
Qed.

(** Every Reserve whose bytes cannot be counted succeeds and reports the room that is not there:
    filling it writes beyond the end of the block, and elements the vector already has are lost when
    the block has become too short for them. *)
Theorem c79_reserve_refuted :
  forall C (w : Mem.world C) v xs n, reached_own w v xs -> snd (vget_capacity v) < n < W64 -> W64 <= n * v_esz v ->
    exists v' w', vreserve v n w = Ok (ST_SUCCESS, v') w' /\ vget_capacity v' = (ST_SUCCESS, n) /\
      (forall ys, Forall (fun y => nlen y = v_esz v) ys -> ys <> [] -> nlen xs + nlen ys <= n ->
         (n * v_esz v) mod W64 < (nlen xs + nlen ys) * v_esz v ->
         run_ops v' (map OPushBack ys) w' = Fault OutOfBounds) /\
      (let i := (n * v_esz v) mod W64 / v_esz v in i < nlen xs -> read_elem v' i w' = Fault OutOfBounds).
Proof. exact (@reserve_overflow). Qed.
Print Assumptions c79_reserve_refuted.
(** 2^63 elements of two bytes: no bytes at all; 2^63 + 1 elements: two bytes. *)
Example c79_reserve_refuted_hypotheses_met : exists (w : Mem.world N) v, reached_own w v [[1;2];[3;4];[5;6]] /\
  let n := 9223372036854775809 in snd (vget_capacity v) < n < W64 /\ W64 <= n * v_esz v /\
  (n * v_esz v) mod W64 < (3 + 1) * v_esz v /\ (n * v_esz v) mod W64 / v_esz v < 3.
Proof.
  destruct ex_reached as (w & v & R & E & _ & CP). exists w, v. rewrite CP, E. split; [exact R|]. cbv zeta.
  split; [split; reflexivity|]. split; [discriminate|]. split; reflexivity.
Qed.

(** The same for every new vector. *)
Theorem c79_init_refuted :
  forall C (w : Mem.world C) e cap d g s, world_ok w -> allocator_ok w -> 1 <= e -> 1 <= g -> cap < W64 -> W64 <= cap * e ->
    exists v w', vinit_ex e cap d true g s w = Ok (ST_SUCCESS, Some v) w' /\ vget_capacity v = (ST_SUCCESS, cap) /\
      forall ys, Forall (fun y => nlen y = e) ys -> nlen ys <= cap -> (cap * e) mod W64 < nlen ys * e ->
        run_ops v (map OPushBack ys) w' = Fault OutOfBounds.
Proof. exact (@init_overflow). Qed.
Print Assumptions c79_init_refuted.
Example c79_init_hypotheses_met : exists (w : Mem.world N), world_ok w /\ allocator_ok w /\
  let e := 4 in let cap := 4611686018427387904 in cap < W64 /\ W64 <= cap * e /\ (cap * e) mod W64 < nlen [[1;2;3;4]] * e.
Proof.
  exists (text_world []). split; [|split; [|]].
  - intros b L. cbn in *. destruct b; [lia|reflexivity].
  - intros t. eexists. reflexivity.
  - cbv zeta. split; [reflexivity|]. split; [discriminate|reflexivity].
Qed.

(** Resize asks for the growth factor times the new size.  When that number or its bytes cannot be
    counted and what is left of them is too little, the vector has the new size and elements that are
    not in its block. *)
Theorem c79_resize_refuted :
  forall C (w : Mem.world C) v xs n, reached_own w v xs -> snd (vget_capacity v) < n < W64 -> after_resize v n < n * v_esz v ->
    exists v' w' i, vresize v n w = Ok (ST_SUCCESS, v') w' /\ vget_size v' = (ST_SUCCESS, n) /\ i < n /\
      read_elem v' i w' = Fault OutOfBounds.
Proof. exact (@resize_overflow). Qed.
Print Assumptions c79_resize_refuted.
(** With an initial value for the new elements the writes go beyond the block themselves. *)
Theorem c79_resize_ex_refuted :
  forall C (w : Mem.world C) v xs n x, reached_own w v xs -> snd (vget_capacity v) < n < W64 -> nlen x = v_esz v ->
    after_resize v n < n * v_esz v -> run_op v (OResizeEx n x) w = Fault OutOfBounds.
Proof. exact (@resize_ex_overflow). Qed.
Print Assumptions c79_resize_ex_refuted.
Example c79_resize_hypotheses_met : exists (w : Mem.world N) v, reached_own w v [[1;2];[3;4];[5;6]] /\
  let n := 4611686018427387904 in snd (vget_capacity v) < n < W64 /\ nlen [7;8] = v_esz v /\
  after_resize v n < n * v_esz v.
Proof.
  destruct ex_growing as (w & v & R & E & GR & CP). exists w, v. unfold after_resize. rewrite CP, E, GR. split; [exact R|]. cbv zeta.
  split; [split; reflexivity|]. split; [reflexivity|]. reflexivity.
Qed.

(** A duplicate made with a capacity whose bytes cannot be counted: the elements are written beyond
    the block. *)
Theorem c79_duplicate_refuted :
  forall C (w : Mem.world C) v xs cap g s, reached w v xs -> allocator_ok w -> 1 <= g ->
    cap < W64 -> (N.max cap (nlen xs) * v_esz v) mod W64 < nlen xs * v_esz v ->
    vduplicate_ex v cap true g s w = Fault OutOfBounds.
Proof. exact (@duplicate_overflow). Qed.
Print Assumptions c79_duplicate_refuted.
Example c79_duplicate_hypotheses_met : exists (w : Mem.world N) v, reached w v [[1;2];[3;4];[5;6]] /\
  let cap := 9223372036854775808 in cap < W64 /\ (N.max cap 3 * v_esz v) mod W64 < 3 * v_esz v.
Proof.
  destruct ex_reached as (w & v & R & E & _ & CP). exists w, v. rewrite E. split; [now left|]. split; reflexivity.
Qed.

(** Strings: Resize writes the terminating NUL beyond the block for every new size that is multiplied
    out of range, and before the block for the largest one. *)
Theorem c79_string_resize_refuted :
  forall (w : Mem.world N) s cs n, sreached_own w s cs -> v_cap (s_vec s) <= n -> n + 1 < W64 ->
    N.max 1 (((n + 1) * v_growth (s_vec s)) mod W64) < n + 1 -> sresize s n w = Fault OutOfBounds.
Proof. exact sresize_overflow. Qed.
Print Assumptions c79_string_resize_refuted.
Example c79_string_resize_hypotheses_met : exists w s, sreached_own w s [97;98;99] /\ let n := 9223372036854775807 in
  v_cap (s_vec s) <= n /\ n + 1 < W64 /\ N.max 1 (((n + 1) * v_growth (s_vec s)) mod W64) < n + 1.
Proof.
  destruct ex_growing_string as (w & s & R & CP & GR). exists w, s. rewrite CP, GR. split; [exact R|]. cbv zeta. split; [discriminate|].
  split; reflexivity.
Qed.
Theorem c79_string_resize_max_refuted :
  forall (w : Mem.world N) s cs, sreached_own w s cs -> sroom (nlen cs) -> sresize s (W64 - 1) w = Fault OutOfBounds.
Proof. exact sresize_max. Qed.
Print Assumptions c79_string_resize_max_refuted.
Example c79_string_resize_max_hypotheses_met : exists w s, sreached_own w s [97;98;99] /\ sroom (nlen [97;98;99]).
Proof. destruct ex_growing_string as (w & s & R & _). exists w, s. now split. Qed.

(** A new string for 2^64 - 1 characters is made, and has room for none. *)
Theorem c79_string_init_refuted :
  forall (w : Mem.world N) g t, allocator_ok w -> 1 <= g ->
    exists s w', sinit_ex (W64 - 1) true g t w = Ok (ST_SUCCESS, Some s) w' /\ sget_capacity s w' = Ok (ST_SUCCESS, 0) w'.
Proof. exact sinit_max. Qed.
Print Assumptions c79_string_init_refuted.
Example c79_string_init_hypotheses_met : exists w : Mem.world N, allocator_ok w.
Proof. exists (text_world []). intros t. eexists. reflexivity. Qed.

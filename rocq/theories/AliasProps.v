(** Property theorems of C77 for vectors and strings: a call gets an element of its own container.  Statements
    only. *)
From Verif Require Import Base Status Mem VectorModel VectorSpec VectorDriver VectorExamples StringModel StringSpec
  StringDriver StringExamples AliasSpec AliasProofs AliasProofs2 AliasExamples.
From Coq Require Import ZifyBool ZifyNat ZifyN.

(** * Vectors *)
(** InsertRange of [n] elements of the vector itself, when there is room and they lie before the position: the
    vector gets copies of these elements.  Missing: the other positions (c77_insert_before_refuted,
    c77_insert_overlap_refuted) and a full vector (c77_insert_full_refuted). *)
Theorem c77_insert_partial :
  forall (C : Type) (w : Mem.world C) v xs i j n,
    reached w v xs -> 1 <= n -> i + n <= j -> j <= nlen xs -> nlen xs + n <= snd (vget_capacity v) ->
    exists p v' w', vget v i w = Ok (Some p) w /\ vinsert_range v j (Some p) n w = Ok (ST_SUCCESS, v') w' /\
      shows w' v' (linsert j (nsub i n xs) xs) /\ dlog w' = dlog w.
Proof. exact @insert_own_after. Qed.
Print Assumptions c77_insert_partial.
Example c77_insert_met : exists (w : Mem.world N) v,
  reached w v [[1;2];[3;4];[5;6]] /\ 0 + 1 <= 2 /\ 2 <= nlen [[1;2];[3;4];[5;6]] /\
  nlen [[1;2];[3;4];[5;6]] + 1 <= snd (vget_capacity v).
Proof.
  destruct ex_reached as (w & v & R & _ & _ & CP). exists w, v. rewrite CP. split; [now left|].
  split; [discriminate|]. split; discriminate.
Qed.

(** Elements behind the position are moved before they are read: for every vector the call inserts the [n]
    elements that come [n] places earlier. *)
Theorem c77_insert_before_refuted :
  forall (C : Type) (w : Mem.world C) v xs i j n,
    reached w v xs -> 1 <= n -> j + n <= i -> i + n <= nlen xs -> nlen xs + n <= snd (vget_capacity v) ->
    exists p v' w', vget v i w = Ok (Some p) w /\ vinsert_range v j (Some p) n w = Ok (ST_SUCCESS, v') w' /\
      shows w' v' (linsert j (nsub (i - n) n xs) xs).
Proof. exact @insert_own_before. Qed.
Print Assumptions c77_insert_before_refuted.
Example c77_insert_before_met : exists (w : Mem.world N) v,
  reached w v [[1;2];[3;4];[5;6]] /\ 1 + 1 <= 2 /\ 2 + 1 <= nlen [[1;2];[3;4];[5;6]] /\
  nlen [[1;2];[3;4];[5;6]] + 1 <= snd (vget_capacity v) /\
  nsub (2 - 1) 1 [[1;2];[3;4];[5;6]] <> nsub 2 1 [[1;2];[3;4];[5;6]].
Proof.
  destruct ex_reached as (w & v & R & _ & _ & CP). exists w, v. rewrite CP. split; [now left|].
  split; [discriminate|]. split; [discriminate|]. split; discriminate.
Qed.

(** In between, source and destination of the copy overlap: undefined. *)
Theorem c77_insert_overlap_refuted :
  forall (C : Type) (w : Mem.world C) v xs i j n,
    reached w v xs -> 1 <= n -> i + n <= nlen xs -> j <= nlen xs -> j < i + n -> i < j + n ->
    nlen xs + n <= snd (vget_capacity v) ->
    exists p, vget v i w = Ok (Some p) w /\ vinsert_range v j (Some p) n w = Fault Overlapping.
Proof. exact @insert_own_over. Qed.
Print Assumptions c77_insert_overlap_refuted.
Example c77_insert_overlap_met : exists (w : Mem.world N) v,
  reached w v [[1;2];[3;4];[5;6]] /\ 1 + 1 <= nlen [[1;2];[3;4];[5;6]] /\ 1 <= nlen [[1;2];[3;4];[5;6]] /\ 1 < 1 + 1 /\
  nlen [[1;2];[3;4];[5;6]] + 1 <= snd (vget_capacity v).
Proof.
  destruct ex_reached as (w & v & R & _ & _ & CP). exists w, v. rewrite CP. split; [now left|].
  split; [discriminate|]. split; [discriminate|]. split; [reflexivity|discriminate].
Qed.

(** A vector without room for [n] more elements reads storage it has just released. *)
Theorem c77_insert_full_refuted :
  forall (C : Type) (w : Mem.world C) v xs i j n,
    reached_own w v xs -> 1 <= n -> i + n <= nlen xs -> j <= nlen xs -> room (nlen xs + n) (v_esz v) ->
    snd (vget_capacity v) < nlen xs + n ->
    exists p, vget v i w = Ok (Some p) w /\ vinsert_range v j (Some p) n w = Fault UseAfterFree.
Proof. exact @insert_own_full. Qed.
Print Assumptions c77_insert_full_refuted.
(** The same for PushBack (C54). *)
Theorem c54_push_back_full_refuted :
  forall (C : Type) (w : Mem.world C) v xs i,
    reached_own w v xs -> i < nlen xs -> room (nlen xs + 1) (v_esz v) -> nlen xs = snd (vget_capacity v) ->
    exists p, vget v i w = Ok (Some p) w /\ vpush_back v (Some p) w = Fault UseAfterFree.
Proof. exact @push_own_full. Qed.
Print Assumptions c54_push_back_full_refuted.
Example c77_insert_full_met : exists (w : Mem.world N) v,
  reached_own w v [[1;2];[3;4];[5;6]] /\ room (nlen [[1;2];[3;4];[5;6]] + 1) (v_esz v) /\
  nlen [[1;2];[3;4];[5;6]] = snd (vget_capacity v).
Proof.
  destruct ex_reached_full as (w & v & R & E & _ & CP). exists w, v. rewrite CP, E. split; [exact R|]. split; reflexivity.
Qed.

(** Set of one element to another one.  Missing: an element set to itself (c77_set_same_refuted). *)
Theorem c77_set_partial :
  forall (C : Type) (w : Mem.world C) v xs i j x y,
    reached w v xs -> nnth i xs = Some y -> nnth j xs = Some x -> i <> j ->
    exists p w', vget v j w = Ok (Some p) w /\ vset v i (Some p) w = Ok (ST_SUCCESS, v) w' /\
      shows w' v (lset i x xs) /\ dlog w' = dlog w ++ (match v_dtor v with Some _ => [y] | None => [] end).
Proof. exact @set_own_reached. Qed.
Print Assumptions c77_set_partial.
Theorem c77_set_same_refuted :
  forall (C : Type) (w : Mem.world C) v xs i,
    reached w v xs -> i < nlen xs ->
    exists p, vget v i w = Ok (Some p) w /\ vset v i (Some p) w = Fault Overlapping.
Proof. exact @set_own_same. Qed.
Print Assumptions c77_set_same_refuted.
(** SwapElements with twice the same index (C12). *)
Theorem c12_swap_same_always_refuted :
  forall (C : Type) (w : Mem.world C) v xs i,
    reached w v xs -> i < nlen xs -> nlen xs < snd (vget_capacity v) -> vswap v i i w = Fault Overlapping.
Proof. exact @swap_same_reached. Qed.
Print Assumptions c12_swap_same_always_refuted.
Example c77_set_met : exists (w : Mem.world N) v,
  reached w v [[1;2];[3;4];[5;6]] /\ nnth 0 [[1;2];[3;4];[5;6]] = Some [1;2] /\ nnth 2 [[1;2];[3;4];[5;6]] = Some [5;6] /\
  1 < nlen [[1;2];[3;4];[5;6]] /\ nlen [[1;2];[3;4];[5;6]] < snd (vget_capacity v).
Proof.
  destruct ex_reached as (w & v & R & _ & _ & CP). exists w, v. rewrite CP. split; [now left|]. repeat split.
Qed.

(** ResizeEx with an element of the vector as initializer, while the block stays.  Missing: the block is replaced
    (c77_resize_refuted). *)
Theorem c77_resize_partial :
  forall (C : Type) (w : Mem.world C) v xs i x n,
    reached w v xs -> room n (v_esz v) -> nlen xs < n -> nnth i xs = Some x -> resize_moves v n = false ->
    exists p v' w', vget v i w = Ok (Some p) w /\ vresize_ex v n (Some p) w = Ok (ST_SUCCESS, v') w' /\
      shows w' v' (xs ++ nrepeat x (n - nlen xs)) /\ dlog w' = dlog w.
Proof. exact @resize_own_stays. Qed.
Print Assumptions c77_resize_partial.
Example c77_resize_met : exists (w : Mem.world N) v,
  reached w v [[1;2];[3;4];[5;6]] /\ room 4 (v_esz v) /\ nlen [[1;2];[3;4];[5;6]] < 4 /\ resize_moves v 4 = false.
Proof.
  destruct ex_reached as (w & v & R & E & _ & CP). exists w, v. rewrite E. split; [now left|]. split; [reflexivity|].
  split; [reflexivity|]. cbn [vget_capacity snd] in CP. unfold resize_moves. rewrite CP. lia.
Qed.
Theorem c77_resize_refuted :
  forall (C : Type) (w : Mem.world C) v xs i n,
    reached_own w v xs -> room n (v_esz v) -> nlen xs < n -> i < nlen xs -> resize_moves v n = true ->
    exists p, vget v i w = Ok (Some p) w /\ vresize_ex v n (Some p) w = Fault UseAfterFree.
Proof. exact @resize_own_moves. Qed.
Print Assumptions c77_resize_refuted.
Example c77_resize_refuted_met : exists (w : Mem.world N) v,
  reached_own w v [[1;2];[3;4];[5;6]] /\ room 9 (v_esz v) /\ resize_moves v 9 = true.
Proof.
  destruct ex_reached as (w & v & R & E & _ & CP). exists w, v. rewrite E. split; [exact R|]. split; [reflexivity|].
  cbn [vget_capacity snd] in CP. unfold resize_moves. rewrite CP. reflexivity.
Qed.

(** * Strings *)
(** Append of a view of a part of the string, while the block stays.  Missing: the block is replaced
    (c77_append_refuted). *)
Theorem c77_append_partial :
  forall (w : Mem.world N) s cs q i n,
    sreached w s cs -> own_part q s i n -> sroom (nlen cs + n) -> 1 <= n -> i + n <= nlen cs ->
    resize_moves (s_vec s) (nlen cs + n + 1) = false ->
    exists s' w', sappend s q w = Ok (ST_SUCCESS, s') w' /\ sshows w' s' (cs ++ nsub i n cs).
Proof. exact append_part_stays. Qed.
Print Assumptions c77_append_partial.
Theorem c77_append_refuted :
  forall (w : Mem.world N) s cs q i n,
    sreached_own w s cs -> own_part q s i n -> sroom (nlen cs + n) -> 1 <= n -> i + n <= nlen cs ->
    resize_moves (s_vec s) (nlen cs + n + 1) = true ->
    sappend s q w = Fault UseAfterFree.
Proof. exact append_part_moves. Qed.
Print Assumptions c77_append_refuted.

(** Insert of a view of a part of the string, as for vectors. *)
Theorem c77_string_insert_partial :
  forall (w : Mem.world N) s cs q i j n,
    sreached w s cs -> own_part q s i n -> sroom (nlen cs + n) -> 1 <= n -> i + n <= j -> j <= nlen cs ->
    nlen cs + n + 1 <= snd (vget_capacity (s_vec s)) ->
    exists s' w', sinsert s j q w = Ok (ST_SUCCESS, s') w' /\
      sshows w' s' (nfirst j cs ++ nsub i n cs ++ nskip j cs).
Proof. exact insert_part_after. Qed.
Print Assumptions c77_string_insert_partial.
Theorem c77_string_insert_before_refuted :
  forall (w : Mem.world N) s cs q i j n,
    sreached w s cs -> own_part q s i n -> sroom (nlen cs + n) -> 1 <= n -> j + n <= i -> i + n <= nlen cs ->
    nlen cs + n + 1 <= snd (vget_capacity (s_vec s)) ->
    exists s' w', sinsert s j q w = Ok (ST_SUCCESS, s') w' /\
      sshows w' s' (nfirst j cs ++ nsub (i - n) n cs ++ nskip j cs).
Proof. exact insert_part_before. Qed.
Print Assumptions c77_string_insert_before_refuted.
Theorem c77_string_insert_overlap_refuted :
  forall (w : Mem.world N) s cs q i j n,
    sreached w s cs -> own_part q s i n -> sroom (nlen cs + n) -> 1 <= n -> i + n <= nlen cs -> j <= nlen cs ->
    j < i + n -> i < j + n -> nlen cs + n + 1 <= snd (vget_capacity (s_vec s)) ->
    sinsert s j q w = Fault Overlapping.
Proof. exact insert_part_over. Qed.
Print Assumptions c77_string_insert_overlap_refuted.
Theorem c77_string_insert_full_refuted :
  forall (w : Mem.world N) s cs q i j n,
    sreached_own w s cs -> own_part q s i n -> sroom (nlen cs + n) -> 1 <= n -> i + n <= nlen cs -> j <= nlen cs ->
    snd (vget_capacity (s_vec s)) < nlen cs + n + 1 ->
    sinsert s j q w = Fault UseAfterFree.
Proof. exact insert_part_full. Qed.
Print Assumptions c77_string_insert_full_refuted.
(** Insert of a growable string into itself before its end is undefined for every string and every such index. *)
Theorem c77_string_insert_self_refuted :
  forall (w : Mem.world N) s cs j,
    sreached_own w s cs -> sroom (2 * nlen cs) -> j < nlen cs ->
    exists f, sinsert s j s w = Fault f /\ (f = Overlapping \/ f = UseAfterFree).
Proof. exact insert_self_faults. Qed.
Print Assumptions c77_string_insert_self_refuted.
(** "abc": its middle can be appended or inserted at the end; inserting the end at index 1 inserts the middle. *)
Example c77_string_met : exists (w : Mem.world N) s q r,
  sreached_own w s [97;98;99] /\ own_part q s 1 1 /\ own_part r s 2 1 /\ sroom (nlen [97;98;99] + 1) /\ sroom (2 * nlen [97;98;99]) /\
  resize_moves (s_vec s) (nlen [97;98;99] + 1 + 1) = false /\ nlen [97;98;99] + 1 + 1 <= snd (vget_capacity (s_vec s)).
Proof.
  destruct ex_string_room as (w & s & R & CP & SH).
  exists w, s, (define_view (padd (snd (sget_data s)) 1) 2), (define_view (padd (snd (sget_data s)) 2) 2).
  split; [exact R|]. split; [now split|]. split; [now split|]. split; [reflexivity|]. split; [reflexivity|].
  unfold resize_moves. cbn [vget_capacity snd]. rewrite CP, SH. split; [reflexivity|discriminate].
Qed.
Example c77_string_full_met : exists (w : Mem.world N) s q,
  sreached_own w s letters20 /\ own_part q s 1 15 /\ sroom (nlen letters20 + 15) /\
  resize_moves (s_vec s) (nlen letters20 + 15 + 1) = true /\ snd (vget_capacity (s_vec s)) < nlen letters20 + 15 + 1.
Proof.
  destruct ex_string_full as (w & s & R & CP & SH).
  exists w, s, (define_view (padd (snd (sget_data s)) 1) 16).
  split; [exact R|]. split; [now split|]. split; [reflexivity|].
  unfold resize_moves. cbn [vget_capacity snd]. rewrite CP, SH. split; reflexivity.
Qed.

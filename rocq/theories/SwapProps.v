(** C111: rearranging a vector in place with SwapElements. *)
From Verif Require Import Base Status VectorModel VectorSpec VectorDriver VectorExamples SwapDriver SwapProofs Mem.
From Coq Require Import Sorting.Permutation ZifyBool ZifyNat ZifyN.

(** Insertion sort, with room for one more element: the elements are rearranged in ascending order, those that are alike
    keep their order, the vector and its storage stay what they are, and no other memory changes. *)
Theorem c111_sort :
  forall (C : Type) (w : world C) v xs cmp,
    reached w v xs -> nlen xs < snd (vget_capacity v) -> cmp_order (v_esz v) cmp ->
    exists w' ys, sort_by cmp v w = Ok (ST_SUCCESS, v) w' /\ reached w' v ys /\ in_place w v w' /\
      Permutation xs ys /\ sorted_range cmp ys 0 (nlen ys) /\ stable cmp (v_esz v) xs ys.
Proof. exact @sort_ok. Qed.
Print Assumptions c111_sort.
(** BinarySearch in the sorted vector then finds exactly the elements there were. *)
Theorem c111_sort_then_search :
  forall (C : Type) (w : world C) v xs cmp y,
    reached w v xs -> nlen xs < snd (vget_capacity v) -> cmp_order (v_esz v) cmp -> nlen y = v_esz v ->
    exists w1 r k w2, sort_by cmp v w = Ok (ST_SUCCESS, v) w1 /\
      with_arg y (fun p => vbinary_search v p cmp) w1 = Ok (r, Some k) w2 /\
      (r = ST_TRUE /\ (exists x, In x xs /\ cmp x y = 0%Z) \/ r = ST_FALSE /\ forall x, In x xs -> cmp x y <> 0%Z).
Proof. exact @sort_search. Qed.
Print Assumptions c111_sort_then_search.
(** The other way round. *)
Theorem c111_reverse :
  forall (C : Type) (w : world C) v xs,
    reached w v xs -> nlen xs < snd (vget_capacity v) ->
    exists w', reverse v w = Ok (ST_SUCCESS, v) w' /\ reached w' v (rev xs) /\ in_place w v w'.
Proof. exact @reverse_ok. Qed.
Print Assumptions c111_reverse.
(** A vector that is in order is left alone, also without room and whatever the comparison is. *)
Theorem c111_in_order :
  forall (C : Type) (w : world C) v xs cmp,
    reached w v xs -> in_order cmp xs -> sort_by cmp v w = Ok (ST_SUCCESS, v) w.
Proof. exact @sort_untouched. Qed.
Print Assumptions c111_in_order.
(** Without room for one more element nothing can be moved. *)
Theorem c111_sort_full :
  forall (C : Type) (w : world C) v xs cmp,
    reached w v xs -> nlen xs = snd (vget_capacity v) -> ~ in_order cmp xs ->
    sort_by cmp v w = Ok (ST_INSUFFICIENT_BUFFER_SIZE, v) w.
Proof. exact @sort_full. Qed.
Print Assumptions c111_sort_full.
Theorem c111_reverse_full :
  forall (C : Type) (w : world C) v xs,
    reached w v xs -> nlen xs = snd (vget_capacity v) ->
    reverse v w = Ok (if nlen xs <? 2 then ST_SUCCESS else ST_INSUFFICIENT_BUFFER_SIZE, v) w.
Proof. exact @reverse_full. Qed.
Print Assumptions c111_reverse_full.

(** Four elements out of order, two of them alike, with and without room; and three in order. *)
Example c111_met : exists (w1 w2 w3 : world N) v1 v2 v3,
  reached w1 v1 [[3;1];[1;1];[3;2];[2;2]] /\ nlen [[3;1];[1;1];[3;2];[2;2]] < snd (vget_capacity v1) /\
  cmp_order (v_esz v1) first_byte_cmp /\ nlen [2;0] = v_esz v1 /\
  reached w2 v2 [[3;1];[1;1];[3;2];[2;2]] /\ nlen [[3;1];[1;1];[3;2];[2;2]] = snd (vget_capacity v2) /\
  ~ in_order first_byte_cmp [[3;1];[1;1];[3;2];[2;2]] /\
  reached w3 v3 [[1;2];[3;4];[5;6]] /\ in_order first_byte_cmp [[1;2];[3;4];[5;6]].
Proof.
  destruct (reach_any 2 2 4 None [[3;1];[1;1];[3;2];[2;2]] 1) as (w1 & v1 & R1 & E1 & _ & C1);
    [discriminate|exact Logic.I|split; [discriminate|reflexivity]|reflexivity|repeat constructor|reflexivity|reflexivity|].
  destruct (reach_any 2 2 4 None [[3;1];[1;1];[3;2];[2;2]] 0) as (w2 & v2 & R2 & E2 & _ & C2);
    [discriminate|exact Logic.I|split; [discriminate|reflexivity]|reflexivity|repeat constructor|reflexivity|reflexivity|].
  destruct ex_reached as (w3 & v3 & R3 & _).
  exists w1, w2, w3, v1, v2, v3. rewrite C1, C2, E1.
  split; [left; exact R1|]. split; [reflexivity|]. split; [split; intros; unfold first_byte_cmp in *; lia|].
  split; [reflexivity|]. split; [left; exact R2|]. split; [reflexivity|].
  split; [intros H; specialize (H 0 [3;1] [1;1] eq_refl eq_refl); apply H; reflexivity|].
  split; [left; exact R3|]. intros i x y X Y.
  assert (D : i = 0 \/ i = 1).
  { destruct (N.ltb_spec i 2); [lia|]. exfalso. revert Y. unfold nnth. replace (N.to_nat (i + 1)) with (3 + N.to_nat (i - 2))%nat by lia. now destruct (N.to_nat (i - 2)). }
  destruct D as [-> | ->]; injection X as <-; injection Y as <-; discriminate.
Qed.

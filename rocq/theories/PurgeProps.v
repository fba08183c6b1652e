(** C110: removing all matching elements of a vector. *)
From Verif Require Import Base Status VectorModel VectorSpec VectorDriver VectorExamples PurgeDriver PurgeProofs Mem.

(** FindEx and Delete in a loop: the elements that do not match stay, in their order; the destructor is called for the
    others, in their order; no other memory changes.  The last answer of FindEx is FALSE, except that it is OUT_OF_RANGE if
    nothing is left to search. *)
Theorem c110_find_delete :
  forall (C : Type) (w : world C) v xs y cmp, reached w v xs -> nlen y = v_esz v ->
    exists st w' v', purge v y cmp w = Ok (st, v') w' /\
      shows w' v' (filter (fun x => negb (cmp x y)) xs) /\
      dlog w' = dlog w ++ destructed v (filter (fun x => cmp x y) xs) /\
      st = (if ends_with_match (fun x => cmp x y) xs then ST_OUT_OF_RANGE else ST_FALSE) /\
      (forall b, Some b <> option_map pb (v_data v) -> Some b <> option_map pb (v_data v') -> heap w' b = heap w b).
Proof. exact @purge_ok. Qed.
Print Assumptions c110_find_delete.
(** A walk from the last index down to 0 that deletes what [p] accepts: the same elements stay, and the destructor is called
    for the others from the last to the first; memory that existed before and is not the vector's does not change. *)
Theorem c110_downwards :
  forall (C : Type) (w : world C) v xs p, reached w v xs ->
    exists w' v', weed v p w = Ok (ST_SUCCESS, v') w' /\
      reached w' v' (filter (fun x => negb (p x)) xs) /\
      dlog w' = dlog w ++ destructed v (rev (filter p xs)) /\
      (forall b, b < nextb w -> Some b <> option_map pb (v_data v) -> heap w' b = heap w b).
Proof. exact @weed_ok. Qed.
Print Assumptions c110_downwards.
(** A vector with a destructor from which the first and the last of four elements are removed, and the answer is OUT_OF_RANGE. *)
Example c110_met : exists (w : world N) v, reached w v [[5;1];[2;1];[3;3];[5;4]] /\ nlen [5;0] = v_esz v /\ v_dtor v <> None /\
  ends_with_match (fun x => hd 0 x =? hd 0 [5;0]) [[5;1];[2;1];[3;3];[5;4]] = true /\
  filter (fun x => negb (hd 0 x =? hd 0 [5;0])) [[5;1];[2;1];[3;3];[5;4]] = [[2;1];[3;3]] /\
  destructed v [[5;1];[5;4]] = [[5;1];[5;4]].
Proof.
  destruct (reach_any 2 2 4 (Some (fun x => x)) [[5;1];[2;1];[3;3];[5;4]] 1) as (w & v & R & E & D & _);
    [discriminate|intros x X; reflexivity || exact X|split; [discriminate|reflexivity]|reflexivity|repeat constructor|reflexivity|reflexivity|].
  exists w, v. split; [left; exact R|]. rewrite E. split; [reflexivity|].
  assert (DV : v_dtor v = Some (fun x => x)) by congruence. unfold destructed. rewrite DV. split; [discriminate|]. repeat split.
Qed.

(** C107: the searching functions agree with each other, and loops over them find everything. *)
From Verif Require Import Base Status VectorModel VectorSpec VectorDriver VectorExamples
  StringModel StringSpec StringDriver StringExamples AgreeDriver AgreeProofs Mem.

(** LPos and RPos (and LPosI and RPosI) answer with the same status, and the occurrences lie between what they find. *)
Theorem c107_left_right :
  forall i (w : world N) hv nv hay needle,
    views w hv hay -> views w nv needle -> ~ In 0 needle ->
    exists st l r, slpos (variant i) hv nv w = Ok (st, l) w /\ srpos (variant i) hv nv w = Ok (st, r) w /\
      match l, r with
      | Some l, Some r => st = ST_TRUE /\ occurs (alike i) hay needle l /\ occurs (alike i) hay needle r /\
          (forall j, occurs (alike i) hay needle j -> l <= j <= r)
      | None, None => st = ST_FALSE
      | _, _ => False
      end.
Proof. exact lpos_rpos. Qed.
Print Assumptions c107_left_right.
(** Searching again behind (before) what was found until the answer is not TRUE gives all occurrences, also overlapping
    ones, in ascending (descending) order. *)
Theorem c107_all_occurrences :
  forall i (w : world N) hv nv hay needle,
    views w hv hay -> views w nv needle -> needle <> [] -> ~ In 0 needle ->
    exists l, all_from_left i hv nv (nlen hay) w = Ok (l, ST_FALSE) w /\
      all_from_right i hv nv (nlen hay) (nlen needle) w = Ok (rev l, ST_FALSE) w /\
      lists_all (occurs (alike i) hay needle) l.
Proof. exact collect. Qed.
Print Assumptions c107_all_occurrences.
(** What the case-sensitive functions find the case-insensitive ones find too, possibly further out. *)
Theorem c107_insensitive_finds_more :
  forall (w : world N) hv nv hay needle l,
    views w hv hay -> views w nv needle -> ~ In 0 needle ->
    slpos eq_cs hv nv w = Ok (ST_TRUE, Some l) w ->
    exists l' r r', slpos eq_ci hv nv w = Ok (ST_TRUE, Some l') w /\ srpos eq_cs hv nv w = Ok (ST_TRUE, Some r) w /\
      srpos eq_ci hv nv w = Ok (ST_TRUE, Some r') w /\ l' <= l /\ l <= r /\ r <= r'.
Proof. exact sensitive_insensitive. Qed.
Print Assumptions c107_insensitive_finds_more.
(** Compare (CompareI) calls two texts equal exactly if they have the same size and LPos (LPosI) finds one at the start of
    the other. *)
Theorem c107_compare_search :
  forall i (w : world N) v1 v2 a b,
    views w v1 a -> views w v2 b -> ~ In 0 b -> b <> [] ->
    exists st r, scompare (variant i) v1 v2 w = Ok (st, r) w /\
      (st = ST_TRUE <-> nlen a = nlen b /\ slpos (variant i) v1 v2 w = Ok (ST_TRUE, Some 0) w).
Proof. exact compare_find. Qed.
Print Assumptions c107_compare_search.
Example c107_strings_met : exists w hv nv,
  views w hv [97;65;97;98;97;97] /\ views w nv [97;97] /\ ~ In 0 [97;97] /\ slpos eq_cs hv nv w = Ok (ST_TRUE, Some 4) w /\
  slpos eq_ci hv nv w = Ok (ST_TRUE, Some 0) w /\
  all_from_left true hv nv 6 w = Ok ([0;1;4], ST_FALSE) w /\ all_from_right true hv nv 6 2 w = Ok ([4;1;0], ST_FALSE) w /\
  all_from_left false hv nv 6 w = Ok ([4], ST_FALSE) w.
Proof.
  exists (text_world [97;65;97;98;97;97;0;97;97;0]), (text_view 0 7), (text_view 7 3).
  split; [now repeat split|]. split; [now repeat split|]. split; [intros [H|[H|[]]]; discriminate|]. repeat split.
Qed.
(** Vectors: calling FindEx again behind what was found gives exactly the positions of the elements the comparison accepts;
    the last answer is FALSE, except that it is OUT_OF_RANGE if nothing is left to search. *)
Theorem c107_all_elements_partial :
  forall (C : Type) (w : world C) v xs y cmp,
    reached w v xs -> nlen y = v_esz v ->
    exists l st w', all_elements v y cmp (nlen xs) w = Ok (l, st) w' /\
      lists_all (fun i => exists x, nnth i xs = Some x /\ cmp x y = true) l /\
      st = (if (nlen xs =? 0) || existsb (fun i => i + 1 =? nlen xs) l then ST_OUT_OF_RANGE else ST_FALSE) /\
      (forall b, heap w' b = heap w b) /\ dlog w' = dlog w.
Proof. exact @all_elems. Qed.
Print Assumptions c107_all_elements_partial.
(** On a sorted vector with elements BinarySearch and Find give the same answer, and the same position if TRUE. *)
Theorem c107_binary_linear_partial :
  forall (C : Type) (w : world C) v xs y cmp,
    reached w v xs -> nlen y = v_esz v -> xs <> [] -> cmp_order (v_esz v) cmp -> sorted_range cmp xs 0 (nlen xs) ->
    exists st k f w1 w2, with_arg y (fun p => vbinary_search v p cmp) w = Ok (st, Some k) w1 /\
      with_arg y (fun p => vfind v p (fun a b => Z.eqb (cmp a b) 0)) w = Ok (st, f) w2 /\
      (st = ST_TRUE /\ f = Some k \/ st = ST_FALSE /\ f = None).
Proof. exact @binary_linear. Qed.
Print Assumptions c107_binary_linear_partial.
(** On an empty one they disagree: FALSE and OUT_OF_RANGE. *)
Theorem c107_empty_refuted :
  forall (C : Type) (w : world C) v y cmp f,
    reached w v [] -> nlen y = v_esz v -> cmp_order (v_esz v) cmp ->
    exists w1 w2, with_arg y (fun p => vbinary_search v p cmp) w = Ok (ST_FALSE, Some 0) w1 /\
      with_arg y (fun p => vfind v p f) w = Ok (ST_OUT_OF_RANGE, None) w2.
Proof. exact @binary_linear_empty. Qed.
Print Assumptions c107_empty_refuted.
Example c107_vectors_met : exists (w w0 : world N) v v0,
  (reached w v [[1;2];[3;4];[5;6]] /\ nlen [4;0] = v_esz v /\ cmp_order (v_esz v) first_byte_cmp /\
   sorted_range first_byte_cmp [[1;2];[3;4];[5;6]] 0 3) /\
  reached w0 v0 [] /\ nlen [4;0] = v_esz v0.
Proof.
  destruct ex_reached as (w & v & R & E & _).
  destruct (reach_any 2 2 4 None [] 1) as (w0 & v0 & R0 & E0 & _);
    [discriminate|exact Logic.I|split; [discriminate|reflexivity]|reflexivity|constructor|reflexivity|reflexivity|].
  exists w, w0, v, v0. rewrite E, E0. split; [|split; [left; exact R0|reflexivity]].
  split; [left; exact R|]. split; [reflexivity|]. split.
  - split; intros; unfold first_byte_cmp in *; lia.
  - intros i j x y _ L1 L2 NX NY. unfold first_byte_cmp.
    assert (D : (i = 0 /\ (j = 1 \/ j = 2)) \/ (i = 1 /\ j = 2)) by lia.
    destruct D as [[-> [-> | ->]]|[-> ->]]; injection NX as <-; injection NY as <-; cbn [hd]; lia.
Qed.

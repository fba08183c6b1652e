(** Client loops that collect all matches of a search.  No proofs here. *)
From Verif Require Import Base Status VectorModel VectorSpec VectorDriver StringModel StringSpec StringDriver Mem.
From Coq Require Import Sorting.Sorted.

(** Search, note what was found, search again from the position [next] of it, until the answer is not TRUE; the last answer
    is returned too. *)
Fixpoint each_match {C} (search : N -> M C (status * option N)) (next : N -> N) (from : N) (fuel : nat)
    : M C (list N * status) :=
  match fuel with
  | O => fail OutOfFuel
  | S fuel =>
      let* (st, r) := search from in
      if st =? ST_TRUE then
        match r with
        | Some i => let* (l, last) := each_match search next (next i) fuel in ret (i :: l, last)
        | None => fail NullDeref
        end
      else ret ([], st)
  end.
Definition variant (insensitive : bool) := if insensitive then eq_ci else eq_cs.
Definition alike (insensitive : bool) : N -> N -> Prop := if insensitive then same_but_bit5 else eq.
(** All matches of a needle in a text of [size] characters with LPosEx, from the left: index = last match + 1. *)
Definition all_from_left (i : bool) (hay needle : view) (size : N) : M N (list N * status) :=
  each_match (fun from => slpos_ex (variant i) hay needle from (wsub size from)) (fun i => wadd i 1) 0 (N.to_nat size + 1).
(** The same with RPosEx, from the right: the range ends with the last but one character of the last match. *)
Definition all_from_right (i : bool) (hay needle : view) (size len : N) : M N (list N * status) :=
  each_match (fun till => srpos_ex (variant i) hay needle till till) (fun i => wsub (wadd i len) 1) size (N.to_nat size + 1).
(** All matches in a vector with FindEx. *)
Definition all_elements {C} (v : vector C) (y : list C) (cmp : list C -> list C -> bool) (size : N) : M C (list N * status) :=
  with_arg y (fun p => each_match (fun from => vfind_ex v p cmp from (wsub size from)) (fun i => wadd i 1) 0 (N.to_nat size + 1)).

(** [l] lists the positions with the property [P], in ascending order. *)
Definition lists_all (P : N -> Prop) (l : list N) : Prop := StronglySorted N.lt l /\ forall i, In i l <-> P i.

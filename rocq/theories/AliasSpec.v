(** Vocabulary of C77: arguments that lie inside the container a call works on. *)
From Coq Require Import NArith Bool List.
From Verif Require Import Base Status Mem VectorModel StringModel.
Import ListNotations.
Local Open Scope N_scope.

(** Resizing the growable vector [v] to [n] elements asks the allocator for another block: more than the
    capacity is needed, or the shrink threshold given to ZyanVectorInitEx says that too little of it would be
    used (ZYCORE_VECTOR_SHOULD_SHRINK, src/Vector.c:54-55, applies to larger sizes too). *)
Definition resize_moves {C} (v : vector C) (n : N) : bool :=
  (v_cap v <? n) || ((1 <=? v_shrink v) && (n * v_shrink v <? v_cap v)).

(** [q] is a view of the [n] characters of the string [s] that start at index [i]: what ZyanStringGetData
    returns, plus [i], with [n] characters (ZyanStringViewInsideBufferEx). *)
Definition own_part (q : view) (s : str) (i n : N) : Prop :=
  sdata q = padd (snd (sget_data s)) i /\ ssize q = n + 1.

(** Specification of the loop macros, over plain lists of elements, and the callers of the theorems. *)
From Verif Require Import Base Status Mem VectorModel VectorSpec VectorDriver ForeachModel.

(** Going through [xs] with the caller's variables [a]: [f] is what the body does with them, [p] whether
    it leaves the loop. *)
Fixpoint fold_until {A B} (f : A -> B -> A) (p : A -> B -> bool) (xs : list B) (a : A) : A :=
  match xs with
  | [] => a
  | x :: xs => if p a x then f a x else fold_until f p xs (f a x)
  end.

Section Spec.
  Context {C A : Type}.
  Notation vec := (vector C).

  (** What a caller does in the body of a loop: the calls it makes on the vector for an item, and what it
      does with its variables when it has the answers ([true]: it leaves the loop). *)
  Variable calls : A -> list C -> list (vop C).
  Variable after : A -> list C -> list status -> bool * A.

  (** A loop over the first [size] positions, from position [i] on.  The vector is the list machine of
      VectorSpec.  [None]: the position does not exist any more when the loop gets there. *)
  Inductive visits (c : vcfg C) (size : N) : N -> A -> vstate C -> option A -> vstate C -> Prop :=
  | visits_end i a s : size <= i -> visits c size i a s (Some a) s
  | visits_gone i a s : i < size -> nnth i (s_elems s) = None -> visits c size i a s None s
  | visits_stop i a s x rs s1 a1 : i < size -> nnth i (s_elems s) = Some x ->
      vspecs c (calls a x) s rs s1 -> after a x rs = (true, a1) -> visits c size i a s (Some a1) s1
  | visits_next i a s x rs s1 a1 r s2 : i < size -> nnth i (s_elems s) = Some x ->
      vspecs c (calls a x) s rs s1 -> after a x rs = (false, a1) ->
      visits c size (i + 1) a1 s1 r s2 -> visits c size i a s r s2.

  (** The same body as a program. *)
  Definition caller (a : A) (v : vec) (x : list C) : M C (bool * A * vec) :=
    let* (rs, v1) := run_ops v (calls a x) in
    ret (fst (after a x rs), snd (after a x rs), v1).
End Spec.

(** The parameters of a vector, as fixed when it was created. *)
Definition params {C} (v : vector C) : vcfg C :=
  mkcfg (negb (v_alloc v)) (v_growth v) (v_shrink v) (v_esz v) (v_dtor v).

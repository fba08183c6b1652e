(** Client loops that rearrange a vector in place with SwapElements.  No proofs here. *)
From Verif Require Import Base Status VectorModel VectorSpec VectorDriver Mem.
From Coq Require Import Sorting.Permutation.

Section SwapDriver.
  Context {C : Type}.

  (** Swap the element at [j] with those before it until the one before it is not greater. *)
  Fixpoint sink (cmp : list C -> list C -> Z) (v : vector C) (j : nat) : M C (status * vector C) :=
    match j with
    | O => ret (ST_SUCCESS, v)
    | S i =>
        let* x := read_elem v (N.of_nat i) in
        let* y := read_elem v (N.of_nat i + 1) in
        match x, y with
        | Some x, Some y =>
            if (0 <? cmp x y)%Z then
              let* (st, v) := vswap v (N.of_nat i) (N.of_nat i + 1) in
              if st_success st then sink cmp v i else ret (st, v)
            else ret (ST_SUCCESS, v)
        | _, _ => fail NullDeref
        end
    end.
  Fixpoint sort_loop (cmp : list C -> list C -> Z) (v : vector C) (i n : nat) : M C (status * vector C) :=
    match n with
    | O => ret (ST_SUCCESS, v)
    | S n =>
        let* (st, v) := sink cmp v i in
        if st_success st then sort_loop cmp v (S i) n else ret (st, v)
    end.
  (** Insertion sort. *)
  Definition sort_by (cmp : list C -> list C -> Z) (v : vector C) : M C (status * vector C) :=
    sort_loop cmp v 0 (N.to_nat (snd (vget_size v))).

  (** Swap the first with the last element, the second with the last but one, and so on. *)
  Fixpoint reverse_loop (v : vector C) (i j : N) (n : nat) : M C (status * vector C) :=
    match n with
    | O => ret (ST_SUCCESS, v)
    | S n =>
        let* (st, v) := vswap v i j in
        if st_success st then reverse_loop v (i + 1) (j - 1) n else ret (st, v)
    end.
  Definition reverse (v : vector C) : M C (status * vector C) :=
    let n := snd (vget_size v) in reverse_loop v 0 (n - 1) (N.to_nat (n / 2)).

  (** Nothing changes but the contents of the vector's own memory. *)
  Definition in_place (w : world C) (v : vector C) (w' : world C) : Prop :=
    dlog w' = dlog w /\
    (forall b, Some b <> option_map pb (v_data v) -> heap w' b = heap w b).
  (** No element is greater than its successor. *)
  Definition in_order (cmp : list C -> list C -> Z) (xs : list (list C)) : Prop :=
    forall i x y, nnth i xs = Some x -> nnth (i + 1) xs = Some y -> (cmp x y <= 0)%Z.
  (** Elements that are alike keep their order: those like [z] form the same list. *)
  Definition stable (cmp : list C -> list C -> Z) (e : N) (xs ys : list (list C)) : Prop :=
    forall z, nlen z = e -> filter (fun x => Z.eqb (cmp x z) 0) ys = filter (fun x => Z.eqb (cmp x z) 0) xs.
End SwapDriver.

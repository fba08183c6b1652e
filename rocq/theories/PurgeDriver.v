(** Client loops that remove all matching elements of a vector.  No proofs here. *)
From Verif Require Import Base Status VectorModel VectorSpec VectorDriver Mem.

Section PurgeDriver.
  Context {C : Type}.

  (** Find the next match with FindEx, delete it, go on at the same index, until the answer is not TRUE. *)
  Fixpoint purge_from (v : vector C) (p : option ptr) (cmp : list C -> list C -> bool) (from : N) (fuel : nat)
      : M C (status * vector C) :=
    match fuel with
    | O => fail OutOfFuel
    | S fuel =>
        let* (st, r) := vfind_ex v p cmp from (wsub (snd (vget_size v)) from) in
        if st =? ST_TRUE then
          match r with
          | Some i =>
              let* (st, v) := vdelete v i in
              if st_success st then purge_from v p cmp i fuel else ret (st, v)
          | None => fail NullDeref
          end
        else ret (st, v)
    end.
  Definition purge (v : vector C) (y : list C) (cmp : list C -> list C -> bool) : M C (status * vector C) :=
    with_arg y (fun p => purge_from v p cmp 0 (N.to_nat (snd (vget_size v)) + 1)).

  (** Walk from the last element to the first, look at each with Get and delete it if [p] says so. *)
  Fixpoint weed_down (v : vector C) (p : list C -> bool) (n : nat) : M C (status * vector C) :=
    match n with
    | O => ret (ST_SUCCESS, v)
    | S n =>
        let* x := read_elem v (N.of_nat n) in
        match x with
        | None => fail NullDeref
        | Some x =>
            if p x then
              let* (st, v) := vdelete v (N.of_nat n) in
              if st_success st then weed_down v p n else ret (st, v)
            else weed_down v p n
        end
    end.
  Definition weed (v : vector C) (p : list C -> bool) : M C (status * vector C) :=
    weed_down v p (N.to_nat (snd (vget_size v))).

  (** Nothing follows the last match (or there is nothing at all). *)
  Definition ends_with_match (p : list C -> bool) (xs : list (list C)) : bool :=
    match rev xs with [] => true | x :: _ => p x end.
  (** What the destructor of [v], if any, is called for. *)
  Definition destructed (v : vector C) (xs : list (list C)) : list (list C) :=
    match v_dtor v with Some _ => xs | None => [] end.
End PurgeDriver.

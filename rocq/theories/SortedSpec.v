(** A client that keeps a vector in order with BinarySearch, Insert and Delete (property C85).  No proofs here. *)
From Verif Require Import Base Status Mem VectorModel VectorSpec VectorDriver.

Section Ordered.
  Context {C : Type}.
  Notation elt := (list C).
  Inductive set_call := Add (y : elt) | Remove (y : elt) | Has (y : elt).
  Definition key (c : set_call) : elt := match c with Add y | Remove y | Has y => y end.

  (** The program: [ZyanVectorBinarySearch] (src/Vector.c:687-696), then, depending on its result, [ZyanVectorInsert] or
      [ZyanVectorDelete] at the index that it has found.  The result says whether the element was inserted, deleted, found. *)
  Definition set_call_run (cmp : elt -> elt -> Z) (v : vector C) (c : set_call) : Mem.M C (bool * vector C) :=
    let* (r, k) := with_arg (key c) (fun p => vbinary_search v p cmp) in
    match c, k with
    | Has _, _ => ret (r =? ST_TRUE, v)
    | Add y, Some k =>
        if r =? ST_FALSE then let* (r', v') := run_op v (OInsert k y) in ret (r' =? ST_SUCCESS, v') else ret (false, v)
    | Remove y, Some k =>
        if r =? ST_TRUE then let* (r', v') := run_op v (ODelete k) in ret (r' =? ST_SUCCESS, v') else ret (false, v)
    | _, None => ret (false, v)
    end.
  Fixpoint set_run (cmp : elt -> elt -> Z) (v : vector C) (cs : list set_call) : Mem.M C (list bool * vector C) :=
    match cs with
    | [] => ret ([], v)
    | c :: cs =>
        let* (b, v1) := set_call_run cmp v c in
        let* (bs, v2) := set_run cmp v1 cs in
        ret (b :: bs, v2)
    end.
  (** The same without the test: equal elements are kept. *)
  Definition put_run (cmp : elt -> elt -> Z) (v : vector C) (y : elt) : Mem.M C (status * vector C) :=
    let* (r, k) := with_arg y (fun p => vbinary_search v p cmp) in
    match k with
    | Some k => run_op v (OInsert k y)
    | None => ret (r, v)
    end.
  Fixpoint puts_run (cmp : elt -> elt -> Z) (v : vector C) (ys : list elt) : Mem.M C (list status * vector C) :=
    match ys with
    | [] => ret ([], v)
    | y :: ys =>
        let* (r, v1) := put_run cmp v y in
        let* (rs, v2) := puts_run cmp v1 ys in
        ret (r :: rs, v2)
    end.

  (** A set of elements that are different under the comparison. *)
  Definition found (cmp : elt -> elt -> Z) (S : elt -> Prop) (y : elt) : Prop := exists x, S x /\ cmp x y = 0%Z.
  Definition set_step (cmp : elt -> elt -> Z) (c : set_call) (S : elt -> Prop) (b : bool) (S' : elt -> Prop) : Prop :=
    match c with
    | Has y => (b = true <-> found cmp S y) /\ (forall x, S' x <-> S x)
    | Add y => (b = true <-> ~ found cmp S y) /\ (forall x, S' x <-> S x \/ (~ found cmp S y /\ x = y))
    | Remove y => (b = true <-> found cmp S y) /\ (forall x, S' x <-> S x /\ cmp x y <> 0%Z)
    end.
  Inductive set_steps (cmp : elt -> elt -> Z) : list set_call -> (elt -> Prop) -> list bool -> (elt -> Prop) -> Prop :=
  | set_nil S : set_steps cmp [] S [] S
  | set_cons c cs S b S1 bs S2 :
      set_step cmp c S b S1 -> set_steps cmp cs S1 bs S2 -> set_steps cmp (c :: cs) S (b :: bs) S2.

  (** Every element is smaller than those behind it. *)
  Definition ascending (cmp : elt -> elt -> Z) (xs : list elt) : Prop :=
    forall i j x y, i < j -> nnth i xs = Some x -> nnth j xs = Some y -> (cmp x y < 0)%Z.
End Ordered.
Arguments set_call : clear implicits.

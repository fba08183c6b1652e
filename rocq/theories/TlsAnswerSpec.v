(** What the calls on thread-local storage with destructors answer (property C89), in terms of the calls before. *)
From Verif Require Import Base Status ApiModel TlsDtorModel TlsDtorSpec.

(** [indices]: the system hands out indices below this.  A call in which the system reports no error ([e = 0]) succeeds
    exactly if the slot is allocated (free, for Alloc); Alloc returns the slot, and GetValue the value that this thread
    has stored since the allocation, NULL if none. *)
Definition answer_rule (indices : option N) (tr : list tentry) (ev : tevent) (st : status) (r : option N) : Prop :=
  match ev with
  | Call t (DAlloc d k e) =>
      e = 0 -> (forall n, indices = Some n -> k < n) ->
      (stored k t tr = None -> st = ST_SUCCESS /\ r = Some k) /\
      (stored k t tr <> None -> st = ST_OUT_OF_RESOURCES /\ r = None)
  | Call t (DFree k) =>
      (stored k t tr <> None -> st = ST_SUCCESS) /\ (stored k t tr = None -> st = ST_BAD_SYSTEMCALL)
  | Call t (DSet k x e) =>
      e = 0 -> (stored k t tr <> None -> st = ST_SUCCESS) /\ (stored k t tr = None -> st = ST_INVALID_ARGUMENT)
  | Call t (DGet k) => st = ST_SUCCESS /\ forall d x, stored k t tr = Some (d, x) -> x < W64 -> r = Some x
  | _ => True
  end.

(** How much memory a history of calls asks the allocator for.  No proofs here. *)
From Verif Require Import Base Status Mem VectorModel VectorSpec VectorDriver.

Definition distance (a b : N) : N := (a - b) + (b - a).

Section Cost.
  Context {C : Type}.
  Notation vec := (vector C).

  (** The calls one after another.  The first number is the total size, in elements, of the blocks
      the calls asked the allocator for: what GetCapacity returns after a call, once for every request
      the call made.  Reallocating to a block copies at most as many elements.  The second number is
      the total number of elements by which the calls changed what GetSize returns. *)
  Fixpoint run_cost (v : vec) (ops : list (vop C)) : M C (N * N * vec) := fun w =>
    match ops with
    | [] => Ok (0, 0, v) w
    | o :: ops =>
        match run_op v o w with
        | Fault f => Fault f
        | Ok (_, v1) w1 =>
            match run_cost v1 ops w1 with
            | Fault f => Fault f
            | Ok (blocks, changes, v2) w2 =>
                Ok ((tick w1 - tick w) * snd (vget_capacity v1) + blocks,
                    distance (snd (vget_size v)) (snd (vget_size v1)) + changes, v2) w2
            end
        end
    end.

  (** All calls but those with which a caller chooses the capacity. *)
  Definition automatic (o : vop C) : bool :=
    match o with OReserve _ | OShrinkToFit => false | _ => true end.
End Cost.

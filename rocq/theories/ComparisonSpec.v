(** What the comparison functions are meant to decide, in terms of numbers. *)
From Verif Require Import Base.

(** The [k] bytes of the number [v], lowest first. *)
Fixpoint bytes_of (k : nat) (v : N) : list N :=
  match k with O => [] | S k => v mod 256 :: bytes_of k (v / 256) end.
(** [f] decides equality of the unsigned numbers of [k] bytes. *)
Definition decides (k : nat) (f : list N -> list N -> bool) : Prop :=
  forall a b, a < 2 ^ (8 * N.of_nat k) -> b < 2 ^ (8 * N.of_nat k) ->
    f (bytes_of k a) (bytes_of k b) = true <-> a = b.
(** [f] compares the unsigned numbers of [k] bytes. *)
Definition orders (k : nat) (f : list N -> list N -> Z) : Prop :=
  forall a b, a < 2 ^ (8 * N.of_nat k) -> b < 2 ^ (8 * N.of_nat k) ->
    (a < b -> f (bytes_of k a) (bytes_of k b) = (-1)%Z) /\
    (a = b -> f (bytes_of k a) (bytes_of k b) = 0%Z) /\
    (b < a -> f (bytes_of k a) (bytes_of k b) = 1%Z).

(** Signed numbers and their objects.  Nothing here mentions the code. *)
From Verif Require Import Base ComparisonSpec.

(** The numbers of a signed type of [k] bytes, and the [k] bytes of such a number. *)
Definition in_signed (k : nat) (z : Z) : Prop := (- 2 ^ (8 * Z.of_nat k - 1) <= z < 2 ^ (8 * Z.of_nat k - 1))%Z.
Definition signed_bytes (k : nat) (z : Z) : list N := bytes_of k (Z.to_N (z mod 2 ^ (8 * Z.of_nat k))).
(** What a comparison of two numbers answers. *)
Definition sign_of (a b : Z) : Z := if (a <? b)%Z then (-1)%Z else if (b <? a)%Z then 1%Z else 0%Z.
(** The numbers are in ascending order. *)
Definition ascending (zs : list Z) : Prop :=
  forall i j a b, i < j -> nnth i zs = Some a -> nnth j zs = Some b -> (a <= b)%Z.
(** How many of the numbers are smaller than [a]. *)
Fixpoint smaller (a : Z) (zs : list Z) : N :=
  match zs with [] => 0 | z :: zs => (if (z <? a)%Z then 1 else 0) + smaller a zs end.

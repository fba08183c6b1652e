(** The comparison functions that include/Zycore/Comparison.h generates for signed types. *)
From Verif Require Import Base ComparisonModel.

(** Value of a signed integer object of [k] bytes, in two's complement (little-endian, see [le_value]). *)
Definition signed_value (k : N) (bytes : list N) : Z :=
  let v := Z.of_N (le_value bytes) in
  if (v <? 2 ^ (8 * Z.of_N k - 1))%Z then v else (v - 2 ^ (8 * Z.of_N k))%Z.
(** The signed field of [k] bytes at offset [o] of an object. *)
Definition signed_field (o k : N) (x : list N) : Z := signed_value k (nsub o k x).

(** ZYAN_DECLARE_EQUALITY_COMPARISON, include/Zycore/Comparison.h:84-91, for a signed type of [k] bytes. *)
Definition equals_signed (k : N) (left right : list N) : bool :=
  if (signed_value k (nfirst k left) =? signed_value k (nfirst k right))%Z then true else false.
(** ZYAN_DECLARE_COMPARISON, include/Zycore/Comparison.h:120-135. *)
Definition compare_signed (k : N) (left right : list N) : Z :=
  if (signed_value k (nfirst k left) <? signed_value k (nfirst k right))%Z then (-1)%Z
  else if (signed_value k (nfirst k left) >? signed_value k (nfirst k right))%Z then 1%Z
  else 0%Z.
(** ZYAN_DECLARE_EQUALITY_COMPARISON_FOR_FIELD, include/Zycore/Comparison.h:101-108: a signed field of [k] bytes at
    offset [o]. *)
Definition equals_signed_field (o k : N) (left right : list N) : bool :=
  if (signed_field o k left =? signed_field o k right)%Z then true else false.
(** ZYAN_DECLARE_COMPARISON_FOR_FIELD, include/Zycore/Comparison.h:145-160. *)
Definition compare_signed_field (o k : N) (left right : list N) : Z :=
  if (signed_field o k left <? signed_field o k right)%Z then (-1)%Z
  else if (signed_field o k left >? signed_field o k right)%Z then 1%Z
  else 0%Z.

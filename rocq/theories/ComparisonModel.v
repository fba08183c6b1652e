(** Comparison functions generated by include/Zycore/Comparison.h. *)
From Verif Require Import Base.

(** Value of an unsigned integer object stored in the given bytes.
    Simplification: little-endian, as on the platforms the library targets. *)
Fixpoint le_value (bytes : list N) : N :=
  match bytes with [] => 0 | b :: bs => b + 256 * le_value bs end.

(** The field of [k] bytes at offset [o] of an object. *)
Definition field (o k : N) (x : list N) : N := le_value (nsub o k x).

(** ZYAN_DECLARE_EQUALITY_COMPARISON_FOR_FIELD, include/Zycore/Comparison.h:101-108: the field
    has an unsigned type of [k] bytes and is at offset [o]. *)
Definition equals_field (o k : N) (left right : list N) : bool :=
  if field o k left =? field o k right then true else false.
(** ZYAN_DECLARE_COMPARISON_FOR_FIELD, include/Zycore/Comparison.h:145-160. *)
Definition compare_field (o k : N) (left right : list N) : Z :=
  if field o k left <? field o k right then (-1)%Z
  else if field o k right <? field o k left then 1%Z
  else 0%Z.
(** ZYAN_DECLARE_EQUALITY_COMPARISON, include/Zycore/Comparison.h:84-91, for an unsigned type of
    [k] bytes. *)
Definition equals (k : N) (left right : list N) : bool :=
  if le_value (nfirst k left) =? le_value (nfirst k right) then true else false.
(** ZYAN_DECLARE_COMPARISON, include/Zycore/Comparison.h:120-135. *)
Definition compare (k : N) (left right : list N) : Z :=
  if le_value (nfirst k left) <? le_value (nfirst k right) then (-1)%Z
  else if le_value (nfirst k right) <? le_value (nfirst k left) then 1%Z
  else 0%Z.

(** Instances, include/Zycore/Comparison.h:181-306.  [ZyanBool] is an 8-bit type and pointers
    are compared as 64-bit addresses (flat address space). *)
Definition equals_pointer := equals 8.
Definition equals_bool := equals 1.
Definition equals_numeric8 := equals 1.
Definition equals_numeric16 := equals 2.
Definition equals_numeric32 := equals 4.
Definition equals_numeric64 := equals 8.
Definition compare_pointer := compare 8.
Definition compare_bool := compare 1.
Definition compare_numeric8 := compare 1.
Definition compare_numeric16 := compare 2.
Definition compare_numeric32 := compare 4.
Definition compare_numeric64 := compare 8.

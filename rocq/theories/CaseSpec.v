(** Conversions of a whole string. *)
From Verif Require Import Base StringSpec.
Definition conversion (upper : bool) : sop := if upper then SToUpper else SToLower.
Definition converted_char (upper : bool) : N -> N := if upper then to_upper else to_lower.

(** Writing several numbers into one string, with a separator between them.  No proofs here. *)
From Verif Require Import Base Status StringSpec FormatSpec ReadSpec.

(** The prefix given to a formatting call. *)
Definition prefix_of (o : fop) : list N :=
  match o with FDecS _ _ _ p | FHexS _ _ _ _ p => prefix_text p | _ => [] end.
(** The calls: a formatting call for each number, ZyanStringAppend of the separator between them. *)
Fixpoint write_list (sep : list N) (nums : list fop) : list fop :=
  match nums with
  | [] => []
  | [o] => [o]
  | o :: nums => o :: FStr (SAppend sep) :: write_list sep nums
  end.
(** The first character of the separator is no digit, no sign, and not part of the prefix. *)
Definition separates (sep : list N) (o : fop) : Prop :=
  match sep with
  | [] => False
  | c :: _ => digit_value c = None /\ c <> 43 /\ c <> 45 /\ ~ In c (prefix_of o)
  end.

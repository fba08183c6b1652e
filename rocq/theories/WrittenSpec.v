(** Writing command lines (property C101): the words a user types for an option or an argument.  No proofs here. *)
From Verif Require Import Base ArgSpec.

(** What a user wants to say: a flag with a long name, flags in one token with an option that takes a value (as "-abo", "file"
    or "-abofile"; [cs] are the flags in front, with the numbers [fs]), an option with a long name and a value, or an argument. *)
Inductive item :=
| IFlag (d : N) (name : token)
| ILong (d : N) (name value : token)
| IShort (fs : list (N * N)) (d c : N) (value : token)
| IAttached (fs : list (N * N)) (d c : N) (value : token)
| IArgument (t : token).
Definition item_words (i : item) : list token :=
  match i with
  | IFlag _ name => [name]
  | ILong _ name value => [name; value]
  | IShort fs _ c value => [dash :: map fst fs ++ [c]; value]
  | IAttached fs _ c value => [dash :: map fst fs ++ c :: value]
  | IArgument t => [t]
  end.
Definition item_entries (i : item) : list entry :=
  match i with
  | IFlag d _ => [flag d]
  | ILong d _ value => [valued d value]
  | IShort fs d _ value | IAttached fs d _ value => map (fun f => flag (snd f)) fs ++ [valued d value]
  | IArgument t => [unnamed t]
  end.
(** The item fits the definitions: the names belong to the numbers, the first character behind a single dash is no dash, an
    attached value is not empty, and an argument does not look like an option. *)
Definition item_ok (ds : list sdef) (i : item) : Prop :=
  match i with
  | IFlag d name => long name /\ named ds name d true
  | ILong d name _ => long name /\ named ds name d false
  | IShort fs d c value => short (dash :: map fst fs ++ [c]) /\ Forall (fun f => named ds [dash; fst f] (snd f) true) fs /\
      named ds [dash; c] d false
  | IAttached fs d c value => short (dash :: map fst fs ++ c :: value) /\
      Forall (fun f => named ds [dash; fst f] (snd f) true) fs /\ named ds [dash; c] d false /\ value <> []
  | IArgument t => plain t
  end.
(** A command line: the items, and behind "--" further arguments of any shape. *)
Definition written (is : list item) (rest : option (list token)) : list token :=
  concat (map item_words is) ++ match rest with None => [] | Some ts => [dash; dash] :: ts end.
Definition meant (is : list item) (rest : option (list token)) : list entry :=
  concat (map item_entries is) ++ match rest with None => [] | Some ts => map unnamed ts end.

(** What the memory calls promise about the pages of the process. *)
From Verif Require Import Base Status ApiModel PagesModel.

(** Page [q] holds a byte of the range. *)
Definition touches (m : pages) (a n q : N) : Prop := exists x, a <= x < a + n /\ x / page m = q.
(** The rights in the name of a ZyanMemoryPageProtection. *)
Definition named_rights (p : protection) : rights :=
  match p with
  | ReadOnly => mkrights true false false
  | ReadWrite => mkrights true true false
  | Execute => mkrights false false true
  | ExecuteRead => mkrights true false true
  | ExecuteReadWrite => mkrights true true true
  end.
(** The pages of the range got these rights ([None]: were released) and nothing else changed. *)
Definition pages_became (m : pages) (a n : N) (r : option rights) (m' : pages) : Prop :=
  page m' = page m /\
  (forall q, touches m a n q -> rights_of m' q = r) /\
  (forall q, ~ touches m a n q -> rights_of m' q = rights_of m q).

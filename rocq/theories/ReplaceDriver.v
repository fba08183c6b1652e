(** A client that replaces all occurrences of a text in a string.  No proofs here. *)
From Verif Require Import Base Status VectorModel VectorDriver StringModel StringSpec StringDriver Mem.

(** Find the next occurrence, delete it, insert the replacement (Insert refuses empty texts), go on behind it. *)
Fixpoint replace_from (s : str) (needle repl : view) (from : N) (fuel : nat) : M N (status * str) :=
  match fuel with
  | O => fail OutOfFuel
  | S fuel =>
      let* (st, size) := sget_size s in
      let* (st, r) := slpos_ex eq_cs s needle from (wsub size from) in
      match r with
      | None => ret (st, s)
      | Some i =>
          let* (st, n) := view_get_size needle in
          let* (st, s1) := sdelete s i n in
          if negb (st =? ST_SUCCESS) then ret (st, s1) else
          let* (st, m) := view_get_size repl in
          if m =? 0 then replace_from s1 needle repl i fuel else
          let* (st, s2) := sinsert s1 i repl in
          if negb (st =? ST_SUCCESS) then ret (st, s2) else
          replace_from s2 needle repl (wadd i m) fuel
      end
  end.
Definition replace_all (s : str) (needle repl : view) : M N (status * str) :=
  let* (st, size) := sget_size s in replace_from s needle repl 0 (N.to_nat size + 1).

(** The text [ys] is [xs] with the occurrences of the needle replaced, from the left, without looking at what was put in. *)
Inductive replaced (needle repl : list N) : list N -> list N -> Prop :=
| replaced_none xs : (forall i, ~ occurs eq xs needle i) -> replaced needle repl xs xs
| replaced_first before rest rest' :
    (forall i, i < nlen before -> ~ occurs eq (before ++ needle ++ rest) needle i) ->
    replaced needle repl rest rest' ->
    replaced needle repl (before ++ needle ++ rest) (before ++ repl ++ rest').

(** What is left when a replacement does not fit: some occurrences are replaced, the next one is deleted. *)
Inductive stopped (needle repl : list N) : list N -> list N -> Prop :=
| stopped_here before rest :
    (forall i, i < nlen before -> ~ occurs eq (before ++ needle ++ rest) needle i) ->
    stopped needle repl (before ++ needle ++ rest) (before ++ rest)
| stopped_later before rest rest' :
    (forall i, i < nlen before -> ~ occurs eq (before ++ needle ++ rest) needle i) ->
    stopped needle repl rest rest' ->
    stopped needle repl (before ++ needle ++ rest) (before ++ repl ++ rest').

(** The view lies in another block than the characters of the string. *)
Definition beside (q : view) (s : str) : Prop :=
  forall p d, sdata q = Some p -> snd (sget_data s) = Some d -> pb p <> pb d.

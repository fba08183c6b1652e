(** Specification of argument parsing: the grammar, over texts only.  Nothing here mentions memory or the code. *)
From Verif Require Import Base Status.

Notation token := (list N).
Definition dash : N := 45.

(** A definition: its name ("-c" or "--name"), whether it is a flag, whether it must occur. *)
Record sdef := mksdef { sd_name : token; sd_boolean : bool; sd_required : bool }.
(** A parsed argument: the number of its definition (none for unnamed arguments) and its value. *)
Record entry := mkentry { e_def : option N; e_value : option token }.
Definition unnamed (t : token) : entry := mkentry None (Some t).
Definition flag (d : N) : entry := mkentry (Some d) None.
Definition valued (d : N) (x : token) : entry := mkentry (Some d) (Some x).

(** Names have one or two dashes; after one dash there is one character. *)
Definition name_ok (x : token) : Prop :=
  (exists c, x = [dash; c]) \/ (exists y, x = dash :: dash :: y).

(** Definition [d] is the first one with that name; no definition has that name. *)
Definition named (ds : list sdef) (name : token) (d : N) (boolean : bool) : Prop :=
  exists x, nnth d ds = Some x /\ sd_name x = name /\ sd_boolean x = boolean /\
    forall j y, j < d -> nnth j ds = Some y -> sd_name y <> name.
Definition unknown (ds : list sdef) (name : token) : Prop :=
  forall j y, nnth j ds = Some y -> sd_name y <> name.

(** The shapes of tokens. *)
Definition long (t : token) : Prop := exists c y, t = dash :: dash :: c :: y.
Definition short (t : token) : Prop := exists c y, t = dash :: c :: y /\ c <> dash.
Definition plain (t : token) : Prop := ~ (exists c y, t = dash :: c :: y).

(** The characters [cs] are flags, [fs] are their entries. *)
Inductive flags (ds : list sdef) : token -> list entry -> Prop :=
| flags_nil : flags ds [] []
| flags_cons c d cs fs : named ds [dash; c] d true -> flags ds cs fs -> flags ds (c :: cs) (flag d :: fs).

Section Grammar.
  Variable ds : list sdef.
  (** What a token of flags only ("-ab") yields behind its flags: nothing in the documented grammar. *)
  Variable behind_flags : token -> list entry.

  (** [scan accept ts es stop]: the tokens [ts] yield the entries [es], and then reading ends with the tokens
      ([stop = None]) or with an error at some token.  [accept]: options are still accepted, no "--" was seen. *)
  Inductive scan : bool -> list token -> list entry -> option (status * token) -> Prop :=
  | scan_end a : scan a [] [] None
  | scan_dashes ts es s : scan false ts es s -> scan true ([dash; dash] :: ts) es s
  | scan_unnamed a t ts es s : a = false \/ plain t -> scan a ts es s -> scan a (t :: ts) (unnamed t :: es) s
  (* "--name" *)
  | scan_long_flag t d ts es s : long t -> named ds t d true -> scan true ts es s ->
      scan true (t :: ts) (flag d :: es) s
  | scan_long_value t d x ts es s : long t -> named ds t d false -> scan true ts es s ->
      scan true (t :: x :: ts) (valued d x :: es) s
  | scan_long_missing t d : long t -> named ds t d false ->
      scan true [t] [] (Some (ST_ARG_MISSES_VALUE, t))
  | scan_long_unknown t ts : long t -> unknown ds t ->
      scan true (t :: ts) [] (Some (ST_ARG_NOT_UNDERSTOOD, t))
  (* "-abc" *)
  | scan_flags t cs fs ts es s : short t -> t = dash :: cs -> flags ds cs fs -> scan true ts es s ->
      scan true (t :: ts) (fs ++ behind_flags t ++ es) s
  | scan_attached t cs c x fs d ts es s : short t -> t = dash :: cs ++ c :: x -> x <> [] -> flags ds cs fs ->
      named ds [dash; c] d false -> scan true ts es s ->
      scan true (t :: ts) (fs ++ valued d x :: es) s
  | scan_value t cs c fs d x ts es s : short t -> t = dash :: cs ++ [c] -> flags ds cs fs ->
      named ds [dash; c] d false -> scan true ts es s ->
      scan true (t :: x :: ts) (fs ++ valued d x :: es) s
  | scan_missing t cs c fs d : short t -> t = dash :: cs ++ [c] -> flags ds cs fs ->
      named ds [dash; c] d false ->
      scan true [t] fs (Some (ST_ARG_MISSES_VALUE, t))
  | scan_unknown t cs c y fs ts : short t -> t = dash :: cs ++ c :: y -> flags ds cs fs ->
      unknown ds [dash; c] ->
      scan true (t :: ts) fs (Some (ST_ARG_NOT_UNDERSTOOD, t)).
End Grammar.
(** The documented grammar, and what the code does: "-ab" is also an unnamed argument. *)
Definition documented (t : token) : list entry := [].
Definition actual (t : token) : list entry := [unnamed t].
(** The token consists of flags only. *)
Definition flags_only (ds : list sdef) (t : token) : Prop := short t /\ exists cs fs, t = dash :: cs /\ flags ds cs fs.

(** The unnamed arguments among the entries. *)
Fixpoint unnamed_of (es : list entry) : list token :=
  match es with
  | [] => []
  | e :: es => match e_def e, e_value e with None, Some t => t :: unnamed_of es | _, _ => unnamed_of es end
  end.
Definition occurs (d : N) (es : list entry) : Prop := exists e, In e es /\ e_def e = Some d.
Definition required_present (ds : list sdef) (es : list entry) : Prop :=
  forall d x, nnth d ds = Some x -> sd_required x = true -> occurs d es.
Definition first_missing (ds : list sdef) (es : list entry) (name : token) : Prop :=
  exists d x, nnth d ds = Some x /\ sd_required x = true /\ sd_name x = name /\ ~ occurs d es /\
    forall j y, j < d -> nnth j ds = Some y -> sd_required y = true -> occurs j es.

(** The result of parsing: the entries, or an error with the token it is about. *)
Inductive outcome :=
| Accept (es : list entry)
| Reject (st : status) (tok : option token).
(** The verdict on the entries [es] with at least [lo] and at most [hi] unnamed arguments.  The first surplus unnamed
    argument is found before any later error. *)
Definition judged (ds : list sdef) (lo hi : N) (es : list entry) (stop : option (status * token)) (o : outcome) : Prop :=
  let n := nlen (unnamed_of es) in
  (hi < n /\ exists t, nnth hi (unnamed_of es) = Some t /\ o = Reject ST_TOO_MANY_ARGS (Some t)) \/
  (n <= hi /\ exists st t, stop = Some (st, t) /\ o = Reject st (Some t)) \/
  (n <= hi /\ stop = None /\ n < lo /\ o = Reject ST_TOO_FEW_ARGS None) \/
  (lo <= n <= hi /\ stop = None /\ exists name, first_missing ds es name /\ o = Reject ST_REQUIRED_ARG_MISSING (Some name)) \/
  (lo <= n <= hi /\ stop = None /\ required_present ds es /\ o = Accept es).
(** The token list [ts] belongs to the language, with these entries. *)
Definition accepts (ds : list sdef) (behind : token -> list entry) (lo hi : N) (ts : list token) (es : list entry) : Prop :=
  scan ds behind true ts es None /\ lo <= nlen (unnamed_of es) <= hi /\ required_present ds es.

(** ** Memory *)
(** The entries that are made before the verdict: every one up to the first surplus unnamed argument, and one more for
    the option that is not understood or has no value. *)
Fixpoint entries_made (hi : N) (es : list entry) (stop : option (status * token)) : N :=
  match es with
  | [] => match stop with Some _ => 1 | None => 0 end
  | e :: es =>
      match e_def e, e_value e with
      | None, Some _ => if hi =? 0 then 0 else 1 + entries_made (hi - 1) es stop
      | _, _ => 1 + entries_made hi es stop
      end
  end.
(** The room for entries after [n] of them, if there was room for [room] at the start: an entry without room asks for
    twice the room needed. *)
Fixpoint room_after (room : N) (n : nat) : N :=
  match n with
  | O => room
  | S m => let r := room_after room m in if r <? N.of_nat (S m) then N.of_nat (S m) * 2 else r
  end.
(** The number of times that happens. *)
Fixpoint grown (room : N) (n : nat) : N :=
  match n with
  | O => 0
  | S m => grown room m + (if room_after room m <? N.of_nat (S m) then 1 else 0)
  end.
(** The requests of a call with the tokens [ts] (behind the name of the program): one for an entry per token and one for
    the name, then those for more room. *)
Definition parser_requests (ts : list token) (made : N) : N := 1 + grown (nlen ts + 1) (N.to_nat made).

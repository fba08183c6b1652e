(** A client that splits a text at a separator, and one that puts the parts together again.  No proofs here. *)
From Verif Require Import Base Status VectorModel VectorDriver StringModel StringSpec StringDriver Mem.

(** ** Specification *)
(** The pieces of a text between the occurrences of the separator, searched from the left. *)
Inductive pieces (sep : list N) : list N -> list (list N) -> Prop :=
| pieces_last xs : (forall i, ~ occurs eq xs sep i) -> pieces sep xs [xs]
| pieces_first before rest ps :
    (forall i, i < nlen before -> ~ occurs eq (before ++ sep ++ rest) sep i) ->
    pieces sep rest ps -> pieces sep (before ++ sep ++ rest) (before :: ps).
(** Texts with the separator between them. *)
Fixpoint joined (sep : list N) (ps : list (list N)) : list N :=
  match ps with
  | [] => []
  | [p] => p
  | p :: ps => p ++ sep ++ joined sep ps
  end.
Definition nonempty (p : list N) : bool := negb (nlen p =? 0).

(** ** Driver *)
(** Find the next separator, take the characters up to it ([take]: their index and number), go on behind it.  Fields
    the library refuses are left out. *)
Fixpoint split_from (take : N -> N -> status * view) (hay sep : view) (from : N) (fuel : nat) : M N (list view) :=
  match fuel with
  | O => fail OutOfFuel
  | S fuel =>
      let* (_, size) := view_get_size hay in
      let* (_, r) := slpos_ex eq_cs hay sep from (wsub size from) in
      let* (_, n) := view_get_size sep in
      let* rest := match r with Some i => split_from take hay sep (wadd i n) fuel | None => ret [] end in
      let (st, q) := take from (wsub (match r with Some i => i | None => size end) from) in
      ret (if st =? ST_SUCCESS then q :: rest else rest)
  end.
(** The fields made with ViewInsideBufferEx from the address of the text ... *)
Definition by_buffer (old hay : view) (index count : N) : status * view :=
  view_inside_buffer_ex old (padd (snd (view_get_data hay)) index) count.
Definition split (old hay sep : view) : M N (list view) :=
  let* (_, size) := view_get_size hay in split_from (by_buffer old hay) hay sep 0 (N.to_nat size + 1).
(** ... and with ViewInsideViewEx from the view of the text. *)
Definition split_views (old hay sep : view) : M N (list view) :=
  let* (_, size) := view_get_size hay in split_from (view_inside_view_ex old hay) hay sep 0 (N.to_nat size + 1).

(** Insert at the end. *)
Definition put_last (s : str) (q : view) : M N (status * str) :=
  let* (_, n) := sget_size s in sinsert s n q.
Fixpoint join_more (s : str) (sep : view) (qs : list view) : M N (status * str) :=
  match qs with
  | [] => ret (ST_SUCCESS, s)
  | q :: qs =>
      let* (st, s1) := put_last s sep in
      if negb (st =? ST_SUCCESS) then ret (st, s1) else
      let* (st, s2) := put_last s1 q in
      if negb (st =? ST_SUCCESS) then ret (st, s2) else join_more s2 sep qs
  end.
Definition join (s : str) (sep : view) (qs : list view) : M N (status * str) :=
  match qs with
  | [] => ret (ST_SUCCESS, s)
  | q :: qs =>
      let* (st, s1) := put_last s q in
      if negb (st =? ST_SUCCESS) then ret (st, s1) else join_more s1 sep qs
  end.

(** What a field made with ViewInsideViewEx is instead: one character short; a field without characters has no size. *)
Definition one_short (w : world N) (q : view) (p : list N) : Prop :=
  match p with
  | [] => view_get_size q w = if checked w then Fault AssertFailed else Ok (ST_SUCCESS, W64 - 1) w
  | _ => views_part w q (removelast p)
  end.

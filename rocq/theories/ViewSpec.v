(** Views of a part of a larger text (property C100): what lies behind the characters of the view.  No proofs here. *)
From Verif Require Import Base Status Mem VectorModel StringModel StringSpec StringDriver.

(** The view [q] shows the characters [x]; the byte behind them is [c] and can be read. *)
Definition views_next (w : world N) (q : view) (x : list N) (c : N) : Prop :=
  ssize q = nlen x + 1 /\ nlen x + 1 < W64 /\ mread (sdata q) (nlen x + 1) w = Ok (x ++ [c]) w.
(** The view [q] shows the characters [x], with which the memory ends. *)
Definition views_end (w : world N) (q : view) (x : list N) : Prop :=
  ssize q = nlen x + 1 /\ nlen x + 1 < W64 /\
  exists b pre, sdata q = Some (mkptr b (nlen pre)) /\ heap w b = Some (pre ++ x).
(** The view [q] claims [n] characters; up to the next NUL character the memory at its address holds [z]. *)
Definition views_text (w : world N) (q : view) (n : N) (z : list N) : Prop :=
  ssize q = n + 1 /\ n + 1 < W64 /\ ~ In 0 z /\ mread (sdata q) (nlen z + 1) w = Ok (z ++ [0]) w.

(** The order Compare uses for two bytes: bit 5 is set in both, then they are compared as signed characters. *)
Definition byte_order (a b : N) : status * Z :=
  if a =? b then (ST_TRUE, 0%Z)
  else if (schar (N.lor a 32) <? schar (N.lor b 32))%Z then (ST_FALSE, (-1)%Z) else (ST_FALSE, 1%Z).
(** What Compare returns for texts followed by the bytes [c] and [d]: the first pair of bytes that are not alike, or else
    [c] and [d], decide. *)
Fixpoint texts_order (alike : N -> N -> bool) (x y : list N) (c d : N) : status * Z :=
  match x, y with
  | a :: x, b :: y => if alike a b then texts_order alike x y c d else byte_order a b
  | _, _ => byte_order c d
  end.
Definition views_order (alike : N -> N -> bool) (x y : list N) (c d : N) : status * Z :=
  if nlen x <? nlen y then (ST_FALSE, (-1)%Z)
  else if nlen y <? nlen x then (ST_FALSE, 1%Z)
  else texts_order alike x y c d.
(** The characters from position [i] on are alike the beginning of [z]. *)
Definition ends_inside (alike : N -> N -> bool) (x z : list N) (i : N) : Prop :=
  Forall2 (fun a b => alike a b = true) (nskip i x) (nfirst (nlen x - i) z).
(** Equal characters, and characters that differ at most in bit 5 (the notion of the case-insensitive functions). *)
Definition same (a b : N) : bool := a =? b.
Definition same5 (a b : N) : bool := (a =? b) || (N.lxor a 32 =? b).

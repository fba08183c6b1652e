(** What ISO C says about the functions of string.h, in terms of the bytes in memory. *)
From Verif Require Import Base.

(** The bytes [l] are stored from address [p] on. *)
Fixpoint bytes_at (m : N -> option N) (p : N) (l : list N) : Prop :=
  match l with
  | [] => True
  | b :: l => m p = Some b /\ bytes_at m (p + 1) l
  end.
(** The string [s] with its terminating NUL is stored from [p] on. *)
Definition cstr (m : N -> option N) (p : N) (s : list N) : Prop :=
  bytes_at m p (s ++ [0]) /\ ~ In 0 s.
(** An array from which at most [n] characters are read: a string, or [n] non-NUL bytes. *)
Definition cstr_n (m : N -> option N) (p n : N) (s : list N) : Prop :=
  (cstr m p s /\ nlen s < n) \/ (bytes_at m p s /\ ~ In 0 s /\ nlen s = n).
(** The [n] bytes from [p] on may be accessed. *)
Definition mapped (m : N -> option N) (p n : N) : Prop := forall i, i < n -> m (p + i) <> None.
Definition disjoint (p n q k : N) : Prop := p + n <= q \/ q + k <= p.
(** Memory after storing the bytes [l] from [p] on, everything else unchanged. *)
Definition put (m : N -> option N) (p : N) (l : list N) : N -> option N :=
  fun a => if (p <=? a) && (a <? p + nlen l) then nnth (a - p) l else m a.

(** Lexicographic order of byte strings (a proper prefix is smaller). *)
Inductive lex_lt : list N -> list N -> Prop :=
| lex_nil b t : lex_lt [] (b :: t)
| lex_head a b s t : a < b -> lex_lt (a :: s) (b :: t)
| lex_tail a s t : lex_lt s t -> lex_lt (a :: s) (a :: t).
Definition cmp_result (r : Z) (s t : list N) : Prop :=
  (r = 0%Z <-> s = t) /\ ((r < 0)%Z <-> lex_lt s t) /\ ((r > 0)%Z <-> lex_lt t s).

(** [r] is the address of the first / last byte of [l] (stored at [p]) that satisfies [f]. *)
Definition first_at (f : N -> bool) (p : N) (l : list N) (r : option N) : Prop :=
  match r with
  | Some a => exists x y b, l = x ++ b :: y /\ a = p + nlen x /\ f b = true /\ forallb (fun c => negb (f c)) x = true
  | None => forallb (fun c => negb (f c)) l = true
  end.
Definition last_at (f : N -> bool) (p : N) (l : list N) (r : option N) : Prop :=
  match r with
  | Some a => exists x y b, l = x ++ b :: y /\ a = p + nlen x /\ f b = true /\ forallb (fun c => negb (f c)) y = true
  | None => forallb (fun c => negb (f c)) l = true
  end.
(** The byte is one of the characters of the string. *)
Definition among (s : list N) (b : N) : bool := existsb (N.eqb b) s.
(** [n] is the length of the longest prefix of [s] that consists of bytes satisfying [f]. *)
Definition span (f : N -> bool) (s : list N) (n : N) : Prop :=
  exists x y, s = x ++ y /\ nlen x = n /\ forallb f x = true /\
    match y with [] => True | b :: _ => f b = false end.
(** The first occurrence of [t] in [s] (stored at [p]). *)
Definition first_occ (p : N) (s t : list N) (r : option N) : Prop :=
  match r with
  | Some a => (exists x y, s = x ++ t ++ y /\ a = p + nlen x) /\
              forall x y, s = x ++ t ++ y -> a <= p + nlen x
  | None => forall x y, s <> x ++ t ++ y
  end.

(** The tokens of [s] separated by the characters of [d]; [cur] is the token being read. *)
Fixpoint tokens_from (d : list N) (cur s : list N) : list (list N) :=
  match s with
  | [] => match cur with [] => [] | _ => [cur] end
  | b :: s => if among d b
              then match cur with [] => tokens_from d [] s | _ => cur :: tokens_from d [] s end
              else tokens_from d (cur ++ [b]) s
  end.
Definition tokens (d s : list N) : list (list N) := tokens_from d [] s.
(** A small memory for the examples: the bytes of [l] from address [p] on, nothing else. *)
Definition image (p : N) (l : list N) : N -> option N := put (fun _ => None) p l.

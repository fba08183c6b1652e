(** Calls of ZYAN_STRTOK from several source files.  ZYAN_STRTOK is a "static inline" function of a header
    (include/Zycore/LibC.h:473-492; ZYAN_INLINE: Defines.h:254-258, other compilers than MSVC), so that every source file that includes it has a static variable
    [p] of its own.  No proofs here. *)
From Verif Require Import Base LibCModel LibCSpec.
Import ListNotations.

(** A call ZYAN_STRTOK(str, delim) in source file [t_file]; [t_str = None] is NULL. *)
Record tcall := mktcall { t_file : N; t_str : option N; t_delim : N }.
(** The calls one after the other; [vars]: the static variable of each file.  The list of returned pointers. *)
Fixpoint tok_calls (f : nat) (vars : N -> option N) (cs : list tcall) : LM (list (option N)) :=
  match cs with
  | [] => lret []
  | c :: cs =>
      do (r, p) <- strtok f (vars (t_file c)) (t_str c) (t_delim c);
      do rs <- tok_calls f (fun u => if u =? t_file c then p else vars u) cs;
      lret (r :: rs)
  end.

(** Several files split a string each, in turns: file [u] the string at [str u] with the delimiters at [delim u]; at its first
    turn a file passes the string, then NULL. *)
Fixpoint turns (str delim : N -> N) (begun : N -> bool) (files : list N) : list tcall :=
  match files with
  | [] => []
  | u :: files =>
      mktcall u (if begun u then None else Some (str u)) (delim u) ::
      turns str delim (fun v => if v =? u then true else begun v) files
  end.
(** The answers to the calls of file [u]; the number of its turns. *)
Fixpoint answers {A} (u : N) (files : list N) (rs : list A) : list A :=
  match files, rs with
  | v :: files, r :: rs => if v =? u then r :: answers u files rs else answers u files rs
  | _, _ => []
  end.
Fixpoint turns_of (u : N) (files : list N) : nat :=
  match files with [] => O | v :: files => if v =? u then S (turns_of u files) else turns_of u files end.
(** Every file has its string and its delimiters; no two strings overlap, and no string overlaps delimiters. *)
Definition apart (m : N -> option N) (f : nat) (str delim : N -> N) (text chars : N -> list N) (files : list N) : Prop :=
  (forall u, In u files -> cstr m (str u) (text u) /\ cstr m (delim u) (chars u) /\ Forall (fun b => b < 256) (text u) /\
     (length (text u) < f)%nat /\ (length (chars u) < f)%nat /\ nlen (text u) < W64) /\
  (forall u v, In u files -> In v files -> u <> v -> disjoint (str u) (nlen (text u) + 1) (str v) (nlen (text v) + 1)) /\
  (forall u v, In u files -> In v files -> disjoint (str u) (nlen (text u) + 1) (delim v) (nlen (chars v) + 1)).

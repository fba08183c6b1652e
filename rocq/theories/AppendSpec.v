(** ZyanStringAppendFormat under every answer of the formatter and of the allocator (property C99): what a caller sees of
    a string whose terminator may be gone.  No proofs here. *)
From Verif Require Import Base Status Mem VectorModel StringModel StringSpec StringDriver FormatModel FormatSpec FormatDriver.

(** The size and the capacity the API reports, and the bytes at the address GetData returns. *)
Definition seen (w : world N) (s : str) (size capacity : N) (bytes : list N) : Prop :=
  sget_size s w = Ok (ST_SUCCESS, size) w /\ sget_capacity s w = Ok (ST_SUCCESS, capacity) w /\
  mread (snd (sget_data s)) (nlen bytes) w = Ok bytes w.
(** The blocks that existed before, other than the string's own, are as before. *)
Definition others_kept (w w' : world N) (s : str) : Prop :=
  forall b, b < nextb w -> (forall p, snd (sget_data s) = Some p -> pb p <> b) -> heap w' b = heap w b.
(** The string shows no text: its size does not say where the terminator is. *)
Definition shows_no_text (w : world N) (s : str) : Prop := forall cs, ~ sshows w s cs.
(** What the formatter leaves in memory when it may use [room] characters and a terminator. *)
Definition printed (f : formatted) (room : N) : list N :=
  match f with FText t => nfirst room t ++ [0] | FError t => nfirst room t end.
(** What it returns: the length of the whole text, or -1. *)
Definition answer (f : formatted) : Z := match f with FText t => Z.of_N (nlen t) | FError _ => (-1)%Z end.
(** Texts whose length is an int. *)
Definition int_text (t : list N) : Prop := nlen t < 2147483648.

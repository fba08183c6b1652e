(** Formatting a number into a growable string with an allocator that may refuse any request (property C94).  No proofs here. *)
From Verif Require Import Base Status Mem VectorModel VectorDriver StringModel StringSpec StringDriver FormatModel FormatSpec FormatDriver.

(** Requests number [t], ..., [t'] - 1 are granted. *)
Definition all_granted (ans : N -> aresp N) (t t' : N) : Prop := forall u, t <= u < t' -> exists fill, ans u = AOk fill.
(** Characters that a reader of the C string does not see. *)
Definition begins_with_nul (cs : list N) : Prop := match cs with [] => True | c :: _ => c = 0 end.
(** The calls that format a number. *)
Definition formats_number (o : fop) : Prop := match o with FStr _ => False | _ => True end.
(** [junk] is the room that was made for the padding of a hexadecimal number which is longer than its padding. *)
Definition empty_room (v pad : N) (upper : bool) (junk : list N) : Prop :=
  nlen junk = pad /\ begins_with_nul junk /\ exists ds, numeral 16 upper v ds /\ pad < nlen ds.
(** The characters [cs'] that a formatting call may leave when a request of it is refused, in a string with the characters [cs]. *)
Definition refused_text (o : fop) (cs cs' : list N) : Prop :=
  let before sign prefix := cs' = cs \/ cs' = cs ++ sign \/ cs' = cs ++ sign ++ prefix in
  match o with
  | FStr _ => False
  | FDecU _ _ => cs' = cs
  | FHexU v pad upper => cs' = cs \/ exists junk, cs' = cs ++ junk /\ empty_room v pad upper junk
  | FDecS v pad force prefix => before (sign_text v force) (prefix_text prefix)
  | FHexS v pad upper force prefix => before (sign_text v force) (prefix_text prefix) \/
      exists junk, cs' = cs ++ sign_text v force ++ prefix_text prefix ++ junk /\ empty_room (Z.abs_N v) pad upper junk
  end.
(** A call makes this many requests at most. *)
Definition max_requests (o : fop) : N := match o with FStr _ | FDecU _ _ => 1 | FHexU _ _ _ => 2 | FDecS _ _ _ _ => 3 | FHexS _ _ _ _ _ => 4 end.

(** ** Examples *)
Definition size_of (s : str) (w : world N) : option N := match sget_size s w with Ok (_, n) _ => Some n | _ => None end.
(** The bytes from [i] to the end, with the terminator. *)
Definition bytes_from (i : N) (s : str) (w : world N) : option (list N) :=
  match mread (padd (snd (sget_data s)) i) (v_size (s_vec s) - i) w with Ok x _ => Some x | _ => None end.
(** A string of 31 characters in memory that is just large enough, then the calls [ops]. *)
Definition thirty_one : list N := repeat 97 31.
Definition after_thirty_one (w0 : world N) (ops : list fop) : option (res N (list status * str)) :=
  match sinit_ex 0 true 1 0 w0 with
  | Ok (_, Some s0) w1 => Some (run_fops true s0 (FStr (SAppend thirty_one) :: ops) w1)
  | _ => None
  end.

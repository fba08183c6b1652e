(** Reading numbers from text, the way a user (or strtoull) would.  Independent of the formatting functions. *)
From Verif Require Import Base Status StringSpec FormatSpec.

(** The value of a digit character: 0-9, A-F or a-f. *)
Definition digit_value (c : N) : option N :=
  if (48 <=? c) && (c <=? 57) then Some (c - 48)
  else if (65 <=? c) && (c <=? 70) then Some (c - 65 + 10)
  else if (97 <=? c) && (c <=? 102) then Some (c - 97 + 10)
  else None.
(** Every character is a digit of the base; [acc] is the value of the digits already read. *)
Fixpoint read_from (base acc : N) (cs : list N) : option N :=
  match cs with
  | [] => Some acc
  | c :: cs =>
      match digit_value c with
      | Some d => if d <? base then read_from base (acc * base + d) cs else None
      | None => None
      end
  end.
(** A natural number: at least one digit. *)
Definition read_number (base : N) (cs : list N) : option N :=
  match cs with [] => None | _ => read_from base 0 cs end.
(** [cs] without the characters [p] at its beginning. *)
Fixpoint strip (p cs : list N) : option (list N) :=
  match p, cs with
  | [], _ => Some cs
  | x :: p, c :: cs => if x =? c then strip p cs else None
  | _ :: _, [] => None
  end.
(** An integer: an optional '-' or '+', the prefix, digits. *)
Definition read_integer (base : N) (prefix cs : list N) : option Z :=
  let '(minus, rest) := match cs with
                        | c :: cs' => if c =? 45 then (true, cs') else if c =? 43 then (false, cs') else (false, cs)
                        | [] => (false, [])
                        end in
  match strip prefix rest with
  | Some digits => match read_number base digits with
                   | Some n => Some (if minus then - Z.of_N n else Z.of_N n)%Z
                   | None => None
                   end
  | None => None
  end.
(** A prefix that is not mistaken for a sign. *)
Definition no_sign (prefix : list N) : Prop :=
  match prefix with c :: _ => c <> 43 /\ c <> 45 | [] => True end.

(** [text] reads as the number given to the formatting call. *)
Definition reads_back (o : fop) (text : list N) : Prop :=
  match o with
  | FDecU v _ => read_number 10 text = Some v
  | FHexU v _ _ => read_number 16 text = Some v
  | FDecS v _ _ prefix => read_integer 10 (prefix_text prefix) text = Some v
  | FHexS v _ _ _ prefix => read_integer 16 (prefix_text prefix) text = Some v
  | FStr _ => True
  end.
Definition number_call (o : fop) : Prop :=
  match o with
  | FStr _ => False
  | FDecU _ _ | FHexU _ _ _ => True
  | FDecS _ _ _ prefix | FHexS _ _ _ _ prefix => no_sign (prefix_text prefix)
  end.

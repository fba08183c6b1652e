(** Specification of number formatting, on plain lists of characters. *)
From Verif Require Import Base Status StringSpec.

(** The character of a digit. *)
Definition digit_char (upper : bool) (d : N) : N :=
  if d <? 10 then 48 + d else (if upper then 65 else 97) + (d - 10).
(** Positional notation, most significant digit first. *)
Definition value_of (base : N) (ds : list N) : N := fold_left (fun a d => a * base + d) ds 0.
(** At least one digit, and no superfluous leading 0. *)
Definition canonical (ds : list N) : Prop :=
  match ds with [] => False | [_] => True | d :: _ => d <> 0 end.
(** [cs] is the usual numeral of [n]. *)
Definition numeral (base : N) (upper : bool) (n : N) (cs : list N) : Prop :=
  exists ds, cs = map (digit_char upper) ds /\ Forall (fun d => d < base) ds /\ value_of base ds = n /\ canonical ds.
(** Filled up on the left with '0' characters. *)
Definition padded (pad : N) (cs : list N) : list N := nrepeat 48 (pad - nlen cs) ++ cs.
Definition sign_text (v : Z) (force : bool) : list N := if (v <? 0)%Z then [45] else if force then [43] else [].
Definition prefix_text (p : option (list N)) : list N := match p with Some x => x | None => [] end.

(** String calls and number formatting calls. *)
Inductive fop :=
| FStr (o : sop)
| FDecU (v pad : N)
| FHexU (v pad : N) (upper : bool)
| FDecS (v : Z) (pad : N) (force : bool) (prefix : option (list N))
| FHexS (v : Z) (pad : N) (upper force : bool) (prefix : option (list N)).

(** The parts are appended one after the other, until one does not fit. *)
Fixpoint append_parts (limit : option N) (parts : list (list N)) (cs : list N) (r : status) (cs' : list N) : Prop :=
  match parts with
  | [] => r = ST_SUCCESS /\ cs' = cs
  | p :: parts =>
      if holds_chars limit (nlen (cs ++ p)) then append_parts limit parts (cs ++ p) r cs'
      else r = ST_INSUFFICIENT_BUFFER_SIZE /\ cs' = cs
  end.
Definition fspec (limit : option N) (o : fop) (cs : list N) (r : status) (cs' : list N) : Prop :=
  match o with
  | FStr o => sspec limit o cs r cs'
  | FDecU v pad => exists ds, numeral 10 false v ds /\ become limit (cs ++ padded pad ds) cs r cs'
  | FHexU v pad upper => exists ds, numeral 16 upper v ds /\ become limit (cs ++ padded pad ds) cs r cs'
  | FDecS v pad force prefix =>
      exists ds, numeral 10 false (Z.abs_N v) ds /\
        append_parts limit [sign_text v force; prefix_text prefix; padded pad ds] cs r cs'
  | FHexS v pad upper force prefix =>
      exists ds, numeral 16 upper (Z.abs_N v) ds /\
        append_parts limit [sign_text v force; prefix_text prefix; padded pad ds] cs r cs'
  end.
Inductive fspecs (limit : option N) : list fop -> list N -> list status -> list N -> Prop :=
| fspecs_nil cs : fspecs limit [] cs [] cs
| fspecs_cons o ops cs r cs1 rs cs2 :
    fspec limit o cs r cs1 -> fspecs limit ops cs1 rs cs2 -> fspecs limit (o :: ops) cs (r :: rs) cs2.

(** The arguments are values of their C types, sums of indices and counts do not wrap around. *)
Definition fargs_ok (o : fop) : Prop :=
  match o with
  | FStr o => sums_ok o
  | FDecU v pad | FHexU v pad _ => v < W64 /\ pad < 256
  | FDecS v pad _ _ | FHexS v pad _ _ _ => (-9223372036854775808 <= v < 9223372036854775808)%Z /\ pad < 256
  end.
(** Characters a call may ask room for. *)
Definition fdemand (o : fop) : N :=
  match o with
  | FStr o => sdemand o
  | FDecU _ pad | FHexU _ pad _ => pad + 20
  | FDecS _ pad _ prefix | FHexS _ pad _ _ prefix => 1 + nlen (prefix_text prefix) + pad + 20
  end.
Fixpoint fdemands (ops : list fop) : N := match ops with [] => 0 | o :: ops => fdemand o + fdemands ops end.

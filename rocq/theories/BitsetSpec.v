(** Specification of bitsets: a machine over plain lists of booleans.  Nothing here mentions memory or the code. *)
From Verif Require Import Base Status.

(** The mutating calls. *)
Inductive bitop :=
| BSet (i : N)
| BReset (i : N)
| BAssign (i : N) (value : bool)
| BToggle (i : N)
| BSetAll
| BResetAll
| BFlip
| BPush (value : bool)
| BPop
| BClear
| BReserve (n : N)
| BShrinkToFit.

(** Bit [i] replaced by [f] of it. *)
Definition put_bit (f : bool -> bool) (i : N) (bs : list bool) : list bool :=
  nfirst i bs ++ map f (nsub i 1 bs) ++ nskip (i + 1) bs.
Definition change_bit (f : bool -> bool) (i : N) (bs : list bool) : status * list bool :=
  if nlen bs <=? i then (ST_OUT_OF_RANGE, bs) else (ST_SUCCESS, put_bit f i bs).
(** [n] bits fit; [limit] is the number of bits of a fixed buffer. *)
Definition holds_bits (limit : option N) (n : N) : bool := match limit with None => true | Some k => n <=? k end.

(** One call on a bitset with the bits [bs]: the status and the bits afterwards. *)
Definition bitstep (limit : option N) (o : bitop) (bs : list bool) : status * list bool :=
  match o with
  | BSet i => change_bit (fun _ => true) i bs
  | BReset i => change_bit (fun _ => false) i bs
  | BAssign i value => change_bit (fun _ => value) i bs
  | BToggle i => change_bit negb i bs
  | BSetAll => (ST_SUCCESS, map (fun _ => true) bs)
  | BResetAll => (ST_SUCCESS, map (fun _ => false) bs)
  | BFlip => (ST_SUCCESS, map negb bs)
  | BPush value =>
      if holds_bits limit (nlen bs + 1) then (ST_SUCCESS, bs ++ [value]) else (ST_INSUFFICIENT_BUFFER_SIZE, bs)
  | BPop => if nlen bs =? 0 then (ST_OUT_OF_RANGE, bs) else (ST_SUCCESS, nfirst (nlen bs - 1) bs)
  | BClear => (ST_SUCCESS, [])
  | BReserve n => (if holds_bits limit (n / 8 * 8) then ST_SUCCESS else ST_INSUFFICIENT_BUFFER_SIZE, bs)
  | BShrinkToFit => (ST_SUCCESS, bs)
  end.
Fixpoint bitsteps (limit : option N) (ops : list bitop) (bs : list bool) : list status * list bool :=
  match ops with
  | [] => ([], bs)
  | o :: ops =>
      let (r, bs1) := bitstep limit o bs in
      let (rs, bs2) := bitsteps limit ops bs1 in
      (r :: rs, bs2)
  end.

(** The calls for which the code is shown to follow the specification: no Pop of an empty bitset, no Push into a full
    fixed buffer, no Reserve of 2^35 bits or more. *)
Definition legal_op (limit : option N) (o : bitop) (bs : list bool) : Prop :=
  match o with
  | BPush _ => holds_bits limit (nlen bs + 1) = true
  | BPop => nlen bs <> 0
  | BReserve n => n / 8 < W32
  | _ => True
  end.
Fixpoint legal (limit : option N) (ops : list bitop) (bs : list bool) : Prop :=
  match ops with
  | [] => True
  | o :: ops => legal_op limit o bs /\ legal limit ops (snd (bitstep limit o bs))
  end.

(** The calls that leave no stale bit in the unused part of the last byte: no SetAll and no Flip of a bitset whose
    size is not a multiple of 8; no Pop of a set bit, unless its byte goes with it. *)
Definition tidy_op (o : bitop) (bs : list bool) : Prop :=
  match o with
  | BSetAll | BFlip => nlen bs mod 8 = 0
  | BPop => nlen bs mod 8 = 1 \/ nnth (nlen bs - 1) bs = Some false
  | _ => True
  end.
Fixpoint tidy (limit : option N) (ops : list bitop) (bs : list bool) : Prop :=
  match ops with
  | [] => True
  | o :: ops => tidy_op o bs /\ tidy limit ops (snd (bitstep limit o bs))
  end.

(** The number of bits a history may add. *)
Fixpoint pushes (ops : list bitop) : N :=
  match ops with
  | [] => 0
  | BPush _ :: ops => 1 + pushes ops
  | _ :: ops => pushes ops
  end.

(** The number of set bits. *)
Fixpoint ones (bs : list bool) : N :=
  match bs with
  | [] => 0
  | true :: bs => 1 + ones bs
  | false :: bs => ones bs
  end.

(** The bits but number [k]. *)
Definition all_but (k : N) (bs : list bool) : list bool := nfirst k bs ++ nskip (k + 1) bs.

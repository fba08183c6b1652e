(** Specification of strings: a machine over plain lists of characters (bytes).  Nothing here mentions memory or
    the code. *)
From Verif Require Import Base Status.

(** The mutating calls, with the contents of the source views. *)
Inductive sop :=
| SAppend (x : list N)
| SAppendEx (x : list N) (j n : N)
| SInsert (i : N) (x : list N)
| SInsertEx (i : N) (x : list N) (j n : N)
| SDelete (i n : N)
| STruncate (i : N)
| SClear
| SResize (n : N)
| SSetChar (i c : N)
| SToLower
| SToLowerEx (i n : N)
| SToUpper
| SToUpperEx (i n : N)
| SReserve (n : N)
| SShrinkToFit.

(** ASCII case mapping. *)
Definition to_lower (c : N) : N := if (65 <=? c) && (c <=? 90) then c + 32 else c.
Definition to_upper (c : N) : N := if (97 <=? c) && (c <=? 122) then c - 32 else c.
Definition map_range (f : N -> N) (i n : N) (cs : list N) : list N :=
  nfirst i cs ++ map f (nsub i n cs) ++ nskip (i + n) cs.

(** The string can hold [n] characters; [limit] is the number of characters of a fixed buffer. *)
Definition holds_chars (limit : option N) (n : N) : bool :=
  match limit with None => true | Some k => n <=? k end.
(** The call would make the contents [new]. *)
Definition become (limit : option N) (new cs : list N) (r : status) (cs' : list N) : Prop :=
  if holds_chars limit (nlen new) then r = ST_SUCCESS /\ cs' = new
  else r = ST_INSUFFICIENT_BUFFER_SIZE /\ cs' = cs.
Definition refuse (st : status) (cs : list N) (r : status) (cs' : list N) : Prop := r = st /\ cs' = cs.

Definition sspec_append (limit : option N) (x : list N) (j n : N) (cs : list N) (r : status) (cs' : list N) : Prop :=
  if nlen x <? j + n then refuse ST_OUT_OF_RANGE cs r cs'
  else become limit (cs ++ nsub j n x) cs r cs'.
(** Inserting the [n] characters of [x] from position [j]: position [i] may be one past the terminator, which
    means appending; an empty insertion elsewhere is refused. *)
Definition sspec_insert (limit : option N) (i : N) (x : list N) (j n : N) (cs : list N) (r : status) (cs' : list N) : Prop :=
  if i =? nlen cs + 1 then sspec_append limit x j n cs r cs'
  else if nlen cs <? i then refuse ST_OUT_OF_RANGE cs r cs'
  else if nlen x <? j + n then refuse ST_OUT_OF_RANGE cs r cs'
  else if n =? 0 then refuse ST_INVALID_ARGUMENT cs r cs'
  else become limit (nfirst i cs ++ nsub j n x ++ nskip i cs) cs r cs'.
Definition sspec_delete (i n : N) (cs : list N) (r : status) (cs' : list N) : Prop :=
  if nlen cs <? i + n then refuse ST_OUT_OF_RANGE cs r cs'
  else if n =? 0 then refuse ST_INVALID_ARGUMENT cs r cs'
  else r = ST_SUCCESS /\ cs' = nfirst i cs ++ nskip (i + n) cs.
Definition sspec_case (f : N -> N) (i n : N) (cs : list N) (r : status) (cs' : list N) : Prop :=
  if nlen cs <? i + n then refuse ST_OUT_OF_RANGE cs r cs'
  else r = ST_SUCCESS /\ cs' = map_range f i n cs.

(** One call on a string with contents [cs]: status [r], contents [cs'] afterwards. *)
Definition sspec (limit : option N) (o : sop) (cs : list N) (r : status) (cs' : list N) : Prop :=
  match o with
  | SAppend x => become limit (cs ++ x) cs r cs'
  | SAppendEx x j n => sspec_append limit x j n cs r cs'
  | SInsert i x => sspec_insert limit i x 0 (nlen x) cs r cs'
  | SInsertEx i x j n => sspec_insert limit i x j n cs r cs'
  | SDelete i n => sspec_delete i n cs r cs'
  | STruncate i => if nlen cs <? i then refuse ST_OUT_OF_RANGE cs r cs' else sspec_delete i (nlen cs - i) cs r cs'
  | SClear => r = ST_SUCCESS /\ cs' = []
  | SResize n =>
      if n <=? nlen cs then r = ST_SUCCESS /\ cs' = nfirst n cs
      else exists new, nlen new = n - nlen cs /\ become limit (cs ++ new) cs r cs'
  | SSetChar i c =>
      if nlen cs <=? i then refuse ST_OUT_OF_RANGE cs r cs'
      else r = ST_SUCCESS /\ cs' = nfirst i cs ++ [c] ++ nskip (i + 1) cs
  | SToLower => r = ST_SUCCESS /\ cs' = map to_lower cs
  | SToLowerEx i n => sspec_case to_lower i n cs r cs'
  | SToUpper => r = ST_SUCCESS /\ cs' = map to_upper cs
  | SToUpperEx i n => sspec_case to_upper i n cs r cs'
  | SReserve n =>
      match limit with
      | Some k => if k + 1 <? n then refuse ST_INSUFFICIENT_BUFFER_SIZE cs r cs' else refuse ST_SUCCESS cs r cs'
      | None => refuse ST_SUCCESS cs r cs'
      end
  | SShrinkToFit => refuse ST_SUCCESS cs r cs'
  end.
Inductive sspecs (limit : option N) : list sop -> list N -> list status -> list N -> Prop :=
| sspecs_nil cs : sspecs limit [] cs [] cs
| sspecs_cons o ops cs r cs1 rs cs2 :
    sspec limit o cs r cs1 -> sspecs limit ops cs1 rs cs2 -> sspecs limit (o :: ops) cs (r :: rs) cs2.

(** Sums of indices and counts do not wrap around. *)
Definition sums_ok (o : sop) : Prop :=
  match o with
  | SAppendEx _ j n | SInsertEx _ _ j n => j + n < W64
  | SDelete i n | SToLowerEx i n | SToUpperEx i n => i + n < W64
  | SSetChar i _ => i < W64
  | _ => True
  end.
(** Characters a call may ask room for. *)
Definition sdemand (o : sop) : N :=
  match o with
  | SAppend x | SInsert _ x | SAppendEx x _ _ | SInsertEx _ x _ _ => nlen x
  | SResize n | SReserve n => n
  | _ => 0
  end.
Fixpoint sdemands (ops : list sop) : N := match ops with [] => 0 | o :: ops => sdemand o + sdemands ops end.

(** ** Searching and comparing *)
(** [needle] occurs in [hay] at position [i], characters being compared with [R]. *)
Definition occurs (R : N -> N -> Prop) (hay needle : list N) (i : N) : Prop :=
  i + nlen needle <= nlen hay /\ Forall2 R (nsub i (nlen needle) hay) needle.
Definition first_occurrence (R : N -> N -> Prop) (hay needle : list N) (lo hi : N) (r : option N) : Prop :=
  match r with
  | Some i => lo <= i /\ i + nlen needle <= hi /\ occurs R hay needle i /\
              forall j, lo <= j < i -> ~ occurs R hay needle j
  | None => forall j, lo <= j -> j + nlen needle <= hi -> ~ occurs R hay needle j
  end.
Definition last_occurrence (R : N -> N -> Prop) (hay needle : list N) (lo hi : N) (r : option N) : Prop :=
  match r with
  | Some i => lo <= i /\ i + nlen needle <= hi /\ occurs R hay needle i /\
              forall j, i < j -> j + nlen needle <= hi -> ~ occurs R hay needle j
  | None => forall j, lo <= j -> j + nlen needle <= hi -> ~ occurs R hay needle j
  end.
(** Status and value of a search call. *)
Definition found (st : status) (r : option N) : Prop :=
  match r with Some _ => st = ST_TRUE | None => st = ST_FALSE end.
(** Equality of ASCII characters up to case. *)
Definition same_letter (a b : N) : Prop := to_lower a = to_lower b.

(** What LPosEx and RPosEx answer for the range [index .. index+count) and (index-count .. index). *)
Definition lpos_result (R : N -> N -> Prop) (hay needle : list N) (index count : N) (st : status) (r : option N) : Prop :=
  if nlen hay <? index + count then st = ST_OUT_OF_RANGE /\ r = None
  else if nlen needle =? 0 then st = ST_FALSE /\ r = None
  else found st r /\ first_occurrence R hay needle index (index + count) r.
Definition rpos_result (R : N -> N -> Prop) (hay needle : list N) (index count : N) (st : status) (r : option N) : Prop :=
  if (nlen hay <? index) || (index <? count) then st = ST_OUT_OF_RANGE /\ r = None
  else if nlen needle =? 0 then st = ST_FALSE /\ r = None
  else found st r /\ last_occurrence R hay needle (index - count) index r.

(** The characters on which the case-insensitive comparison is right. *)
Definition plain (c : N) : Prop := 32 <= c <= 63 \/ 65 <= c <= 90 \/ 97 <= c <= 122.

(** Bytes with bit 5 set: digits, most punctuation, lower-case letters, ... *)
Definition bit5 (c : N) : Prop := c < 256 /\ N.testbit c 5 = true.

(** [f] applied to the characters [i .. i+n) and no others. *)
Definition converted (f : N -> N) (i n : N) (cs cs' : list N) : Prop :=
  nlen cs' = nlen cs /\
  forall k, nnth k cs' = option_map (fun c => if (i <=? k) && (k <? i + n) then f c else c) (nnth k cs).

(** The range or position given to the call is not inside the string (or the source string). *)
Definition bad_range (o : sop) (cs : list N) : bool :=
  match o with
  | SAppendEx x j n => nlen x <? j + n
  | SInsert i x => nlen cs + 1 <? i
  | SInsertEx i x j n => (nlen cs + 1 <? i) || (nlen x <? j + n)
  | SDelete i n | SToLowerEx i n | SToUpperEx i n => nlen cs <? i + n
  | STruncate i => nlen cs <? i
  | SSetChar i _ => nlen cs <=? i
  | _ => false
  end.

(** Bytes that differ in bit 5 at most. *)
Definition same_but_bit5 (a b : N) : Prop := a = b \/ N.lxor a 32 = b.

(** Model of src/String.c, function by function.  No proofs here.

    Simplifications that hold for the whole file:
    - the [ZyanString*] parameter is a record that is passed in and returned, so the "string is NULL" checks have
      no counterpart; results stored through an out-pointer are returned ([None]: not written);
    - a cell is a byte 0..255; [schar] is its value as a (signed) char;
    - a [ZyanStringView*] is a string record passed by value: a view that is the destination itself (cast with
      ZYAN_STRING_TO_VIEW) is modelled separately, see [sappend_self];
    - forming a pointer one before the start of an array, as the RPos loops do, is not a fault. *)
From Verif Require Import Base Status Mem VectorModel.

Notation byte := N (only parsing).
(** Value of a byte as a signed char. *)
Definition schar (c : byte) : Z := if c <? 128 then Z.of_N c else (Z.of_N (c mod 256) - 256)%Z.

(** ZYAN_STRING_MIN_CAPACITY, _DEFAULT_GROWTH_FACTOR, _DEFAULT_SHRINK_THRESHOLD, _HAS_FIXED_CAPACITY,
    include/Zycore/String.h:52, 57, 62, 80. *)
Definition STRING_MIN_CAPACITY : N := 32.
Definition STRING_DEFAULT_GROWTH : N := 2.
Definition STRING_DEFAULT_SHRINK : N := 4.
Definition HAS_FIXED_CAPACITY : N := 1.

(** struct ZyanString_, include/Zycore/String.h:97-107; struct ZyanStringView_, String.h:131-140, contains one. *)
Record str := mkstr { s_flags : N; s_vec : vector byte }.
Notation view := str.
Definition ssize (s : str) : N := v_size (s_vec s).
Definition sdata (s : str) : option ptr := v_data (s_vec s).
Definition with_vec (s : str) (v : vector byte) : str := mkstr (s_flags s) v.
Notation M := (M byte).

(** ZYCORE_STRING_NULLTERMINATE, src/String.c:37-38. *)
Definition nullterminate (s : str) : M unit := mwrite (padd (sdata s) (wsub (ssize s) 1)) [0].
(** ZYCORE_STRING_ASSERT_NULLTERMINATION, src/String.c:43-44.  In a release build the condition, which reads a byte, is
    not evaluated. *)
Definition assert_nullterminated (s : str) : M unit := fun w =>
  if checked w then
    (let* x := mread (padd (sdata s) (wsub (ssize s) 1)) 1 in
     assert (match x with [c] => c =? 0 | _ => false end)) w
  else Ok tt w.

(** ZYAN_STRLEN: number of bytes before the first 0 byte; reading past the block faults. *)
Fixpoint index_of_nul (l : list byte) : option N :=
  match l with
  | [] => None
  | c :: l => if c =? 0 then Some 0 else option_map (N.add 1) (index_of_nul l)
  end.
Definition mstrlen (p : option ptr) : M N := fun w =>
  match p with
  | None => Fault NullDeref
  | Some p =>
      match heap w (pb p) with
      | None => Fault UseAfterFree
      | Some buf => match index_of_nul (nskip (po p) buf) with
                    | None => Fault OutOfBounds
                    | Some n => Ok n w
                    end
      end
  end.
(** One byte. *)
Definition mread1 (p : option ptr) : M byte :=
  let* x := mread p 1 in match x with [c] => ret c | _ => fail OutOfBounds end.

(** ** Constructor and destructor *)
(** ZyanStringInitEx, src/String.c:64-84.  [capacity + 1] wraps. *)
Definition sinit_ex (capacity : N) (allocator : bool) (growth shrink : N) : M (status * option str) :=
  let capacity := wadd (N.max STRING_MIN_CAPACITY capacity) 1 in
  let* (st, ov) := vinit_ex 1 capacity None allocator growth shrink in
  match ov with
  | None => ret (st, None)
  | Some v =>
      if negb (st_success st) then ret (st, Some (mkstr 0 v)) else
      assert (capacity <=? v_cap v) ;;;
      assert (v_esz v =? 1) ;;;
      mwrite (v_data v) [0] ;;;
      ret (ST_SUCCESS, Some (mkstr 0 (set_size v (wadd (v_size v) 1))))
  end.
(** ZyanStringInit, src/String.c:56-60. *)
Definition sinit (capacity : N) : M (status * option str) :=
  sinit_ex capacity true STRING_DEFAULT_GROWTH STRING_DEFAULT_SHRINK.
(** ZyanStringInitCustomBuffer, src/String.c:86-104. *)
Definition sinit_custom (buffer : option ptr) (capacity : N) : M (status * option str) :=
  if capacity =? 0 then ret (ST_INVALID_ARGUMENT, None) else
  let* (st, ov) := vinit_custom 1 buffer capacity None in
  match ov with
  | None => ret (st, None)
  | Some v =>
      if negb (st_success st) then ret (st, Some (mkstr HAS_FIXED_CAPACITY v)) else
      assert (v_cap v =? capacity) ;;;
      assert (v_esz v =? 1) ;;;
      mwrite (v_data v) [0] ;;;
      ret (ST_SUCCESS, Some (mkstr HAS_FIXED_CAPACITY (set_size v (wadd (v_size v) 1))))
  end.
(** ZyanStringDestroy, src/String.c:106-118. *)
Definition sdestroy (s : str) : M (status * str) :=
  if negb (N.land (s_flags s) HAS_FIXED_CAPACITY =? 0) then ret (ST_SUCCESS, s) else
  let* (st, v) := vdestroy (s_vec s) in ret (st, with_vec s v).

(** ** Duplication and concatenation *)
(** src/String.c:145-153: the common tail of DuplicateEx; likewise 170-178 of DuplicateCustomBuffer. *)
Definition sduplicate_into (len : N) (source : view) (r : status * option str) : M (status * option str) :=
  let '(st, od) := r in
  if negb (st_success st) then ret (st, od) else
  match od with
  | None => fail NullDeref
  | Some d =>
      assert (len <=? v_cap (s_vec d)) ;;;
      memcpy (sdata d) (sdata source) (wsub (ssize source) 1) ;;;
      let d := with_vec d (set_size (s_vec d) len) in
      nullterminate d ;;;
      ret (ST_SUCCESS, Some d)
  end.
(** ZyanStringDuplicateEx, src/String.c:135-154. *)
Definition sduplicate_ex (source : view) (capacity : N) (allocator : bool) (growth shrink : N)
  : M (status * option str) :=
  if ssize source =? 0 then ret (ST_INVALID_ARGUMENT, None) else
  let len := ssize source in
  let capacity := N.max capacity (wsub len 1) in
  let* r := sinit_ex capacity allocator growth shrink in
  sduplicate_into len source r.
(** ZyanStringDuplicate, src/String.c:126-131. *)
Definition sduplicate (source : view) (capacity : N) : M (status * option str) :=
  sduplicate_ex source capacity true STRING_DEFAULT_GROWTH STRING_DEFAULT_SHRINK.
(** ZyanStringDuplicateCustomBuffer, src/String.c:156-179. *)
Definition sduplicate_custom (source : view) (buffer : option ptr) (capacity : N) : M (status * option str) :=
  if ssize source =? 0 then ret (ST_INVALID_ARGUMENT, None) else
  let len := ssize source in
  if capacity <? len then ret (ST_INSUFFICIENT_BUFFER_SIZE, None) else
  let* r := sinit_custom buffer capacity in
  sduplicate_into len source r.
(** src/String.c:207-216 and 233-242: the common tail of ConcatEx and ConcatCustomBuffer. *)
Definition sconcat_into (len : N) (s1 s2 : view) (r : status * option str) : M (status * option str) :=
  let '(st, od) := r in
  if negb (st_success st) then ret (st, od) else
  match od with
  | None => fail NullDeref
  | Some d =>
      assert (len <=? v_cap (s_vec d)) ;;;
      memcpy (sdata d) (sdata s1) (wsub (ssize s1) 1) ;;;
      memcpy (padd (sdata d) (wsub (ssize s1) 1)) (sdata s2) (wsub (ssize s2) 1) ;;;
      let d := with_vec d (set_size (s_vec d) len) in
      nullterminate d ;;;
      ret (ST_SUCCESS, Some d)
  end.
(** ZyanStringConcatEx, src/String.c:196-217. *)
Definition sconcat_ex (s1 s2 : view) (capacity : N) (allocator : bool) (growth shrink : N) : M (status * option str) :=
  if (ssize s1 =? 0) || (ssize s2 =? 0) then ret (ST_INVALID_ARGUMENT, None) else
  let len := wsub (wadd (ssize s1) (ssize s2)) 1 in
  let capacity := N.max capacity (wsub len 1) in
  let* r := sinit_ex capacity allocator growth shrink in
  sconcat_into len s1 s2 r.
(** ZyanStringConcat, src/String.c:187-192. *)
Definition sconcat (s1 s2 : view) (capacity : N) : M (status * option str) :=
  sconcat_ex s1 s2 capacity true STRING_DEFAULT_GROWTH STRING_DEFAULT_SHRINK.
(** ZyanStringConcatCustomBuffer, src/String.c:219-243. *)
Definition sconcat_custom (s1 s2 : view) (buffer : option ptr) (capacity : N) : M (status * option str) :=
  if (ssize s1 =? 0) || (ssize s2 =? 0) then ret (ST_INVALID_ARGUMENT, None) else
  let len := wsub (wadd (ssize s1) (ssize s2)) 1 in
  if capacity <? len then ret (ST_INSUFFICIENT_BUFFER_SIZE, None) else
  let* r := sinit_custom buffer capacity in
  sconcat_into len s1 s2 r.

(** ** Views.  [old] is the (possibly uninitialised) struct the view is stored in: only its [data] and [size]
    fields are written. *)
Definition set_view (old : view) (p : option ptr) (size : N) : view :=
  with_vec old (set_size (set_data (s_vec old) p) size).
(** ZyanStringViewInsideView, src/String.c:249-260. *)
Definition view_inside_view (old source : view) : status * view :=
  (ST_SUCCESS, set_view old (sdata source) (ssize source)).
(** ZyanStringViewInsideViewEx, src/String.c:262-279. *)
Definition view_inside_view_ex (old source : view) (index count : N) : status * view :=
  if ssize source <=? wadd index count then (ST_OUT_OF_RANGE, old)
  else (ST_SUCCESS, set_view old (padd (sdata source) index) count).
(** ZyanStringViewInsideBuffer, src/String.c:281-292. *)
Definition view_inside_buffer (old : view) (string : option ptr) : M (status * view) :=
  if negb (nonnull string) then ret (ST_INVALID_ARGUMENT, old) else
  let* n := mstrlen string in
  ret (ST_SUCCESS, set_view old string (wadd n 1)).
(** ZyanStringViewInsideBufferEx, src/String.c:294-305. *)
Definition view_inside_buffer_ex (old : view) (buffer : option ptr) (length : N) : status * view :=
  if negb (nonnull buffer) || (length =? 0) then (ST_INVALID_ARGUMENT, old)
  else (ST_SUCCESS, set_view old buffer (wadd length 1)).
(** ZyanStringViewGetSize, src/String.c:307-318. *)
Definition view_get_size (s : view) : M (status * N) :=
  assert (1 <=? ssize s) ;;; ret (ST_SUCCESS, wsub (ssize s) 1).
(** ZyanStringViewGetData, src/String.c:320-330. *)
Definition view_get_data (s : view) : status * option ptr := (ST_SUCCESS, sdata s).

(** ZYAN_DEFINE_STRING_VIEW, include/Zycore/String.h:175-192: a view of an array of [size] characters (the last
    one being the terminator). *)
Definition define_view (p : option ptr) (size : N) : view := mkstr 0 (mkvec false 1 0 size size 1 None p).

(** ** Character access *)
(** ZyanStringGetChar, src/String.c:336-354. *)
Definition sget_char (s : view) (index : N) : M (status * option byte) :=
  if ssize s <=? wadd index 1 then ret (ST_OUT_OF_RANGE, None) else
  let* (st, p) := vget_pointer (s_vec s) index in
  if negb (st_success st) then ret (st, None) else
  let* c := mread1 p in
  ret (ST_SUCCESS, Some c).
(** ZyanStringGetCharMutable, src/String.c:356-370. *)
Definition sget_char_mutable (s : str) (index : N) : M (status * option ptr) :=
  if ssize s <=? wadd index 1 then ret (ST_OUT_OF_RANGE, None) else vget_pointer (s_vec s) index.
(** ZyanStringSetChar, src/String.c:372-386; [value] is the address of the parameter. *)
Definition sset_char (s : str) (index : N) (value : option ptr) : M (status * str) :=
  if ssize s <=? wadd index 1 then ret (ST_OUT_OF_RANGE, s) else
  let* (st, v) := vset (s_vec s) index value in ret (st, with_vec s v).

(** ** Appending *)
(** ZyanStringAppend, src/String.c:453-467. *)
Definition sappend (d : str) (source : view) : M (status * str) :=
  if ssize source =? 0 then ret (ST_INVALID_ARGUMENT, d) else
  let len := ssize d in
  let* (st, v) := vresize (s_vec d) (wsub (wadd len (ssize source)) 1) in
  let d := with_vec d v in
  if negb (st_success st) then ret (st, d) else
  memcpy (padd (sdata d) (wsub len 1)) (sdata source) (wsub (ssize source) 1) ;;;
  nullterminate d ;;;
  ret (ST_SUCCESS, d).
(** The same when [source] is [destination] (a ZYAN_STRING_TO_VIEW cast): after the resize the fields of the
    source are those of the resized destination. *)
Definition sappend_self (d : str) : M (status * str) :=
  if ssize d =? 0 then ret (ST_INVALID_ARGUMENT, d) else
  let len := ssize d in
  let* (st, v) := vresize (s_vec d) (wsub (wadd len (ssize d)) 1) in
  let d := with_vec d v in
  if negb (st_success st) then ret (st, d) else
  memcpy (padd (sdata d) (wsub len 1)) (sdata d) (wsub (ssize d) 1) ;;;
  nullterminate d ;;;
  ret (ST_SUCCESS, d).
(** ZyanStringAppendEx, src/String.c:469-490. *)
Definition sappend_ex (d : str) (source : view) (source_index count : N) : M (status * str) :=
  if ssize source =? 0 then ret (ST_INVALID_ARGUMENT, d) else
  if ssize source <=? wadd source_index count then ret (ST_OUT_OF_RANGE, d) else
  let len := ssize d in
  let* (st, v) := vresize (s_vec d) (wadd len count) in
  let d := with_vec d v in
  if negb (st_success st) then ret (st, d) else
  memcpy (padd (sdata d) (wsub len 1)) (padd (sdata source) source_index) count ;;;
  nullterminate d ;;;
  ret (ST_SUCCESS, d).

(** ** Insertion *)
(** ZyanStringInsert, src/String.c:392-415. *)
Definition sinsert (d : str) (index : N) (source : view) : M (status * str) :=
  if ssize source =? 0 then ret (ST_INVALID_ARGUMENT, d) else
  if index =? ssize d then sappend d source else
  if ssize d <=? index then ret (ST_OUT_OF_RANGE, d) else
  let* (st, v) := vinsert_range (s_vec d) index (sdata source) (wsub (ssize source) 1) in
  let d := with_vec d v in
  if negb (st_success st) then ret (st, d) else
  assert_nullterminated d ;;;
  ret (ST_SUCCESS, d).
(** ZyanStringInsertEx, src/String.c:417-447. *)
Definition sinsert_ex (d : str) (index : N) (source : view) (source_index count : N) : M (status * str) :=
  if ssize source =? 0 then ret (ST_INVALID_ARGUMENT, d) else
  if index =? ssize d then sappend_ex d source source_index count else
  if ssize d <=? index then ret (ST_OUT_OF_RANGE, d) else
  if ssize source <=? wadd source_index count then ret (ST_OUT_OF_RANGE, d) else
  let* (st, v) := vinsert_range (s_vec d) index (padd (sdata source) source_index) count in
  let d := with_vec d v in
  if negb (st_success st) then ret (st, d) else
  assert_nullterminated d ;;;
  ret (ST_SUCCESS, d).

(** ** Deletion *)
(** ZyanStringDelete, src/String.c:496-513. *)
Definition sdelete (s : str) (index count : N) : M (status * str) :=
  if ssize s <=? wadd index count then ret (ST_OUT_OF_RANGE, s) else
  let* (st, v) := vdelete_range (s_vec s) index count in
  let s := with_vec s v in
  if negb (st_success st) then ret (st, s) else
  nullterminate s ;;;
  ret (ST_SUCCESS, s).
(** ZyanStringTruncate, src/String.c:515-532. *)
Definition struncate (s : str) (index : N) : M (status * str) :=
  if ssize s <=? index then ret (ST_OUT_OF_RANGE, s) else
  let* (st, v) := vdelete_range (s_vec s) index (wsub (wsub (ssize s) index) 1) in
  let s := with_vec s v in
  if negb (st_success st) then ret (st, s) else
  nullterminate s ;;;
  ret (ST_SUCCESS, s).
(** ZyanStringClear, src/String.c:534-549. *)
Definition sclear (s : str) : M (status * str) :=
  let* (st, v) := vclear (s_vec s) in
  let s := with_vec s v in
  if negb (st_success st) then ret (st, s) else
  assert (1 <=? v_cap (s_vec s)) ;;;
  mwrite (sdata s) [0] ;;;
  ret (ST_SUCCESS, with_vec s (set_size (s_vec s) (wadd (ssize s) 1))).

(** ** Searching.  [eqc] is the character comparison: equality for LPosEx / RPosEx, [eq_ci] for the I variants. *)
(** The tests "x == y" and "x == y || (x ^ 32) == y" on characters x, y, src/String.c:591, 608, 660, 679, 729, 746, 800, 819. *)
Definition eq_cs (a b : byte) : bool := a =? b.
Definition eq_ci (a b : byte) : bool := (a =? b) || (N.lxor a 32 =? b).

Section Search.
  Context (eqc : byte -> byte -> bool).
  (** The inner loop, src/String.c:596-612 (LPosIEx: 665-683): [a] and [b] are offsets into haystack and needle.
      [Some true]: found; [Some false]: range exceeded, give up; [None]: mismatch, go on. *)
  Fixpoint lpos_inner (haystack needle : view) (limit a b : N) (fuel : nat) : M (option bool) :=
    match fuel with
    | O => fail OutOfFuel
    | S fuel =>
        if limit <? a then ret (Some false) else
        let* y := mread1 (padd (sdata needle) b) in
        if y =? 0 then ret (Some true) else
        let* x := mread1 (padd (sdata haystack) a) in
        if eqc x y then lpos_inner haystack needle limit (a + 1) (b + 1) fuel else ret None
    end.
  (** The outer loop, src/String.c:589-617 (LPosIEx: 658-688). *)
  Fixpoint lpos_outer (haystack needle : view) (limit s : N) (fuel : nat) : M (status * option N) :=
    match fuel with
    | O => fail OutOfFuel
    | S fuel =>
        if negb (s + 1 <? ssize haystack) then ret (ST_FALSE, None) else
        let* x := mread1 (padd (sdata haystack) s) in
        let* y := mread1 (sdata needle) in
        if negb (eqc x y) then lpos_outer haystack needle limit (s + 1) fuel else
        let* r := lpos_inner haystack needle limit s 0 (N.to_nat (ssize haystack) + 2) in
        match r with
        | Some true => ret (ST_TRUE, Some s)
        | Some false => ret (ST_FALSE, None)
        | None => lpos_outer haystack needle limit (s + 1) fuel
        end
    end.
  (** ZyanStringLPosEx, src/String.c:566-618; ZyanStringLPosIEx, 631-689.  A found index of [None] stands for -1
      (status FALSE) or "not written" (status OUT_OF_RANGE). *)
  Definition slpos_ex (haystack needle : view) (index count : N) : M (status * option N) :=
    if ssize haystack <=? wadd index count then ret (ST_OUT_OF_RANGE, None) else
    if (ssize haystack =? 1) || (ssize needle =? 1) || (ssize haystack <? ssize needle) then ret (ST_FALSE, None) else
    lpos_outer haystack needle (wadd index count) index (N.to_nat (ssize haystack) + 1).
  (** ZyanStringLPos, src/String.c:555-564; ZyanStringLPosI, 620-629. *)
  Definition slpos (haystack needle : view) : M (status * option N) :=
    slpos_ex haystack needle 0 (wsub (ssize haystack) 1).

  (** The inner loop, src/String.c:734-750 (RPosIEx: 805-823).  [a1] and [b1] are the offsets plus one, so that 0
      stands for a pointer before the start.  [low] is [index - count]. *)
  Fixpoint rpos_inner (haystack needle : view) (low a1 b1 : N) (fuel : nat) : M (option (option N)) :=
    match fuel with
    | O => fail OutOfFuel
    | S fuel =>
        if b1 <? 1 then ret (Some (Some a1)) else
        if a1 <? low + 1 then ret (Some None) else
        let* x := mread1 (padd (sdata haystack) (a1 - 1)) in
        let* y := mread1 (padd (sdata needle) (b1 - 1)) in
        if eqc x y then rpos_inner haystack needle low (a1 - 1) (b1 - 1) fuel else ret None
    end.
  (** The outer loop, src/String.c:727-755 (RPosIEx: 798-828). *)
  Fixpoint rpos_outer (haystack needle : view) (low s1 : N) (fuel : nat) : M (status * option N) :=
    match fuel with
    | O => fail OutOfFuel
    | S fuel =>
        if s1 <? 1 then ret (ST_FALSE, None) else
        let* x := mread1 (padd (sdata haystack) (s1 - 1)) in
        let* y := mread1 (padd (sdata needle) (wsub (ssize needle) 2)) in
        if negb (eqc x y) then rpos_outer haystack needle low (s1 - 1) fuel else
        let* r := rpos_inner haystack needle low s1 (wsub (ssize needle) 1) (N.to_nat (ssize needle) + 1) in
        match r with
        | Some (Some i) => ret (ST_TRUE, Some i)
        | Some None => ret (ST_FALSE, None)
        | None => rpos_outer haystack needle low (s1 - 1) fuel
        end
    end.
  (** ZyanStringRPosEx, src/String.c:703-756; ZyanStringRPosIEx, 770-829. *)
  Definition srpos_ex (haystack needle : view) (index count : N) : M (status * option N) :=
    if (ssize haystack <=? index) || (index <? count) then ret (ST_OUT_OF_RANGE, None) else
    if (index =? 0) || (count =? 0) || (ssize haystack =? 1) || (ssize needle =? 1) ||
       (ssize haystack <? ssize needle) then ret (ST_FALSE, None) else
    rpos_outer haystack needle (index - count) index (N.to_nat index + 1).
  (** ZyanStringRPos, src/String.c:691-701; ZyanStringRPosI, 758-768. *)
  Definition srpos (haystack needle : view) : M (status * option N) :=
    srpos_ex haystack needle (wsub (ssize haystack) 1) (wsub (ssize haystack) 1).

  (** The loop of Compare, src/String.c:856-863 (CompareI: 906-913): the index it stops at. *)
  Fixpoint compare_loop (s1 s2 : view) (i : N) (fuel : nat) : M N :=
    match fuel with
    | O => fail OutOfFuel
    | S fuel =>
        if negb ((i + 1 <? ssize s1) && (i + 1 <? ssize s2)) then ret i else
        let* x := mread1 (padd (sdata s1) i) in
        let* y := mread1 (padd (sdata s2) i) in
        if eqc x y then compare_loop s1 s2 (i + 1) fuel else ret i
    end.
  (** ZyanStringCompare, src/String.c:835-879; ZyanStringCompareI, 881-929. *)
  Definition scompare (s1 s2 : view) : M (status * Z) :=
    if ssize s1 <? ssize s2 then ret (ST_FALSE, (-1)%Z) else
    if ssize s2 <? ssize s1 then ret (ST_FALSE, 1%Z) else
    let* i := compare_loop s1 s2 0 (N.to_nat (ssize s1) + 1) in
    let* x := mread1 (padd (sdata s1) i) in
    let* y := mread1 (padd (sdata s2) i) in
    if x =? y then ret (ST_TRUE, 0%Z) else
    if (schar (N.lor x 32) <? schar (N.lor y 32))%Z then ret (ST_FALSE, (-1)%Z) else ret (ST_FALSE, 1%Z).
End Search.

(** ** Case conversion *)
(** The conversions of one character, src/String.c:966-969 and 1007-1010. *)
Definition lower_step (c : byte) : option byte :=
  if (65 <=? schar c)%Z && (schar c <=? 90)%Z then Some (N.lor c 32) else None.
Definition upper_step (c : byte) : option byte :=
  if (97 <=? schar c)%Z && (schar c <=? 122)%Z then Some (N.land c 223) else None.
(** The loops, src/String.c:962-971 and 1003-1012. *)
Fixpoint case_loop (step : byte -> option byte) (s : str) (i : N) (n : nat) : M unit :=
  match n with
  | O => ret tt
  | S n =>
      let* c := mread1 (padd (sdata s) i) in
      (match step c with Some c' => mwrite (padd (sdata s) i) [c'] | None => ret tt end) ;;;
      case_loop step s (i + 1) n
  end.
(** ZyanStringToLowerCaseEx, src/String.c:945-974; ZyanStringToUpperCaseEx, 986-1015. *)
Definition scase_ex (step : byte -> option byte) (s : str) (index count : N) : M (status * str) :=
  if ssize s <=? wadd index count then ret (ST_OUT_OF_RANGE, s) else
  case_loop step s index (N.to_nat (wadd index count - index)) ;;;
  ret (ST_SUCCESS, s).
(** ZyanStringToLowerCase, src/String.c:935-943; ZyanStringToUpperCase, 976-984. *)
Definition scase (step : byte -> option byte) (s : str) : M (status * str) :=
  scase_ex step s 0 (wsub (ssize s) 1).

(** ** Memory management and information *)
(** ZyanStringResize, src/String.c:1021-1032. *)
Definition sresize (s : str) (size : N) : M (status * str) :=
  let* (st, v) := vresize (s_vec s) (wadd size 1) in
  let s := with_vec s v in
  if negb (st_success st) then ret (st, s) else
  nullterminate s ;;;
  ret (ST_SUCCESS, s).
(** ZyanStringReserve, src/String.c:1034-1042. *)
Definition sreserve (s : str) (capacity : N) : M (status * str) :=
  let* (st, v) := vreserve (s_vec s) capacity in ret (st, with_vec s v).
(** ZyanStringShrinkToFit, src/String.c:1044-1052. *)
Definition sshrink_to_fit (s : str) : M (status * str) :=
  let* (st, v) := vshrink_to_fit (s_vec s) in ret (st, with_vec s v).
(** ZyanStringGetCapacity, src/String.c:1058-1069. *)
Definition sget_capacity (s : str) : M (status * N) :=
  assert (1 <=? v_cap (s_vec s)) ;;; ret (ST_SUCCESS, wsub (v_cap (s_vec s)) 1).
(** ZyanStringGetSize, src/String.c:1071-1082. *)
Definition sget_size (s : str) : M (status * N) :=
  assert (1 <=? ssize s) ;;; ret (ST_SUCCESS, wsub (ssize s) 1).
(** ZyanStringGetData, src/String.c:1084-1094. *)
Definition sget_data (s : str) : status * option ptr := (ST_SUCCESS, sdata s).

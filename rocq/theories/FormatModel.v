(** Model of src/Format.c, function by function.  No proofs here.

    Simplifications that hold for the whole file (besides those of StringModel.v):
    - the local character buffers are lists whose bounds are checked, not blocks of the heap;
    - the 32-bit variants (DecU32, HexU32), which the preprocessor selects on 32-bit targets only, are modelled with
      64-bit sizes;
    - vsnprintf is a parameter, see [vsnprintf]. *)
From Coq Require Import String Ascii.
From Verif Require Import Base Status Mem VectorModel StringModel.

Definition chars (s : String.string) : list byte := map Ascii.N_of_ascii (String.list_ascii_of_string s).

(** ZYCORE_MAXCHARS_DEC_32 .. ZYCORE_MAXCHARS_HEX_64, src/Format.c:38-41. *)
Definition MAXCHARS_DEC_32 : N := 10.
Definition MAXCHARS_DEC_64 : N := 20.
Definition MAXCHARS_HEX_32 : nat := 8.
Definition MAXCHARS_HEX_64 : nat := 16.
(** DECIMAL_LOOKUP, src/Format.c:47-57. *)
Definition DECIMAL_LOOKUP : list byte := chars (String.concat ""
  ["00010203040506070809"; "10111213141516171819"; "20212223242526272829"; "30313233343536373839";
   "40414243444546474849"; "50515253545556575859"; "60616263646566676869"; "70717273747576777879";
   "80818283848586878889"; "90919293949596979899"])%string.
(** src/Format.c:239-245 and 311-317. *)
Definition HEX_UPPER : list byte := chars "0123456789ABCDEF"%string.
Definition HEX_LOWER : list byte := chars "0123456789abcdef"%string.

(** ** Decimal.  [buf] is what lies between buffer_write_pointer and buffer_end of [char buffer[max]]. *)
(** "buffer_write_pointer -= 2; ZYAN_MEMCPY(buffer_write_pointer, &DECIMAL_LOOKUP[d * 2], 2)",
    src/Format.c:100-102, 104-105, 146-148, 150-151. *)
Definition dec_push (max d : N) (buf : list byte) : M (list byte) :=
  if (max <? nlen buf + 2) || (nlen DECIMAL_LOOKUP <? d * 2 + 2) then fail OutOfBounds
  else ret (nsub (d * 2) 2 DECIMAL_LOOKUP ++ buf).
(** src/Format.c:97-103 and 143-149.  value_old - value * 100 does not wrap.  [fuel] bounds the iterations. *)
Fixpoint dec_loop (fuel : nat) (max value : N) (buf : list byte) : M (N * list byte) :=
  if value <? 100 then ret (value, buf) else
  match fuel with
  | O => fail OutOfFuel
  | S fuel =>
      let value_old := value in
      let value := value / 100 in
      let* buf := dec_push max (value_old - value * 100) buf in
      dec_loop fuel max value buf
  end.
(** ZyanStringAppendDecU32, src/Format.c:87-130 ([max] = 10), and ZyanStringAppendDecU64, 133-176 ([max] = 20). *)
Definition sappend_dec (max : N) (s : str) (value padding_length : N) : M (status * str) :=
  let* (value, buf) := dec_loop (N.to_nat max) max value [] in
  let* buf := dec_push max value buf in
  let offset_odd := if value <? 10 then 1 else 0 in
  let length_number := wsub (nlen buf) offset_odd in
  let length_total := N.max length_number padding_length in
  let length_target := ssize s in
  let* (st, s) := if v_cap (s_vec s) <? wadd (ssize s) length_total
                  then sresize s (wsub (wadd (ssize s) length_total) 1)
                  else ret (ST_SUCCESS, s) in
  if negb (st_success st) then ret (st, s) else
  let offset_write := if length_number <? padding_length then wsub padding_length length_number else 0 in
  (if length_number <? padding_length
   then mwrite (padd (sdata s) (wsub length_target 1)) (nrepeat 48 offset_write)
   else ret tt) ;;;
  mwrite (padd (sdata s) (wsub (wadd length_target offset_write) 1)) (nsub offset_odd length_number buf) ;;;
  let s := with_vec s (set_size (s_vec s) (wadd length_target length_total)) in
  nullterminate s ;;;
  ret (ST_SUCCESS, s).

(** ** Hexadecimal *)
(** One hexadecimal digit, src/Format.c:239-245 and 311-317. *)
Definition hex_char (uppercase : bool) (v : N) : M byte :=
  match nnth v (if uppercase then HEX_UPPER else HEX_LOWER) with
  | Some c => ret c
  | None => fail OutOfBounds
  end.
(** The loop src/Format.c:216-246 and 287-318, from i = [k] - 1 down to 0; [n] is a ZyanU8. *)
Fixpoint hex_loop (k : nat) (value padding_length : N) (uppercase : bool) (len remaining : N)
  (s : str) (n : N) (buffer : option ptr) : M (status * str * N) :=
  match k with
  | O => ret (ST_SUCCESS, s, n)
  | S k =>
      let i := N.of_nat k in
      let v := N.land (N.shiftr value (i * 4)) 15 in
      let put s n buffer : M (status * str * N) :=
        assert (nonnull buffer) ;;;
        let* c := hex_char uppercase v in
        mwrite (padd buffer n) [c] ;;;
        hex_loop k value padding_length uppercase len remaining s ((n + 1) mod W8) buffer in
      if n =? 0 then
        if v =? 0 then hex_loop k value padding_length uppercase len remaining s n buffer else
        let* (st, s) := if remaining <=? i then sresize s (wadd (ssize s) i) else ret (ST_SUCCESS, s) in
        if negb (st_success st) then ret (st, s, n) else
        let buffer := padd (sdata s) (wsub len 1) in
        if i <? padding_length then
          let n := padding_length - i - 1 in
          mwrite buffer (nrepeat 48 n) ;;;
          put s n buffer
        else put s n buffer
      else put s n buffer
  end.
(** ZyanStringAppendHexU32, src/Format.c:183-251 ([k] = 8), and ZyanStringAppendHexU64, 254-323 ([k] = 16 or 8). *)
Definition sappend_hex (k : nat) (s : str) (value padding_length : N) (uppercase : bool) : M (status * str) :=
  let len := ssize s in
  let remaining := wsub (v_cap (s_vec s)) (ssize s) in
  let* (st, s) := if remaining <? padding_length then sresize s (wsub (wadd len padding_length) 1)
                  else ret (ST_SUCCESS, s) in
  if negb (st_success st) then ret (st, s) else
  let remaining := if remaining <? padding_length then padding_length else remaining in
  if value =? 0 then
    let n := if padding_length =? 0 then 1 else padding_length in
    let* (st, s) := if remaining <? n then sresize s (wsub (wadd (ssize s) n) 1) else ret (ST_SUCCESS, s) in
    if negb (st_success st) then ret (st, s) else
    mwrite (padd (sdata s) (wsub len 1)) (nrepeat 48 n) ;;;
    let s := with_vec s (set_size (s_vec s) (wadd len n)) in
    nullterminate s ;;;
    ret (ST_SUCCESS, s)
  else
    let* (st, s, n) := hex_loop k value padding_length uppercase len remaining s 0 None in
    if negb (st_success st) then ret (st, s) else
    let s := with_vec s (set_size (s_vec s) (wadd len n)) in
    nullterminate s ;;;
    ret (ST_SUCCESS, s).
(** value & 0xFFFFFFFF00000000, src/Format.c:289, 430 and 471. *)
Definition high_bits (value : N) : bool := negb (N.land value 18446744069414584320 =? 0).
Definition sappend_hex64 (s : str) (value padding_length : N) (uppercase : bool) : M (status * str) :=
  sappend_hex (if high_bits value then MAXCHARS_HEX_64 else MAXCHARS_HEX_32) s value padding_length uppercase.

(** ** Exported functions.  [is64]: the target is one of the 64-bit architectures of src/Format.c:426 and 467. *)
(** ZyanStringAppendDecU, src/Format.c:424-436. *)
Definition sappend_decu (is64 : bool) (s : str) (value padding_length : N) : M (status * str) :=
  if is64 || high_bits value then sappend_dec MAXCHARS_DEC_64 s value padding_length
  else sappend_dec MAXCHARS_DEC_32 s (value mod W32) padding_length.
(** ZyanStringAppendHexU, src/Format.c:464-477. *)
Definition sappend_hexu (is64 : bool) (s : str) (value padding_length : N) (uppercase : bool) : M (status * str) :=
  if is64 || high_bits value then sappend_hex64 s value padding_length uppercase
  else sappend_hex MAXCHARS_HEX_32 s (value mod W32) padding_length uppercase.
(** ZyanAbsI64, include/Zycore/Format.h:59-70; [x] is a signed 64-bit value. *)
Definition abs_i64 (x : Z) : N :=
  if (x =? -9223372036854775808)%Z then 9223372036854775808 else Z.to_N (if (x <? 0)%Z then - x else x).
(** The appends of sign and prefix, src/Format.c:441-460 and 482-501; [sub] and [add] are the static views STR_SUB
    and STR_ADD, src/Format.c:63-64; [digits] is the final call. *)
Definition sappend_signed (sub add : view) (s : str) (value : Z) (force_sign : bool) (prefix : option view)
  (digits : str -> N -> M (status * str)) : M (status * str) :=
  let sign := if (value <? 0)%Z then Some sub else if force_sign then Some add else None in
  let* (st, s) := match sign with Some q => sappend s q | None => ret (ST_SUCCESS, s) end in
  if negb (st_success st) then ret (st, s) else
  let* (st, s) := match prefix with Some q => sappend s q | None => ret (ST_SUCCESS, s) end in
  if negb (st_success st) then ret (st, s) else
  digits s (if (value <? 0)%Z then abs_i64 value else Z.to_N value).
(** ZyanStringAppendDecS, src/Format.c:438-462. *)
Definition sappend_decs (is64 : bool) (sub add : view) (s : str) (value : Z) (padding_length : N) (force_sign : bool)
  (prefix : option view) : M (status * str) :=
  sappend_signed sub add s value force_sign prefix (fun s v => sappend_decu is64 s v padding_length).
(** ZyanStringAppendHexS, src/Format.c:479-503. *)
Definition sappend_hexs (is64 : bool) (sub add : view) (s : str) (value : Z) (padding_length : N)
  (uppercase force_sign : bool) (prefix : option view) : M (status * str) :=
  sappend_signed sub add s value force_sign prefix (fun s v => sappend_hexu is64 s v padding_length uppercase).

(** ** Formatted text.  What the C library's formatter does with the format and its arguments: it produces a text, or
    fails after having produced some of it. *)
Inductive formatted := FText (t : list byte) | FError (t : list byte).
(** vsnprintf(p, size, ...) with [size] >= 1: stores at most [size] - 1 characters and a terminator, and returns the
    length of the whole text, or -1. *)
Definition vsnprintf (f : formatted) (p : option ptr) (size : N) : M Z :=
  match f with
  | FText t => mwrite p (nfirst (size - 1) t ++ [0]) ;;; ret (Z.of_N (nlen t))
  | FError t => mwrite p (nfirst (size - 1) t) ;;; ret (-1)%Z
  end.
(** Conversion of a ZyanUSize to ZyanI32. *)
Definition to_i32 (x : N) : Z := if x mod W32 <? 2147483648 then Z.of_N (x mod W32) else (Z.of_N (x mod W32) - 4294967296)%Z.
(** ZyanStringAppendFormat, src/Format.c:372-418.  [f1] is the formatter's answer for the arguments, [f2] its answer
    in the second call, which is given the argument list the first call has already consumed. *)
Definition sappend_format (f1 f2 : formatted) (s : str) : M (status * str) :=
  let len := ssize s in
  let* w := vsnprintf f1 (padd (sdata s) (wsub len 1)) (wadd (wsub (v_cap (s_vec s)) len) 1) in
  if (w <? 0)%Z then ret (ST_FAILED, s) else
  if (w <=? to_i32 (wsub (v_cap (s_vec s)) len))%Z
  then ret (ST_SUCCESS, with_vec s (set_size (s_vec s) (wadd len (Z.to_N w)))) else
  let* (st, s) := sresize s (wsub (wadd (ssize s) (Z.to_N w)) 1) in
  if negb (st_success st) then ret (st, s) else
  let* w := vsnprintf f2 (padd (sdata s) (wsub len 1)) (wadd (wsub (v_cap (s_vec s)) (ssize s)) 1) in
  if (w <? 0)%Z then ret (ST_FAILED, s) else
  assert (w <=? to_i32 (wsub (v_cap (s_vec s)) (ssize s)))%Z ;;;
  ret (ST_SUCCESS, s).

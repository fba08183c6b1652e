(** Model of src/Bitset.c, function by function.  No proofs here.

    Simplifications that hold for the whole file:
    - the [ZyanBitset*] parameter is a record that is passed in and returned, so the "bitset is NULL" checks have no
      counterpart; results stored through an out-pointer are returned;
    - a cell is a byte 0..255;
    - [zero] is the address of the function's "static const ZyanU8 zero = 0". *)
From Verif Require Import Base Status Mem VectorModel StringModel.

(** ZYAN_BITSET_GROWTH_FACTOR, ZYAN_BITSET_SHRINK_THRESHOLD, src/Bitset.c:34-35. *)
Definition BITSET_GROWTH : N := 2.
Definition BITSET_SHRINK : N := 2.
(** ZYAN_BITSET_CEIL, src/Bitset.c:48-49; [x] is a ZyanUSize. *)
Definition bs_ceil (x : N) : N := if x =? x mod W32 then x mod W32 else (x mod W32 + 1) mod W32.
(** ZYAN_BITSET_BITS_TO_BYTES, src/Bitset.c:58-59. *)
Definition bits_to_bytes (x : N) : N := bs_ceil (x / 8).
(** ZYAN_BITSET_BIT_OFFSET, src/Bitset.c:68-69. *)
Definition bit_offset (index : N) : N := 7 - index mod 8.

(** struct ZyanBitset_, include/Zycore/Bitset.h:51-61. *)
Record bitset := mkbitset { bs_size : N; bs_bits : vector byte }.

(** ZyanBitsetInitVectorElements, src/Bitset.c:87-98. *)
Fixpoint init_elements (v : vector byte) (zero : option ptr) (n : nat) : M (status * vector byte) :=
  match n with
  | O => ret (ST_SUCCESS, v)
  | S n =>
      let* (st, v) := vpush_back v zero in
      if negb (st_success st) then ret (st, v) else init_elements v zero n
  end.
(** ZyanBitsetInitEx, src/Bitset.c:142-158.  [None]: the vector was not initialised. *)
Definition bs_init_ex (zero : option ptr) (count : N) (allocator : bool) (growth shrink : N) : M (status * option bitset) :=
  let bytes := bits_to_bytes count in
  let* (st, ov) := vinit_ex 1 bytes None allocator growth shrink in
  if negb (st_success st) then ret (st, option_map (mkbitset count) ov) else
  match ov with
  | None => fail NullDeref
  | Some v =>
      let* (st, v) := init_elements v zero (N.to_nat bytes) in
      ret (st, Some (mkbitset count v))
  end.
(** ZyanBitsetInit, src/Bitset.c:134-138. *)
Definition bs_init (zero : option ptr) (count : N) : M (status * option bitset) :=
  bs_init_ex zero count true BITSET_GROWTH BITSET_SHRINK.
(** ZyanBitsetInitBuffer, src/Bitset.c:160-180. *)
Definition bs_init_buffer (zero : option ptr) (count : N) (buffer : option ptr) (capacity : N) : M (status * option bitset) :=
  let bytes := bits_to_bytes count in
  if capacity <? bytes then ret (ST_INSUFFICIENT_BUFFER_SIZE, None) else
  let* (st, ov) := vinit_custom 1 buffer capacity None in
  if negb (st_success st) then ret (st, option_map (mkbitset count) ov) else
  match ov with
  | None => fail NullDeref
  | Some v =>
      let* (st, v) := init_elements v zero (N.to_nat bytes) in
      ret (st, Some (mkbitset count v))
  end.
(** ZyanBitsetDestroy, src/Bitset.c:182-190. *)
Definition bs_destroy (b : bitset) : M (status * bitset) :=
  let* (st, v) := vdestroy (bs_bits b) in ret (st, mkbitset (bs_size b) v).

(** ** Logical operations *)
(** The byte operations, src/Bitset.c:104-120: status and new value of "*b1". *)
Definition op_and (x y : byte) : status * byte := (ST_SUCCESS, N.land x y).
Definition op_or (x y : byte) : status * byte := (ST_SUCCESS, N.lor x y).
Definition op_xor (x y : byte) : status * byte := (ST_SUCCESS, N.lxor x y).
(** The loop src/Bitset.c:209-221, [n] iterations from index [i] on. *)
Fixpoint byte_op_loop (op : byte -> byte -> status * byte) (d s : bitset) (i : N) (n : nat) : M status :=
  match n with
  | O => ret ST_SUCCESS
  | S n =>
      let* (st, v1) := vget_pointer (bs_bits d) i in
      if negb (st_success st) then ret st else
      let* (st, v2) := vget_pointer (bs_bits s) i in
      if negb (st_success st) then ret st else
      assert (nonnull v1) ;;;
      assert (nonnull v2) ;;;
      let* x := mread1 v1 in
      let* y := mread1 v2 in
      let (st, z) := op x y in
      mwrite v1 [z] ;;;
      if negb (st_success st) then ret st else
      byte_op_loop op d s (wadd i 1) n
  end.
(** ZyanBitsetPerformByteOperation, src/Bitset.c:196-224. *)
Definition bs_byte_op (op : byte -> byte -> status * byte) (d s : bitset) : M status :=
  byte_op_loop op d s 0 (N.to_nat (N.min (v_size (bs_bits d)) (v_size (bs_bits s)))).
(** ZyanBitsetAND, ZyanBitsetOR, ZyanBitsetXOR, src/Bitset.c:226-239. *)
Definition bs_and := bs_byte_op op_and.
Definition bs_or := bs_byte_op op_or.
Definition bs_xor := bs_byte_op op_xor.
(** The loops over all bytes of Flip, SetAll and ResetAll, src/Bitset.c:250-255, 374-379 and 393-398.  (SetAll and
    ResetAll do not read the old value.) *)
Fixpoint each_byte (f : byte -> byte) (b : bitset) (i : N) (n : nat) : M status :=
  match n with
  | O => ret ST_SUCCESS
  | S n =>
      let* (st, p) := vget_pointer (bs_bits b) i in
      if negb (st_success st) then ret st else
      let* x := mread1 p in
      mwrite p [f x] ;;;
      each_byte f b (wadd i 1) n
  end.
Definition bs_each (f : byte -> byte) (b : bitset) : M status := each_byte f b 0 (N.to_nat (v_size (bs_bits b))).
(** ZyanBitsetFlip, src/Bitset.c:241-258; "~" on a ZyanU8. *)
Definition not8 (x : byte) : byte := 255 - x mod 256.
Definition bs_flip : bitset -> M status := bs_each not8.

(** ** Bit access *)
(** Set, Reset and Toggle, src/Bitset.c:264-281, 283-299 and 310-326, differ in the change of the byte. *)
Definition bs_change (f : byte -> byte) (b : bitset) (index : N) : M status :=
  if bs_size b <=? index then ret ST_OUT_OF_RANGE else
  let* (st, p) := vget_pointer (bs_bits b) (index / 8) in
  if negb (st_success st) then ret st else
  let* x := mread1 p in
  mwrite p [f x] ;;;
  ret ST_SUCCESS.
Definition bs_set (b : bitset) (index : N) : M status :=
  bs_change (fun x => N.lor x (N.shiftl 1 (bit_offset index)) mod 256) b index.
Definition bs_reset (b : bitset) (index : N) : M status :=
  bs_change (fun x => N.land x (not8 (N.shiftl 1 (bit_offset index)))) b index.
Definition bs_toggle (b : bitset) (index : N) : M status :=
  bs_change (fun x => N.lxor x (N.shiftl 1 (bit_offset index)) mod 256) b index.
(** ZyanBitsetAssign, src/Bitset.c:301-308. *)
Definition bs_assign (b : bitset) (index : N) (value : bool) : M status :=
  if value then bs_set b index else bs_reset b index.
(** ZyanBitsetTest, src/Bitset.c:328-346. *)
Definition bs_test (b : bitset) (index : N) : M status :=
  if bs_size b <=? index then ret ST_OUT_OF_RANGE else
  let* (st, p) := vget_pointer (bs_bits b) (index / 8) in
  if negb (st_success st) then ret st else
  let* x := mread1 p in
  ret (if N.land x (N.shiftl 1 (bit_offset index)) =? 0 then ST_FALSE else ST_TRUE).
(** ZyanBitsetTestMSB, src/Bitset.c:348-356; ZyanBitsetTestLSB, 358-361. *)
Definition bs_test_msb (b : bitset) : M status := bs_test b (wsub (bs_size b) 1).
Definition bs_test_lsb (b : bitset) : M status := bs_test b 0.
(** ZyanBitsetSetAll, src/Bitset.c:365-382; ZyanBitsetResetAll, 384-401. *)
Definition bs_set_all : bitset -> M status := bs_each (fun _ => 255).
Definition bs_reset_all : bitset -> M status := bs_each (fun _ => 0).

(** ** Size management *)
(** ZyanBitsetPush, src/Bitset.c:407-421. *)
Definition bs_push (zero : option ptr) (b : bitset) (value : bool) : M (status * bitset) :=
  let size := bs_size b in
  let b := mkbitset (wadd size 1) (bs_bits b) in
  let* (st, b) := if size mod 8 =? 0
                  then let* (st, v) := vpush_back (bs_bits b) zero in ret (st, mkbitset (bs_size b) v)
                  else ret (ST_SUCCESS, b) in
  if negb (st_success st) then ret (st, b) else
  let* st := bs_assign b (wsub (bs_size b) 1) value in
  ret (st, b).
(** ZyanBitsetPop, src/Bitset.c:423-436. *)
Definition bs_pop (b : bitset) : M (status * bitset) :=
  let b := mkbitset (wsub (bs_size b) 1) (bs_bits b) in
  if bs_size b mod 8 =? 0
  then let* (st, v) := vpop_back (bs_bits b) in ret (st, mkbitset (bs_size b) v)
  else ret (ST_SUCCESS, b).
(** ZyanBitsetClear, src/Bitset.c:438-447. *)
Definition bs_clear (b : bitset) : M (status * bitset) :=
  let* (st, v) := vclear (bs_bits b) in ret (st, mkbitset 0 v).

(** ** Memory management *)
(** ZyanBitsetReserve, src/Bitset.c:453-456; ZyanBitsetShrinkToFit, 458-461. *)
Definition bs_reserve (b : bitset) (count : N) : M (status * bitset) :=
  let* (st, v) := vreserve (bs_bits b) (bits_to_bytes count) in ret (st, mkbitset (bs_size b) v).
Definition bs_shrink_to_fit (b : bitset) : M (status * bitset) :=
  let* (st, v) := vshrink_to_fit (bs_bits b) in ret (st, mkbitset (bs_size b) v).

(** ** Information *)
(** ZyanBitsetGetSize, src/Bitset.c:467-477; GetCapacity, 479-485; GetSizeBytes, 487-495; GetCapacityBytes, 497-505. *)
Definition bs_get_size (b : bitset) : status * N := (ST_SUCCESS, bs_size b).
Definition bs_get_capacity (b : bitset) : status * N := (ST_SUCCESS, wmul (v_cap (bs_bits b)) 8).
Definition bs_get_size_bytes (b : bitset) : status * N := vget_size (bs_bits b).
Definition bs_get_capacity_bytes (b : bitset) : status * N := vget_capacity (bs_bits b).

(** The population count of a byte, src/Bitset.c:524-527; "popcnt" is a ZyanU8. *)
Definition popcnt8 (x : byte) : N :=
  let p := (N.land x 85 + N.land (N.shiftr x 1) 85) mod 256 in
  let p := (N.land p 51 + N.land (N.shiftr p 2) 51) mod 256 in
  (N.land p 15 + N.land (N.shiftr p 4) 15) mod 256.
(** The loop src/Bitset.c:519-530. *)
Fixpoint count_loop (b : bitset) (i count : N) (n : nat) : M (status * N) :=
  match n with
  | O => ret (ST_SUCCESS, count)
  | S n =>
      let* (st, p) := vget_pointer (bs_bits b) i in
      if negb (st_success st) then ret (st, count) else
      let* x := mread1 p in
      count_loop b (wadd i 1) (wadd count (popcnt8 x)) n
  end.
(** ZyanBitsetCount, src/Bitset.c:509-536. *)
Definition bs_count (b : bitset) : M (status * N) :=
  let* (st, count) := count_loop b 0 0 (N.to_nat (v_size (bs_bits b))) in
  if negb (st_success st) then ret (st, count) else ret (ST_SUCCESS, N.min count (bs_size b)).
(** "const ZyanU8 mask = ~(8 - (bitset->size % 8))", src/Bitset.c:559, 591 and 623. *)
Definition last_mask (b : bitset) : byte := not8 (8 - bs_size b mod 8).
(** The loops of All, Any and None, src/Bitset.c:547-565, 579-597 and 611-629: [hit full x] says that the byte [x]
    decides the result, where [full] tells whether the byte is compared as a whole or through the mask; [yes] is then
    returned, [no] at the end. *)
Fixpoint scan_loop (hit : bool -> byte -> bool) (yes no : status) (b : bitset) (i : N) (n : nat) : M status :=
  match n with
  | O => ret no
  | S n =>
      let* (st, p) := vget_pointer (bs_bits b) i in
      if negb (st_success st) then ret st else
      let* x := mread1 p in
      if hit (i <? wsub (v_size (bs_bits b)) 1) x then ret yes else scan_loop hit yes no b (wadd i 1) n
  end.
Definition bs_scan (hit : byte -> bool -> byte -> bool) (yes no : status) (b : bitset) : M status :=
  scan_loop (hit (last_mask b)) yes no b 0 (N.to_nat (v_size (bs_bits b))).
(** ZyanBitsetAll, src/Bitset.c:538-568; ZyanBitsetAny, 570-600; ZyanBitsetNone, 602-632. *)
Definition bs_all : bitset -> M status :=
  bs_scan (fun mask full x => if full then negb (x =? 255) else negb (N.land x mask =? mask)) ST_FALSE ST_TRUE.
Definition bs_any : bitset -> M status :=
  bs_scan (fun mask full x => if full then negb (x =? 0) else negb (N.land x mask =? 0)) ST_TRUE ST_FALSE.
Definition bs_none : bitset -> M status :=
  bs_scan (fun mask full x => if full then negb (x =? 0) else negb (N.land x mask =? 0)) ST_FALSE ST_TRUE.

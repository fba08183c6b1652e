(** Arithmetic macros of include/Zycore/Defines.h and the version macros of
    include/Zycore/Zycore.h.

    The macros are untyped text; [n] is the width in bits of the (unsigned) type
    both operands have after the usual arithmetic conversions, so every
    intermediate result is reduced modulo 2^n. *)
From Verif Require Import Base Status.

(** [x - y] on unsigned [n]-bit operands. *)
Definition sub_w (n x y : N) : N := (x + (2 ^ n - y)) mod 2 ^ n.

(** ZYAN_MIN, include/Zycore/Defines.h:422. *)
Definition zyan_min (a b : Z) : Z := if (a <? b)%Z then a else b.
(** ZYAN_MAX, include/Zycore/Defines.h:432. *)
Definition zyan_max (a b : Z) : Z := if (a >? b)%Z then a else b.
(** ZYAN_ABS, include/Zycore/Defines.h:441, on a signed [n]-bit operand: negating the
    smallest value is signed overflow, i.e. undefined ([None]). *)
Definition zyan_abs (n : N) (a : Z) : option Z :=
  if (a <? 0)%Z then (if (a =? - 2 ^ (Z.of_N n - 1))%Z then None else Some (- a)%Z) else Some a.
(** ZYAN_IS_POWER_OF_2, include/Zycore/Defines.h:452. *)
Definition is_power_of_2 (n x : N) : bool := N.land x (sub_w n x 1) =? 0.
(** ZYAN_IS_ALIGNED_TO, include/Zycore/Defines.h:459. *)
Definition is_aligned_to (n x align : N) : bool := N.land x (sub_w n align 1) =? 0.
(** ZYAN_ALIGN_UP, include/Zycore/Defines.h:471. *)
Definition align_up (n x align : N) : N :=
  N.land (sub_w n ((x + align) mod 2 ^ n) 1) (N.lnot (sub_w n align 1) n).
(** ZYAN_ALIGN_DOWN, include/Zycore/Defines.h:483. *)
Definition align_down (n x align : N) : N :=
  N.land (sub_w n x 1) (N.lnot (sub_w n align 1) n).
(** ZYAN_ALIGN_UP with a 64-bit value and a 32-bit alignment: [~((align)-1)] is computed in
    32 bits and zero-extended for the conjunction. *)
Definition align_up_64_32 (x align : N) : N :=
  N.land (sub_w 64 ((x + align) mod 2 ^ 64) 1) (N.lnot (sub_w 32 align 1) 32).
(** ZYAN_DIV64, include/Zycore/Defines.h:492-497 (user-mode branch); [None] is division by zero. *)
Definition zyan_div64 (x d : N) : option N := if d =? 0 then None else Some (x / d).
(** ZYAN_DIV64, include/Zycore/Defines.h:491-494 (Linux kernel): do_div of asm/div64.h takes the divisor as a uint32_t. *)
Definition zyan_div64_kernel (x d : N) : option N := zyan_div64 x (d mod 2 ^ 32).
(** ZYAN_NEEDS_BIT, include/Zycore/Defines.h:514; [unsigned long] has 64 bits (LP64). *)
Definition needs_bit (x b : N) : bool := 0 <? N.shiftr (x mod W64) b.
(** ZYAN_BITS_TO_REPRESENT, include/Zycore/Defines.h:525-543: the sum over bits 0 to 31. *)
Definition bits_to_represent (x : N) : N :=
  fold_right (fun b acc => (if needs_bit x b then 1 else 0) + acc) 0
    [0;1;2;3;4;5;6;7;8;9;10;11;12;13;14;15;16;17;18;19;20;21;22;23;24;25;26;27;28;29;30;31].

(** ZYCORE_VERSION, include/Zycore/Zycore.h:54. *)
Definition ZYCORE_VERSION : N := 281496451547136.   (* 0x0001000500000000 *)
(** ZYCORE_VERSION_MAJOR .. BUILD, include/Zycore/Zycore.h:65-86; the cast to ZyanU16 is
    the reduction modulo 2^16. *)
Definition version_major (v : N) : N := N.shiftr (N.land v 18446462598732840960) 48 mod 65536.
Definition version_minor (v : N) : N := N.shiftr (N.land v 281470681743360) 32 mod 65536.
Definition version_patch (v : N) : N := N.shiftr (N.land v 4294901760) 16 mod 65536.
Definition version_build (v : N) : N := N.land v 65535 mod 65536.
(** ZycoreGetVersion, src/Zycore.c:33-36. *)
Definition get_version : N := ZYCORE_VERSION.

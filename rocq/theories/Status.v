(** Status codes, include/Zycore/Status.h. *)
From Verif Require Import Base.

Definition status := N.

(** ZYAN_MAKE_STATUS, include/Zycore/Status.h:67-68. *)
Definition make_status (error module code : N) : status :=
  N.lor (N.lor (N.shiftl (N.land error 1) 31) (N.shiftl (N.land module 2047) 20))
        (N.land code 1048575).

(** ZYAN_SUCCESS, include/Zycore/Status.h:81-82: the error bit is clear. *)
Definition st_success (st : status) : bool := negb (N.testbit st 31).
(** ZYAN_FAILED, include/Zycore/Status.h:91-92. *)
Definition st_failed (st : status) : bool := N.testbit st 31.
(** ZYAN_STATUS_MODULE, include/Zycore/Status.h:120-121. *)
Definition st_module (st : status) : N := N.land (N.shiftr st 20) 2047.
(** ZYAN_STATUS_CODE, include/Zycore/Status.h:130-131. *)
Definition st_code (st : status) : N := N.land st 1048575.

(** ZYAN_MODULE_ZYCORE / ARGPARSE / USER, include/Zycore/Status.h:144-154. *)
Definition MODULE_ZYCORE : N := 1.
Definition MODULE_ARGPARSE : N := 3.
Definition MODULE_USER : N := 1023.

(** include/Zycore/Status.h:163-243. *)
Definition ST_SUCCESS           := Eval compute in make_status 0 MODULE_ZYCORE 0.
Definition ST_FAILED            := Eval compute in make_status 1 MODULE_ZYCORE 1.
Definition ST_TRUE              := Eval compute in make_status 0 MODULE_ZYCORE 2.
Definition ST_FALSE             := Eval compute in make_status 0 MODULE_ZYCORE 3.
Definition ST_INVALID_ARGUMENT  := Eval compute in make_status 1 MODULE_ZYCORE 4.
Definition ST_INVALID_OPERATION := Eval compute in make_status 1 MODULE_ZYCORE 5.
Definition ST_ACCESS_DENIED     := Eval compute in make_status 1 MODULE_ZYCORE 6.
Definition ST_NOT_FOUND         := Eval compute in make_status 1 MODULE_ZYCORE 7.
Definition ST_OUT_OF_RANGE      := Eval compute in make_status 1 MODULE_ZYCORE 8.
Definition ST_INSUFFICIENT_BUFFER_SIZE := Eval compute in make_status 1 MODULE_ZYCORE 9.
Definition ST_NOT_ENOUGH_MEMORY := Eval compute in make_status 1 MODULE_ZYCORE 10.
Definition ST_BAD_SYSTEMCALL    := Eval compute in make_status 1 MODULE_ZYCORE 11.
Definition ST_OUT_OF_RESOURCES  := Eval compute in make_status 1 MODULE_ZYCORE 12.
Definition ST_MISSING_DEPENDENCY := Eval compute in make_status 1 MODULE_ZYCORE 13.
(** include/Zycore/Status.h:252-277. *)
Definition ST_ARG_NOT_UNDERSTOOD   := Eval compute in make_status 1 MODULE_ARGPARSE 0.
Definition ST_TOO_FEW_ARGS         := Eval compute in make_status 1 MODULE_ARGPARSE 1.
Definition ST_TOO_MANY_ARGS        := Eval compute in make_status 1 MODULE_ARGPARSE 2.
Definition ST_ARG_MISSES_VALUE     := Eval compute in make_status 1 MODULE_ARGPARSE 3.
Definition ST_REQUIRED_ARG_MISSING := Eval compute in make_status 1 MODULE_ARGPARSE 4.

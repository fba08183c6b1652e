(** Which status each error of the system is reported as.  The numbers are those of Linux and of the Windows SDK:
    EPERM = 1, EBADF = 9, EAGAIN = 11, ENOMEM = 12, EBUSY = 16, EINVAL = 22; ERROR_INVALID_PARAMETER = 87. *)
From Verif Require Import Base Status ApiModel ApiSpec.

(** The first entry of the table with this number; [other] if there is none. *)
Definition reported (table : list (Z * status)) (other : status) (e : Z) : status :=
  match find (fun '(n, _) => (n =? e)%Z) table with
  | Some (_, st) => st
  | None => other
  end.

(** pthread calls: 0 is success, anything else one of these. *)
Definition enter_codes : list (Z * status) := [(0%Z, ST_SUCCESS); (22%Z, ST_INVALID_ARGUMENT); (11%Z, ST_INVALID_OPERATION)].
Definition leave_codes : list (Z * status) := [(0%Z, ST_SUCCESS); (22%Z, ST_INVALID_ARGUMENT); (1%Z, ST_INVALID_OPERATION)].
Definition delete_codes : list (Z * status) := [(0%Z, ST_SUCCESS); (16%Z, ST_INVALID_ARGUMENT); (22%Z, ST_INVALID_ARGUMENT)].
Definition attribute_codes : list (Z * status) := [(0%Z, ST_SUCCESS); (12%Z, ST_NOT_ENOUGH_MEMORY)].
Definition mutex_codes : list (Z * status) :=
  [(0%Z, ST_SUCCESS); (11%Z, ST_OUT_OF_RESOURCES); (12%Z, ST_NOT_ENOUGH_MEMORY); (1%Z, ST_ACCESS_DENIED);
   (16%Z, ST_INVALID_ARGUMENT); (22%Z, ST_INVALID_ARGUMENT)].
Definition key_codes : list (Z * status) := [(0%Z, ST_SUCCESS); (11%Z, ST_OUT_OF_RESOURCES); (12%Z, ST_NOT_ENOUGH_MEMORY)].
Definition store_codes : list (Z * status) := [(0%Z, ST_SUCCESS); (22%Z, ST_INVALID_ARGUMENT)].
(** Calls that only tell success (0) from failure. *)
Definition plain_codes : list (Z * status) := [(0%Z, ST_SUCCESS)].
(** Windows calls: 0 is failure. *)
Definition failure_codes : list (Z * status) := [(0%Z, ST_BAD_SYSTEMCALL)].

(** The status of a thread-local storage call after the history [tr]: the index must be in use, and the system may
    report an error [e] of its own. *)
Definition tls_status (tr : list tlsevent) (c : tlscall) : status :=
  match c with
  | TAlloc _ e => reported key_codes ST_BAD_SYSTEMCALL (Z.of_N e)
  | TFree k => if key_live k tr false then ST_SUCCESS else ST_BAD_SYSTEMCALL
  | TSet k _ e =>
      reported store_codes ST_BAD_SYSTEMCALL
        (if (e =? 0) && negb (key_live k tr false) then 22%Z else Z.of_N e)
  | TGet _ => ST_SUCCESS
  end.
(** On Windows; the system hands out 32-bit indices and 4294967295 means that there are none left. *)
Definition fls_status (tr : list tlsevent) (c : tlscall) : status :=
  match c with
  | TAlloc k e => if (e =? 0) && negb (k mod 4294967296 =? 4294967295) then ST_SUCCESS else ST_OUT_OF_RESOURCES
  | TFree k => if key_live k tr false then ST_SUCCESS else ST_BAD_SYSTEMCALL
  | TSet k _ e =>
      if (e =? 0) && key_live k tr false then ST_SUCCESS
      else if (e =? 0) || (e =? 87) then ST_INVALID_ARGUMENT else ST_BAD_SYSTEMCALL
  | TGet _ => ST_SUCCESS
  end.

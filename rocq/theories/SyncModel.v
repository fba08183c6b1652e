(** Critical sections on POSIX systems, src/API/Synchronization.c:47-153, and the pthread mutex they use.

    The mutex is the environment: its behaviour is that of POSIX (pthread_mutex_lock and friends), as a
    transition system.  [inject] is an error the system may report at any call for reasons outside the model;
    such a call leaves the mutex alone. *)
From Verif Require Import Base Status.

(** errno values (Linux, asm-generic/errno-base.h). *)
Definition EPERM : N := 1.
Definition EAGAIN : N := 11.
Definition ENOMEM : N := 12.
Definition EBUSY : N := 16.
Definition EINVAL : N := 22.

(** ** The pthread mutex *)
Record mutex := mkmutex { recursive : bool; owner : option N; depth : N }.
Section Mutex.
  Context (max_depth : N).   (* maximum number of recursive locks *)
  (** [None]: the caller blocks. *)
  Definition mutex_lock (t : N) (m : mutex) : option (N * mutex) :=
    match owner m with
    | None => Some (0, mkmutex (recursive m) (Some t) 1)
    | Some o =>
        if negb (o =? t) then None
        else if negb (recursive m) then None
        else if depth m <? max_depth then Some (0, mkmutex true (Some t) (depth m + 1))
        else Some (EAGAIN, m)
    end.
  Definition mutex_trylock (t : N) (m : mutex) : N * mutex :=
    match owner m with
    | None => (0, mkmutex (recursive m) (Some t) 1)
    | Some o =>
        if negb (o =? t) then (EBUSY, m)
        else if negb (recursive m) then (EBUSY, m)
        else if depth m <? max_depth then (0, mkmutex true (Some t) (depth m + 1))
        else (EAGAIN, m)
    end.
  Definition mutex_unlock (t : N) (m : mutex) : N * mutex :=
    match owner m with
    | None => (EPERM, m)
    | Some o =>
        if negb (o =? t) then (EPERM, m)
        else if depth m =? 1 then (0, mkmutex (recursive m) None 0)
        else (0, mkmutex (recursive m) (Some t) (depth m - 1))
    end.
  Definition mutex_destroy (m : mutex) : N := match owner m with None => 0 | Some _ => EBUSY end.
End Mutex.

(** ** The library *)
(** ZyanCriticalSectionInitialize, Synchronization.c:55-94, given the results of pthread_mutexattr_init,
    pthread_mutexattr_settype (ignored by the code) and pthread_mutex_init. *)
Definition cs_init (e_attr e_type e_init : N) : status * option mutex :=
  if negb (e_attr =? 0)
  then (if e_attr =? ENOMEM then ST_NOT_ENOUGH_MEMORY else ST_BAD_SYSTEMCALL, None)
  else if negb (e_init =? 0) then
    (if e_init =? EAGAIN then ST_OUT_OF_RESOURCES
     else if e_init =? ENOMEM then ST_NOT_ENOUGH_MEMORY
     else if e_init =? EPERM then ST_ACCESS_DENIED
     else if (e_init =? EBUSY) || (e_init =? EINVAL) then ST_INVALID_ARGUMENT
     else ST_BAD_SYSTEMCALL, None)
  else (ST_SUCCESS, Some (mkmutex (e_type =? 0) None 0)).
(** ZyanCriticalSectionEnter, Synchronization.c:96-113, given the result of pthread_mutex_lock. *)
Definition cs_enter (error : N) : status :=
  if negb (error =? 0) then
    (if error =? EINVAL then ST_INVALID_ARGUMENT
     else if error =? EAGAIN then ST_INVALID_OPERATION
     else ST_BAD_SYSTEMCALL)
  else ST_SUCCESS.
(** ZyanCriticalSectionTryEnter, Synchronization.c:115-119, given the result of pthread_mutex_trylock. *)
Definition cs_try_enter (error : N) : bool := if negb (error =? 0) then false else true.
(** ZyanCriticalSectionLeave, Synchronization.c:121-138, given the result of pthread_mutex_unlock. *)
Definition cs_leave (error : N) : status :=
  if negb (error =? 0) then
    (if error =? EINVAL then ST_INVALID_ARGUMENT
     else if error =? EPERM then ST_INVALID_OPERATION
     else ST_BAD_SYSTEMCALL)
  else ST_SUCCESS.
(** ZyanCriticalSectionDelete, Synchronization.c:140-153, given the result of pthread_mutex_destroy. *)
Definition cs_delete (error : N) : status :=
  if negb (error =? 0) then
    (if (error =? EBUSY) || (error =? EINVAL) then ST_INVALID_ARGUMENT else ST_BAD_SYSTEMCALL)
  else ST_SUCCESS.

(** ** Threads using one critical section *)
Inductive cscall := Enter | TryEnter | Leave.
Inductive csresult := RStatus (st : status) | RBool (b : bool).
Definition event := (N * cscall * csresult)%type.

(** Thread [t] makes a call; [inject] is 0 or the error the system reports. [None]: the thread blocks. *)
Definition cs_step (max_depth t : N) (c : cscall) (inject : N) (m : mutex) : option (csresult * mutex) :=
  if negb (inject =? 0) then
    Some (match c with
          | Enter => RStatus (cs_enter inject)
          | TryEnter => RBool (cs_try_enter inject)
          | Leave => RStatus (cs_leave inject)
          end, m)
  else
    match c with
    | Enter => match mutex_lock max_depth t m with
               | None => None
               | Some (e, m') => Some (RStatus (cs_enter e), m')
               end
    | TryEnter => let '(e, m') := mutex_trylock max_depth t m in Some (RBool (cs_try_enter e), m')
    | Leave => let '(e, m') := mutex_unlock t m in Some (RStatus (cs_leave e), m')
    end.
(** A schedule says which thread makes which call next; blocked calls produce no event.  The trace has the
    oldest event first. *)
Fixpoint cs_run (max_depth : N) (schedule : list (N * cscall * N)) (m : mutex) (trace : list event)
  : mutex * list event :=
  match schedule with
  | [] => (m, trace)
  | (t, c, inject) :: schedule =>
      match cs_step max_depth t c inject m with
      | None => cs_run max_depth schedule m trace
      | Some (r, m') => cs_run max_depth schedule m' (trace ++ [(t, c, r)])
      end
  end.

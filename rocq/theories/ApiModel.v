(** Wrappers of operating system services on POSIX systems: src/API/Memory.c, Process.c, Thread.c, Terminal.c.

    The system is an oracle: it answers every call with a return value (and errno).  A wrapper returns the calls
    it issued besides its result. *)
From Verif Require Import Base Status SyncModel.

Definition EBADF : N := 9.

Inductive syscall :=
| Sysconf_page_size
| Mprotect (address size protection : N)
| Munmap (address size : N)
| Msync (address size flags : N)
| Isatty (fd : N)
| Key_create (destructor : N)
| Key_delete (key : N)
| Setspecific (key data : N)
| Getspecific (key : N)
| Self.

(** A system: what each call returns as a C value (int, long or pointer), errno after it, and the key a
    pthread_key_create stores. *)
Record system := mksystem {
  answer : syscall -> Z;
  errno : syscall -> N;
  new_key : N;
  readable : N -> option N      (* 8 bytes at an address, if it is mapped *)
}.

(** Conversion of a C integer to ZyanU32. *)
Definition to_u32 (z : Z) : N := Z.to_N (z mod 4294967296).
(** Conversion to an unsigned value of pointer width. *)
Definition to_u64 (z : Z) : N := Z.to_N (z mod 18446744073709551616).

(** ZyanMemoryGetSystemPageSize, src/API/Memory.c:47-61 (58). *)
Definition page_size (s : system) : N * list syscall :=
  (to_u32 (answer s Sysconf_page_size), [Sysconf_page_size]).
(** ZyanMemoryGetSystemAllocationGranularity, src/API/Memory.c:63-77 (74). *)
Definition allocation_granularity (s : system) : N * list syscall :=
  (to_u32 (answer s Sysconf_page_size), [Sysconf_page_size]).
(** ZyanMemoryPageProtection on POSIX, include/Zycore/API/Memory.h:68-72, with PROT_READ = 1, PROT_WRITE = 2 and
    PROT_EXEC = 4. *)
Definition PROT_READ : N := 1.
Definition PROT_WRITE : N := 2.
Definition PROT_EXEC : N := 4.
Inductive protection := ReadOnly | ReadWrite | Execute | ExecuteRead | ExecuteReadWrite.
Definition prot_value (p : protection) : N :=
  match p with
  | ReadOnly => PROT_READ
  | ReadWrite => N.lor PROT_READ PROT_WRITE
  | Execute => PROT_EXEC
  | ExecuteRead => N.lor PROT_EXEC PROT_READ
  | ExecuteReadWrite => N.lor (N.lor PROT_EXEC PROT_READ) PROT_WRITE
  end.
(** ZyanMemoryVirtualProtect, src/API/Memory.c:83-104. *)
Definition virtual_protect (address size : N) (p : protection) (s : system) : status * list syscall :=
  let c := Mprotect address size (prot_value p) in
  (if negb (answer s c =? 0)%Z then ST_BAD_SYSTEMCALL else ST_SUCCESS, [c]).
(** ZyanMemoryVirtualFree, src/API/Memory.c:106-126. *)
Definition virtual_free (address size : N) (s : system) : status * list syscall :=
  let c := Munmap address size in
  (if negb (answer s c =? 0)%Z then ST_BAD_SYSTEMCALL else ST_SUCCESS, [c]).
(** ZyanProcessFlushInstructionCache, src/API/Process.c:52-71; MS_SYNC = 4, MS_INVALIDATE = 2. *)
Definition MS_INVALIDATE : N := 2.
Definition MS_SYNC : N := 4.
Definition flush_instruction_cache (address size : N) (s : system) : status * list syscall :=
  let c := Msync address size (N.lor MS_SYNC MS_INVALIDATE) in
  (if negb (answer s c =? 0)%Z then ST_BAD_SYSTEMCALL else ST_SUCCESS, [c]).

(** ZyanThreadGetCurrentThread, src/API/Thread.c:101-106: status and [*thread]. *)
Definition current_thread (s : system) : status * N := (ST_SUCCESS, to_u64 (answer s Self)).
(** ZyanThreadGetCurrentThreadId, src/API/Thread.c:109-117: the pthread_t is used as an address; [None] when
    nothing readable is there. *)
Definition current_thread_id (s : system) : option (status * N) :=
  match readable s (to_u64 (answer s Self)) with
  | None => None
  | Some x => Some (ST_SUCCESS, x)
  end.
(** ZyanThreadTlsAlloc, src/API/Thread.c:123-142: status, [*index] ([old] before the call), calls issued. *)
Definition tls_alloc (old destructor : N) (s : system) : status * N * list syscall :=
  let c := Key_create destructor in
  let e := answer s c in
  if negb (e =? 0)%Z then
    (if (e =? Z.of_N EAGAIN)%Z then ST_OUT_OF_RESOURCES
     else if (e =? Z.of_N ENOMEM)%Z then ST_NOT_ENOUGH_MEMORY
     else ST_BAD_SYSTEMCALL, old, [c])
  else (ST_SUCCESS, new_key s, [c]).
(** ZyanThreadTlsFree, src/API/Thread.c:144-147. *)
Definition tls_free (index : N) (s : system) : status * list syscall :=
  let c := Key_delete index in
  (if (answer s c =? 0)%Z then ST_SUCCESS else ST_BAD_SYSTEMCALL, [c]).
(** ZyanThreadTlsGetValue, src/API/Thread.c:149-154: status, [*data], calls issued. *)
Definition tls_get_value (index : N) (s : system) : status * N * list syscall :=
  let c := Getspecific index in
  (ST_SUCCESS, to_u64 (answer s c), [c]).
(** ZyanThreadTlsSetValue, src/API/Thread.c:156-169. *)
Definition tls_set_value (index data : N) (s : system) : status * list syscall :=
  let c := Setspecific index data in
  let e := answer s c in
  (if negb (e =? 0)%Z then
    (if (e =? Z.of_N EINVAL)%Z then ST_INVALID_ARGUMENT else ST_BAD_SYSTEMCALL)
   else ST_SUCCESS, [c]).

(** ZyanStandardStream, include/Zycore/API/Terminal.h:109-123. *)
Definition STDSTREAM_IN : N := 0.
Definition STDSTREAM_OUT : N := 1.
Definition STDSTREAM_ERR : N := 2.
(** ZyanTerminalEnableVT100, src/API/Terminal.c:51-98 (POSIX: lines 53-56 and 97). *)
Definition enable_vt100 (stream : N) : status :=
  if negb (stream =? STDSTREAM_OUT) && negb (stream =? STDSTREAM_ERR) then ST_INVALID_ARGUMENT else ST_SUCCESS.
(** ZyanTerminalIsTTY, src/API/Terminal.c:100-156; [None]: ZYAN_UNREACHABLE is reached (undefined behaviour).
    STDIN_FILENO, STDOUT_FILENO, STDERR_FILENO are 0, 1, 2. *)
Definition is_tty (stream : N) (s : system) : option status :=
  let file := if stream =? STDSTREAM_IN then Some 0
              else if stream =? STDSTREAM_OUT then Some 1
              else if stream =? STDSTREAM_ERR then Some 2
              else None in
  match file with
  | None => None
  | Some fd =>
      if negb (answer s (Isatty fd) =? 0)%Z then Some ST_TRUE
      else if errno s (Isatty fd) =? EBADF then Some ST_INVALID_ARGUMENT
      else Some ST_FALSE
  end.

(** ** Thread-local storage of a process
    The keys the system has handed out and the value of every (key, thread); pthread semantics: a new key reads
    as NULL in every thread, pthread_setspecific changes the calling thread's value only. *)
Record tls := mktls { keys : list N; values : N -> N -> N }.
Inductive tlscall := TAlloc (k : N) (e : N) | TFree (k : N) | TSet (k data : N) (e : N) | TGet (k : N).
(** The system as thread [t] sees it; [k] is the key the system will hand out, [e] an error it reports. *)
Definition tls_system (m : tls) (t k e : N) : system :=
  mksystem (fun c => match c with
                     | Key_create _ => Z.of_N e
                     | Key_delete k => if existsb (N.eqb k) (keys m) then 0%Z else Z.of_N EINVAL
                     | Setspecific k _ => if negb (e =? 0) then Z.of_N e
                                          else if existsb (N.eqb k) (keys m) then 0%Z else Z.of_N EINVAL
                     | Getspecific k => Z.of_N (if existsb (N.eqb k) (keys m) then values m k t else 0)
                     | _ => 0%Z
                     end) (fun _ => 0) k (fun _ => None).
(** What a call does to the storage, if the system answers it with 0: the system decides, not the wrapper. *)
Definition tls_effect_of (t k e : N) (m : tls) (c : syscall) : tls :=
  if negb (answer (tls_system m t k e) c =? 0)%Z then m else
  match c with
  | Key_create _ => mktls (k :: keys m) (fun k' u => if k' =? k then 0 else values m k' u)
  | Key_delete k' => mktls (remove N.eq_dec k' (keys m)) (values m)
  | Setspecific k' d => mktls (keys m) (fun k2 u => if (k2 =? k') && (u =? t) then d else values m k2 u)
  | _ => m
  end.
Definition tls_effects (t k e : N) (m : tls) (cs : list syscall) : tls := fold_left (tls_effect_of t k e) cs m.
(** One call of thread [t]: status, value stored through the out-pointer (if any) and the new state. *)
Definition tls_step (m : tls) (t : N) (c : tlscall) : status * option N * tls :=
  match c with
  | TAlloc k e =>
      let '(st, i, cs) := tls_alloc 0 0 (tls_system m t k e) in
      (st, if st_success st then Some i else None, tls_effects t k e m cs)
  | TFree k => let '(st, cs) := tls_free k (tls_system m t 0 0) in (st, None, tls_effects t 0 0 m cs)
  | TSet k d e => let '(st, cs) := tls_set_value k d (tls_system m t 0 e) in (st, None, tls_effects t 0 e m cs)
  | TGet k => let '(st, d, cs) := tls_get_value k (tls_system m t 0 0) in (st, Some d, tls_effects t 0 0 m cs)
  end.
(** A trace: thread, call, status, value stored through the out-pointer. *)
Notation tlsevent := (N * tlscall * status * option N)%type.
Fixpoint tls_run (m : tls) (cs : list (N * tlscall)) : tls * list tlsevent :=
  match cs with
  | [] => (m, [])
  | (t, c) :: cs =>
      let '(st, r, m1) := tls_step m t c in
      let '(m2, tr) := tls_run m1 cs in (m2, (t, c, st, r) :: tr)
  end.

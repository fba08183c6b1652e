(** The Windows branches of src/API: Memory.c, Process.c, Thread.c, Terminal.c, Synchronization.c (user mode).

    As in ApiModel the system is an oracle; a wrapper returns the calls it issued besides its result.  The
    constants are those of the Windows SDK. *)
From Verif Require Import Base Status SyncModel ApiModel.

Inductive wcall :=
| VirtualProtectCall (address size protection : N)
| VirtualFreeCall (address size type : N)
| FlushCall (address size : N)
| FlsAllocCall (destructor : N)
| FlsFreeCall (index : N)
| FlsSetCall (index data : N)
| FlsGetCall (index : N)
| FilenoCall (stream : N)
| OsfhandleCall (fd : Z)
| GetConsoleModeCall (handle : Z)
| SetConsoleModeCall (handle : Z) (mode : N)
| IsattyCall (fd : Z)
| ThreadCall
| ThreadIdCall.

Record wsystem := mkwsystem {
  wanswer : wcall -> Z;              (* return value (BOOL, int, DWORD, pointer) *)
  wlast_error : wcall -> N;          (* GetLastError afterwards *)
  dw_page_size : N;                  (* GetSystemInfo *)
  dw_granularity : N;
  console_mode : Z -> N;             (* what GetConsoleMode stores for a handle *)
  errno_before : N;                  (* errno when the library is called *)
  errno_set : wcall -> option N      (* errno, for the calls that set it *)
}.

(** ZyanMemoryGetSystemPageSize, src/API/Memory.c:47-61 (51-54). *)
Definition win_page_size (s : wsystem) : N := dw_page_size s.
(** ZyanMemoryGetSystemAllocationGranularity, src/API/Memory.c:63-77 (67-70). *)
Definition win_allocation_granularity (s : wsystem) : N := dw_granularity s.
(** ZyanMemoryPageProtection on Windows, include/Zycore/API/Memory.h:60-64. *)
Definition PAGE_READONLY : N := 2.
Definition PAGE_READWRITE : N := 4.
Definition PAGE_EXECUTE : N := 16.
Definition PAGE_EXECUTE_READ : N := 32.
Definition PAGE_EXECUTE_READWRITE : N := 64.
Definition win_prot_value (p : protection) : N :=
  match p with
  | ReadOnly => PAGE_READONLY
  | ReadWrite => PAGE_READWRITE
  | Execute => PAGE_EXECUTE
  | ExecuteRead => PAGE_EXECUTE_READ
  | ExecuteReadWrite => PAGE_EXECUTE_READWRITE
  end.
(** ZyanMemoryVirtualProtect, src/API/Memory.c:83-104 (88-92, 103). *)
Definition win_virtual_protect (address size : N) (p : protection) (s : wsystem) : status * list wcall :=
  let c := VirtualProtectCall address size (win_prot_value p) in
  (if (wanswer s c =? 0)%Z then ST_BAD_SYSTEMCALL else ST_SUCCESS, [c]).
(** ZyanMemoryVirtualFree, src/API/Memory.c:106-126 (110-114, 125): [size] is not used. *)
Definition MEM_RELEASE : N := 32768.
Definition win_virtual_free (address size : N) (s : wsystem) : status * list wcall :=
  let c := VirtualFreeCall address 0 MEM_RELEASE in
  (if (wanswer s c =? 0)%Z then ST_BAD_SYSTEMCALL else ST_SUCCESS, [c]).
(** ZyanProcessFlushInstructionCache, src/API/Process.c:52-71 (56-59, 70); the process is the current one. *)
Definition win_flush (address size : N) (s : wsystem) : status * list wcall :=
  let c := FlushCall address size in
  (if (wanswer s c =? 0)%Z then ST_BAD_SYSTEMCALL else ST_SUCCESS, [c]).

(** ZyanThreadGetCurrentThread, src/API/Thread.c:179-184: status and [*thread] (a HANDLE). *)
Definition win_current_thread (s : wsystem) : status * N := (ST_SUCCESS, to_u64 (wanswer s ThreadCall)).
(** ZyanThreadGetCurrentThreadId, src/API/Thread.c:186-191: status and [*thread_id] (a DWORD). *)
Definition win_current_thread_id (s : wsystem) : status * N := (ST_SUCCESS, to_u32 (wanswer s ThreadIdCall)).
(** ZyanThreadTlsAlloc, src/API/Thread.c:197-207: status, [*index] ([old] before the call), calls issued. *)
Definition FLS_OUT_OF_INDEXES : N := 4294967295.
Definition win_tls_alloc (old destructor : N) (s : wsystem) : status * N * list wcall :=
  let c := FlsAllocCall destructor in
  let value := to_u32 (wanswer s c) in
  if value =? FLS_OUT_OF_INDEXES then (ST_OUT_OF_RESOURCES, old, [c]) else (ST_SUCCESS, value, [c]).
(** ZyanThreadTlsFree, src/API/Thread.c:209-212. *)
Definition win_tls_free (index : N) (s : wsystem) : status * list wcall :=
  let c := FlsFreeCall index in
  (if negb (wanswer s c =? 0)%Z then ST_SUCCESS else ST_BAD_SYSTEMCALL, [c]).
(** ZyanThreadTlsGetValue, src/API/Thread.c:214-219: status, [*data], calls issued. *)
Definition win_tls_get_value (index : N) (s : wsystem) : status * N * list wcall :=
  let c := FlsGetCall index in
  (ST_SUCCESS, to_u64 (wanswer s c), [c]).
(** ZyanThreadTlsSetValue, src/API/Thread.c:221-234. *)
Definition ERROR_INVALID_PARAMETER : N := 87.
Definition win_tls_set_value (index data : N) (s : wsystem) : status * list wcall :=
  let c := FlsSetCall index data in
  (if (wanswer s c =? 0)%Z then
     (if wlast_error s c =? ERROR_INVALID_PARAMETER then ST_INVALID_ARGUMENT else ST_BAD_SYSTEMCALL)
   else ST_SUCCESS, [c]).

(** ZyanTerminalEnableVT100, src/API/Terminal.c:51-98.  INVALID_HANDLE_VALUE is (HANDLE)-1 and
    ENABLE_VIRTUAL_TERMINAL_PROCESSING is 4 (line 43). *)
Definition ENABLE_VT : N := 4.
Definition win_enable_vt100 (stream : N) (s : wsystem) : status * list wcall :=
  if negb (stream =? STDSTREAM_OUT) && negb (stream =? STDSTREAM_ERR) then (ST_INVALID_ARGUMENT, []) else
  let c1 := FilenoCall stream in
  let file := wanswer s c1 in
  if (file <? 0)%Z then (ST_INVALID_ARGUMENT, [c1]) else
  let c2 := OsfhandleCall file in
  let handle := wanswer s c2 in
  if (handle =? -1)%Z then (ST_INVALID_ARGUMENT, [c1; c2]) else
  let c3 := GetConsoleModeCall handle in
  if (wanswer s c3 =? 0)%Z then (ST_INVALID_ARGUMENT, [c1; c2; c3]) else
  let mode := N.lor (console_mode s handle) ENABLE_VT in
  let c4 := SetConsoleModeCall handle mode in
  if (wanswer s c4 =? 0)%Z then (ST_BAD_SYSTEMCALL, [c1; c2; c3; c4]) else (ST_SUCCESS, [c1; c2; c3; c4]).
(** ZyanTerminalIsTTY, src/API/Terminal.c:100-156; [None]: ZYAN_UNREACHABLE is reached (undefined behaviour).
    errno at line 148 is the value set by _isatty, or by _fileno, or else the one from before the call. *)
Definition win_is_tty (stream : N) (s : wsystem) : option status :=
  if negb (stream =? STDSTREAM_IN) && negb (stream =? STDSTREAM_OUT) && negb (stream =? STDSTREAM_ERR) then None else
  let file := wanswer s (FilenoCall stream) in
  if (file <? 0)%Z then Some ST_INVALID_ARGUMENT
  else if negb (wanswer s (IsattyCall file) =? 0)%Z then Some ST_TRUE
  else
    let e := match errno_set s (IsattyCall file) with
             | Some e => e
             | None => match errno_set s (FilenoCall stream) with Some e => e | None => errno_before s end
             end in
    if e =? EBADF then Some ST_INVALID_ARGUMENT else Some ST_FALSE.

(** ** Fiber-local storage of a process
    The indices the system has handed out and the value of every (index, fiber).  A thread that does not use
    fibers counts as one fiber.  The destructor callbacks are in TlsDtorModel.v. *)
Definition fls_system (m : tls) (f k e : N) : wsystem :=
  mkwsystem (fun c => match c with
                      | FlsAllocCall _ => if e =? 0 then Z.of_N (k mod W32) else 4294967295%Z
                      | FlsFreeCall k => if existsb (N.eqb k) (keys m) then 1%Z else 0%Z
                      | FlsSetCall k _ => if (e =? 0) && existsb (N.eqb k) (keys m) then 1%Z else 0%Z
                      | FlsGetCall k => Z.of_N (if existsb (N.eqb k) (keys m) then values m k f else 0)
                      | _ => 0%Z
                      end)
            (fun _ => if e =? 0 then ERROR_INVALID_PARAMETER else e) 4096 65536 (fun _ => 0) 0 (fun _ => None).
(** What a call does to the storage; the system's answer decides. *)
Definition fls_effect_of (f k e : N) (m : tls) (c : wcall) : tls :=
  let r := wanswer (fls_system m f k e) c in
  match c with
  | FlsAllocCall _ =>
      if (r =? 4294967295)%Z then m
      else mktls (Z.to_N r :: keys m) (fun k' u => if k' =? Z.to_N r then 0 else values m k' u)
  | FlsFreeCall k' => if (r =? 0)%Z then m else mktls (remove N.eq_dec k' (keys m)) (values m)
  | FlsSetCall k' d => if (r =? 0)%Z then m
                       else mktls (keys m) (fun k2 u => if (k2 =? k') && (u =? f) then d else values m k2 u)
  | _ => m
  end.
Definition fls_effects (f k e : N) (m : tls) (cs : list wcall) : tls := fold_left (fls_effect_of f k e) cs m.
(** One call of fiber [f]: status, value stored through the out-pointer (if any) and the new state. *)
Definition fls_step (m : tls) (f : N) (c : tlscall) : status * option N * tls :=
  match c with
  | TAlloc k e =>
      let '(st, i, cs) := win_tls_alloc 0 0 (fls_system m f k e) in
      (st, if st_success st then Some i else None, fls_effects f k e m cs)
  | TFree k => let '(st, cs) := win_tls_free k (fls_system m f 0 0) in (st, None, fls_effects f 0 0 m cs)
  | TSet k d e => let '(st, cs) := win_tls_set_value k d (fls_system m f 0 e) in (st, None, fls_effects f 0 e m cs)
  | TGet k => let '(st, d, cs) := win_tls_get_value k (fls_system m f 0 0) in (st, Some d, fls_effects f 0 0 m cs)
  end.
Fixpoint fls_run (m : tls) (cs : list (N * tlscall)) : tls * list tlsevent :=
  match cs with
  | [] => (m, [])
  | (f, c) :: cs =>
      let '(st, r, m1) := fls_step m f c in
      let '(m2, tr) := fls_run m1 cs in (m2, (f, c, st, r) :: tr)
  end.

(** ** Critical sections
    CRITICAL_SECTION as a transition system: recursive, owned by a thread; its recursion count is unbounded here.
    LeaveCriticalSection by a thread that is not the owner has no defined effect. *)
Inductive wstep (A : Type) := WBlock | WUndefined | WDone (x : A).
Arguments WBlock {A}. Arguments WUndefined {A}. Arguments WDone {A}.
Definition section_enter (t : N) (m : mutex) : wstep mutex :=
  match owner m with
  | None => WDone (mkmutex true (Some t) 1)
  | Some o => if o =? t then WDone (mkmutex true (Some t) (depth m + 1)) else WBlock
  end.
Definition section_try_enter (t : N) (m : mutex) : bool * mutex :=
  match owner m with
  | None => (true, mkmutex true (Some t) 1)
  | Some o => if o =? t then (true, mkmutex true (Some t) (depth m + 1)) else (false, m)
  end.
Definition section_leave (t : N) (m : mutex) : wstep mutex :=
  match owner m with
  | None => WUndefined
  | Some o => if negb (o =? t) then WUndefined
              else if depth m =? 1 then WDone (mkmutex true None 0)
              else WDone (mkmutex true (Some t) (depth m - 1))
  end.
(** ZyanCriticalSectionInitialize, Synchronization.c:163-168. *)
Definition win_cs_init : status * mutex := (ST_SUCCESS, mkmutex true None 0).
(** ZyanCriticalSectionEnter, Synchronization.c:170-175. *)
Definition win_cs_enter (t : N) (m : mutex) : wstep (csresult * mutex) :=
  match section_enter t m with
  | WDone m' => WDone (RStatus ST_SUCCESS, m')
  | WBlock => WBlock
  | WUndefined => WUndefined
  end.
(** ZyanCriticalSectionTryEnter, Synchronization.c:177-180. *)
Definition win_cs_try_enter (t : N) (m : mutex) : wstep (csresult * mutex) :=
  let '(r, m') := section_try_enter t m in WDone (RBool (if r then true else false), m').
(** ZyanCriticalSectionLeave, Synchronization.c:182-187. *)
Definition win_cs_leave (t : N) (m : mutex) : wstep (csresult * mutex) :=
  match section_leave t m with
  | WDone m' => WDone (RStatus ST_SUCCESS, m')
  | WBlock => WBlock
  | WUndefined => WUndefined
  end.
Definition win_cs_step (t : N) (c : cscall) (m : mutex) : wstep (csresult * mutex) :=
  match c with
  | Enter => win_cs_enter t m
  | TryEnter => win_cs_try_enter t m
  | Leave => win_cs_leave t m
  end.
(** Blocked calls produce no event; [None]: a call with no defined effect was made. *)
Fixpoint win_cs_run (schedule : list (N * cscall)) (m : mutex) (trace : list event) : option (mutex * list event) :=
  match schedule with
  | [] => Some (m, trace)
  | (t, c) :: schedule =>
      match win_cs_step t c m with
      | WBlock => win_cs_run schedule m trace
      | WUndefined => None
      | WDone (r, m') => win_cs_run schedule m' (trace ++ [(t, c, r)])
      end
  end.

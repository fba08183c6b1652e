(** C95: every error of the system is reported as the status that the table for its call says. *)
From Verif Require Import Base Status SyncModel SyncSpec ApiModel ApiSpec WinModel WinSpec CodesSpec CodesProofs.

Theorem c95_critical_sections :
  forall e, cs_enter e = reported enter_codes ST_BAD_SYSTEMCALL (Z.of_N e) /\
    cs_leave e = reported leave_codes ST_BAD_SYSTEMCALL (Z.of_N e) /\
    cs_delete e = reported delete_codes ST_BAD_SYSTEMCALL (Z.of_N e) /\
    cs_try_enter e = (e =? 0).
Proof. exact section_codes. Qed.
Print Assumptions c95_critical_sections.
Example c95_critical_sections_met :
  map cs_enter [0; 22; 11; 5] = [ST_SUCCESS; ST_INVALID_ARGUMENT; ST_INVALID_OPERATION; ST_BAD_SYSTEMCALL] /\
  map (reported enter_codes ST_BAD_SYSTEMCALL) [0; 22; 11; 5]%Z =
    [ST_SUCCESS; ST_INVALID_ARGUMENT; ST_INVALID_OPERATION; ST_BAD_SYSTEMCALL].
Proof. now vm_compute. Qed.
(** Initialize: the error of pthread_mutexattr_init comes first; the section is set up iff both calls succeed. *)
Theorem c95_initialize :
  forall a t i,
    fst (cs_init a t i) =
      (if a =? 0 then reported mutex_codes ST_BAD_SYSTEMCALL (Z.of_N i)
       else reported attribute_codes ST_BAD_SYSTEMCALL (Z.of_N a)) /\
    (snd (cs_init a t i) = None <-> a <> 0 \/ i <> 0).
Proof. exact init_codes. Qed.
Print Assumptions c95_initialize.
Theorem c95_posix :
  forall s,
    (forall a n p, fst (virtual_protect a n p s) = reported plain_codes ST_BAD_SYSTEMCALL (answer s (Mprotect a n (prot_value p)))) /\
    (forall a n, fst (virtual_free a n s) = reported plain_codes ST_BAD_SYSTEMCALL (answer s (Munmap a n))) /\
    (forall a n, fst (flush_instruction_cache a n s) = reported plain_codes ST_BAD_SYSTEMCALL (answer s (Msync a n 6))) /\
    (forall old d, fst (fst (tls_alloc old d s)) = reported key_codes ST_BAD_SYSTEMCALL (answer s (Key_create d))) /\
    (forall k, fst (tls_free k s) = reported plain_codes ST_BAD_SYSTEMCALL (answer s (Key_delete k))) /\
    (forall k d, fst (tls_set_value k d s) = reported store_codes ST_BAD_SYSTEMCALL (answer s (Setspecific k d))).
Proof. exact posix_codes. Qed.
Print Assumptions c95_posix.
Theorem c95_windows :
  forall s,
    (forall a n p, fst (win_virtual_protect a n p s) =
       reported failure_codes ST_SUCCESS (wanswer s (VirtualProtectCall a n (win_prot_value p)))) /\
    (forall a n, fst (win_virtual_free a n s) = reported failure_codes ST_SUCCESS (wanswer s (VirtualFreeCall a 0 32768))) /\
    (forall a n, fst (win_flush a n s) = reported failure_codes ST_SUCCESS (wanswer s (FlushCall a n))) /\
    (forall k, fst (win_tls_free k s) = reported failure_codes ST_SUCCESS (wanswer s (FlsFreeCall k))) /\
    (forall k d, fst (win_tls_set_value k d s) =
       if (wanswer s (FlsSetCall k d) =? 0)%Z
       then reported [(87%Z, ST_INVALID_ARGUMENT)] ST_BAD_SYSTEMCALL (Z.of_N (wlast_error s (FlsSetCall k d)))
       else ST_SUCCESS).
Proof. exact windows_codes. Qed.
Print Assumptions c95_windows.
(** EnableVT100 on Windows: INVALID_ARGUMENT for a stream that is no console, BAD_SYSTEMCALL if only the last call failed. *)
Theorem c95_enable_vt100 :
  forall stream s,
    let fd := wanswer s (FilenoCall stream) in let h := wanswer s (OsfhandleCall fd) in
    fst (win_enable_vt100 stream s) =
    if (stream =? 1) || (stream =? 2) then
      if (fd <? 0)%Z || (h =? -1)%Z || (wanswer s (GetConsoleModeCall h) =? 0)%Z then ST_INVALID_ARGUMENT
      else reported failure_codes ST_SUCCESS (wanswer s (SetConsoleModeCall h (N.lor (console_mode s h) 4)))
    else ST_INVALID_ARGUMENT.
Proof. exact vt100_codes. Qed.
Print Assumptions c95_enable_vt100.

(** Thread-local storage, after any history of calls of any threads. *)
Theorem c95_tls_posix :
  forall cs m tr t c, tls_run no_tls cs = (m, tr) -> fst (fst (tls_step m t c)) = tls_status tr c.
Proof. exact tls_codes. Qed.
Print Assumptions c95_tls_posix.
Theorem c95_tls_index_posix :
  forall cs m tr t k e, tls_run no_tls cs = (m, tr) ->
    snd (fst (tls_step m t (TAlloc k e))) = if e =? 0 then Some k else None.
Proof. exact tls_index. Qed.
Print Assumptions c95_tls_index_posix.
Theorem c95_tls_windows :
  forall cs m tr f c, fls_run no_tls cs = (m, tr) -> fst (fst (fls_step m f c)) = fls_status tr c.
Proof. exact fls_codes. Qed.
Print Assumptions c95_tls_windows.
Theorem c95_tls_index_windows :
  forall cs m tr f k e, fls_run no_tls cs = (m, tr) -> k < 4294967295 ->
    snd (fst (fls_step m f (TAlloc k e))) = if e =? 0 then Some k else None.
Proof. exact fls_index. Qed.
Print Assumptions c95_tls_index_windows.
Example c95_tls_met :
  let cs := [(0, TAlloc 5 0); (0, TSet 5 11 0); (1, TSet 5 22 0); (1, TAlloc 7 0); (1, TFree 7)] in
  let calls := [TSet 5 1 0; TSet 5 1 12; TSet 7 1 0; TFree 5; TFree 7; TAlloc 9 11; TGet 7] in
  let '(m, tr) := tls_run no_tls cs in
  map (fun c => fst (fst (tls_step m 2 c))) calls =
    [ST_SUCCESS; ST_BAD_SYSTEMCALL; ST_INVALID_ARGUMENT; ST_SUCCESS; ST_BAD_SYSTEMCALL; ST_OUT_OF_RESOURCES; ST_SUCCESS] /\
  let '(m, tr) := fls_run no_tls cs in
  map (fun c => fst (fst (fls_step m 2 c))) calls =
    [ST_SUCCESS; ST_BAD_SYSTEMCALL; ST_INVALID_ARGUMENT; ST_SUCCESS; ST_BAD_SYSTEMCALL; ST_OUT_OF_RESOURCES; ST_SUCCESS].
Proof. now vm_compute. Qed.

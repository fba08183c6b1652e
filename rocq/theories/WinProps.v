(** The properties of the Windows branches, and of the pages behind the memory calls. *)
From Verif Require Import Base Status SyncModel SyncSpec ApiModel ApiSpec WinModel PagesModel WinSpec WinProofs.

(** ** C67: critical sections on Windows *)
(** As long as no thread leaves a section it is not in: whenever a thread enters, no other thread is inside. *)
Theorem c67_mutual_exclusion :
  forall schedule m trace, win_cs_run schedule fresh_section [] = Some (m, trace) ->
    forall a t c r b, trace = a ++ (t, c, r) :: b ->
      (entered (t, c, r) = true -> forall u, u <> t -> holds u a = 0%Z) /\
      (left (t, c, r) = true -> (0 < holds t a)%Z).
Proof. exact win_mutual_exclusion. Qed.
Print Assumptions c67_mutual_exclusion.
Theorem c67_one_holder :
  forall schedule m trace, win_cs_run schedule fresh_section [] = Some (m, trace) ->
    forall t u, (0 < holds t trace)%Z -> u <> t -> holds u trace = 0%Z.
Proof. exact win_one_holder. Qed.
Print Assumptions c67_one_holder.
Theorem c67_recursive :
  forall schedule m trace t, win_cs_run schedule fresh_section [] = Some (m, trace) ->
    (forall u, u <> t -> holds u trace = 0%Z) ->
    (exists m', win_cs_step t Enter m = WDone (RStatus ST_SUCCESS, m')) /\
    (exists m', win_cs_step t TryEnter m = WDone (RBool true, m')).
Proof. exact win_enters_again. Qed.
Print Assumptions c67_recursive.
Theorem c67_others_wait :
  forall schedule m trace t u, win_cs_run schedule fresh_section [] = Some (m, trace) ->
    (0 < holds t trace)%Z -> u <> t ->
    win_cs_step u Enter m = WBlock /\ win_cs_step u TryEnter m = WDone (RBool false, m) /\
    exists m', win_cs_step t Leave m = WDone (RStatus ST_SUCCESS, m').
Proof. exact win_others_wait. Qed.
Print Assumptions c67_others_wait.
(** Every Leave of a thread that is not inside is handed to the system, where it has no defined effect; no other
    call is undefined. *)
Theorem c67_leave_refuted :
  forall schedule m trace t c, win_cs_run schedule fresh_section [] = Some (m, trace) ->
    (win_cs_step t c m = WUndefined <-> c = Leave /\ (holds t trace <= 0)%Z).
Proof. exact win_undefined. Qed.
Print Assumptions c67_leave_refuted.
Theorem c67_initialize : win_cs_init = (ST_SUCCESS, fresh_section).
Proof. exact eq_refl. Qed.
Print Assumptions c67_initialize.
Example c67_met :
  win_cs_run [(0,Enter);(1,TryEnter);(0,Enter);(1,Enter);(0,Leave);(0,Leave);(1,TryEnter)] fresh_section [] =
  Some (mkmutex true (Some 1) 1,
   [(0,Enter,RStatus ST_SUCCESS);(1,TryEnter,RBool false);(0,Enter,RStatus ST_SUCCESS);
    (0,Leave,RStatus ST_SUCCESS);(0,Leave,RStatus ST_SUCCESS);(1,TryEnter,RBool true)]).
Proof. reflexivity. Qed.

(** ** C68: thread-local storage on Windows *)
(** A fiber reads under an index in use the value it stored there last, or NULL. *)
Theorem c68_fiber_local :
  forall cs m tr k f, fls_run no_tls cs = (m, tr) ->
    (forall u k' d e, In (u, TSet k' d e) cs -> d < W64) ->
    key_live k tr false = true ->
    fls_step m f (TGet k) = (ST_SUCCESS, Some (tls_last k f tr 0), m).
Proof. exact fls_get_last. Qed.
Print Assumptions c68_fiber_local.
(** It is not the value the thread stored last if the thread has switched fibers: fibers 1 and 2 of one thread. *)
Theorem c68_thread_local_refuted :
  exists (thread_of : N -> N) cs m tr k f, thread_of 1 = thread_of 2 /\
    fls_run no_tls cs = (m, tr) /\ key_live k tr false = true /\
    fls_step m f (TGet k) = (ST_SUCCESS, Some 0, m) /\
    tls_last k (thread_of f) (map (fun '(u, c, st, r) => (thread_of u, c, st, r)) tr) 0 = 7.
Proof.
  eexists (fun _ => 9), [(1, TAlloc 5 0); (1, TSet 5 7 0)], _, _, 5, 2.
  split; [reflexivity|]. split; [vm_compute; reflexivity|]. repeat split.
Qed.
Print Assumptions c68_thread_local_refuted.
Example c68_met :
  let cs := [(0, TAlloc 5 0); (0, TSet 5 11 0); (1, TSet 5 22 0); (1, TSet 5 33 8); (2, TSet 6 1 0); (2, TAlloc 6 8)] in
  let '(m, tr) := fls_run no_tls cs in
  key_live 5 tr false = true /\ key_live 6 tr false = false /\
  tls_last 5 0 tr 0 = 11 /\ tls_last 5 1 tr 0 = 22 /\ tls_last 5 2 tr 0 = 0 /\
  map (fun e => snd (fst e)) tr =
    [ST_SUCCESS; ST_SUCCESS; ST_SUCCESS; ST_BAD_SYSTEMCALL; ST_INVALID_ARGUMENT; ST_OUT_OF_RESOURCES].
Proof. now vm_compute. Qed.

(** ** C69: VirtualFree releases the pages of the range and no others *)
Theorem c69_posix :
  forall a n s m st m', page m <> 0 -> posix_free a n s m = (st, m') ->
    if st_success st then pages_became m a n None m' else m' = m.
Proof. exact posix_free_ok. Qed.
Print Assumptions c69_posix.
(** On Windows if the range is a whole reservation. *)
Theorem c69_windows_partial :
  forall a n s m st m', page m <> 0 -> reservation m a = Some n -> windows_free a n s m = (st, m') ->
    if st_success st then pages_became m a n None m' else m' = m.
Proof. exact (fun a n => windows_free_ok a n n). Qed.
Print Assumptions c69_windows_partial.
(** Whatever size is given, all of the reservation is released. *)
Theorem c69_windows_refuted :
  forall a n r s m st m' x, page m <> 0 -> reservation m a = Some r ->
    windows_free a n s m = (st, m') -> st_success st = true ->
    a <= x < a + r -> rights_of m' (x / page m) = None.
Proof. exact windows_free_too_much. Qed.
Print Assumptions c69_windows_refuted.
Example c69_met :
  let m := mkpages 4096 (fun q => if q <? 32 then Some (mkrights true true false) else None)
             (fun a => if a =? 65536 then Some 65536 else None) in
  let s := mksystem (fun _ => 0%Z) (fun _ => 0) 0 (fun _ => None) in
  let w := mkwsystem (fun _ => 1%Z) (fun _ => 0) 4096 65536 (fun _ => 0) 0 (fun _ => None) in
  let look m := map (rights_of m) [15; 16; 17; 31] in
  let rw := Some (mkrights true true false) in
  look (snd (posix_free 65536 4096 s m)) = [rw; None; rw; rw] /\
  fst (windows_free 65536 65536 w m) = ST_SUCCESS /\
  look (snd (windows_free 65536 65536 w m)) = [rw; None; None; None] /\
  look (snd (windows_free 65536 4096 w m)) = [rw; None; None; None].
Proof. now vm_compute. Qed.

(** ** C70: VirtualProtect gives the pages of the range the named rights and leaves all others alone *)
Theorem c70_posix :
  forall a n p s m st m', page m <> 0 -> posix_protect a n p s m = (st, m') ->
    if st_success st then pages_became m a n (Some (named_rights p)) m' else m' = m.
Proof. exact posix_protect_ok. Qed.
Print Assumptions c70_posix.
Theorem c70_windows :
  forall a n p s m st m', page m <> 0 -> windows_protect a n p s m = (st, m') ->
    if st_success st then pages_became m a n (Some (named_rights p)) m' else m' = m.
Proof. exact windows_protect_ok. Qed.
Print Assumptions c70_windows.
Example c70_met :
  let rw := Some (mkrights true true false) in
  let m := mkpages 4096 (fun q => rw) (fun _ => None) in
  let s := mksystem (fun _ => 0%Z) (fun _ => 0) 0 (fun _ => None) in
  let w := mkwsystem (fun _ => 1%Z) (fun _ => 0) 4096 65536 (fun _ => 0) 0 (fun _ => None) in
  let look m := map (rights_of m) [0; 1; 2; 3] in
  look (snd (posix_protect 4096 4097 ExecuteRead s m)) = [rw; Some (mkrights true false true); Some (mkrights true false true); rw] /\
  look (snd (windows_protect 5000 10 ReadOnly w m)) = [rw; Some (mkrights true false false); rw; rw].
Proof. now vm_compute. Qed.

(** ** C71: the other Windows wrappers *)
Theorem c71_flush_instruction_cache :
  forall a n s, exists st, win_flush a n s = (st, [FlushCall a n]) /\
    (st_success st = true <-> wanswer s (FlushCall a n) <> 0%Z).
Proof. exact win_flush_ok. Qed.
Print Assumptions c71_flush_instruction_cache.
Theorem c71_system_sizes :
  forall s, win_page_size s = dw_page_size s /\ win_allocation_granularity s = dw_granularity s.
Proof. exact win_sizes_ok. Qed.
Print Assumptions c71_system_sizes.
Theorem c71_current_thread :
  forall s, (0 <= wanswer s ThreadIdCall < 2 ^ 32)%Z -> (0 <= wanswer s ThreadCall < 2 ^ 64)%Z ->
    exists h i, win_current_thread s = (ST_SUCCESS, h) /\ win_current_thread_id s = (ST_SUCCESS, i) /\
      Z.of_N h = wanswer s ThreadCall /\ Z.of_N i = wanswer s ThreadIdCall.
Proof. exact win_thread_ok. Qed.
Print Assumptions c71_current_thread.
Theorem c71_tls_alloc :
  forall old d s, (0 <= wanswer s (FlsAllocCall d) < 2 ^ 32)%Z ->
    (wanswer s (FlsAllocCall d) = 4294967295%Z -> win_tls_alloc old d s = (ST_OUT_OF_RESOURCES, old, [FlsAllocCall d])) /\
    (wanswer s (FlsAllocCall d) <> 4294967295%Z ->
       win_tls_alloc old d s = (ST_SUCCESS, Z.to_N (wanswer s (FlsAllocCall d)), [FlsAllocCall d])).
Proof. exact win_tls_alloc_ok. Qed.
Print Assumptions c71_tls_alloc.
Theorem c71_tls_free :
  forall i s, snd (win_tls_free i s) = [FlsFreeCall i] /\
    (st_success (fst (win_tls_free i s)) = true <-> wanswer s (FlsFreeCall i) <> 0%Z).
Proof. exact win_tls_free_ok. Qed.
Print Assumptions c71_tls_free.
Theorem c71_tls_set_value :
  forall i d s, snd (win_tls_set_value i d s) = [FlsSetCall i d] /\
    (st_success (fst (win_tls_set_value i d s)) = true <-> wanswer s (FlsSetCall i d) <> 0%Z) /\
    (wanswer s (FlsSetCall i d) = 0%Z -> wlast_error s (FlsSetCall i d) = 87 ->
       fst (win_tls_set_value i d s) = ST_INVALID_ARGUMENT).
Proof. exact win_tls_set_ok. Qed.
Print Assumptions c71_tls_set_value.
(** EnableVT100 succeeds iff every step does; the console mode it sets is the old one plus bit 2. *)
Theorem c71_enable_vt100 :
  forall stream s, let r := win_enable_vt100 stream s in
    let fd := wanswer s (FilenoCall stream) in let h := wanswer s (OsfhandleCall fd) in
    (st_success (fst r) = true <->
       (stream = 1 \/ stream = 2) /\ (0 <= fd)%Z /\ h <> (-1)%Z /\ wanswer s (GetConsoleModeCall h) <> 0%Z /\
       exists m, In (SetConsoleModeCall h m) (snd r) /\ wanswer s (SetConsoleModeCall h m) <> 0%Z) /\
    (forall h' m, In (SetConsoleModeCall h' m) (snd r) ->
       h' = h /\ forall i, N.testbit m i = N.testbit (console_mode s h) i || (i =? 2)).
Proof. exact win_vt100_ok. Qed.
Print Assumptions c71_enable_vt100.
(** IsTTY, if _isatty sets errno when it returns 0. *)
Theorem c71_is_tty_partial :
  forall stream s, stream <= 2 -> let fd := wanswer s (FilenoCall stream) in
    ((fd < 0)%Z -> win_is_tty stream s = Some ST_INVALID_ARGUMENT) /\
    ((0 <= fd)%Z -> wanswer s (IsattyCall fd) <> 0%Z -> win_is_tty stream s = Some ST_TRUE) /\
    ((0 <= fd)%Z -> wanswer s (IsattyCall fd) = 0%Z -> forall e, errno_set s (IsattyCall fd) = Some e ->
       win_is_tty stream s = Some (if e =? 9 then ST_INVALID_ARGUMENT else ST_FALSE)).
Proof. exact win_is_tty_ok. Qed.
Print Assumptions c71_is_tty_partial.
(** If it does not, an EBADF left over from an earlier call makes IsTTY reject a stream that is no terminal. *)
Theorem c71_is_tty_stale_errno_refuted :
  forall stream s, stream <= 2 -> let fd := wanswer s (FilenoCall stream) in
    (0 <= fd)%Z -> wanswer s (IsattyCall fd) = 0%Z -> errno_set s (IsattyCall fd) = None ->
    errno_set s (FilenoCall stream) = None -> errno_before s = 9 ->
    win_is_tty stream s = Some ST_INVALID_ARGUMENT.
Proof. exact win_is_tty_stale. Qed.
Print Assumptions c71_is_tty_stale_errno_refuted.
Theorem c71_is_tty_refuted : forall stream s, 2 < stream -> win_is_tty stream s = None.
Proof. exact win_is_tty_unknown. Qed.
Print Assumptions c71_is_tty_refuted.
Example c71_met :
  let s e := mkwsystem (fun c => match c with FilenoCall n => Z.of_N n | OsfhandleCall f => (f + 100)%Z
                                 | IsattyCall _ => 0%Z | FlsAllocCall _ => 3%Z | _ => 1%Z end)
             (fun _ => 0) 4096 65536 (fun _ => 3) 9 (fun _ => e) in
  win_enable_vt100 1 (s None) = (ST_SUCCESS, [FilenoCall 1; OsfhandleCall 1; GetConsoleModeCall 101; SetConsoleModeCall 101 7]) /\
  win_is_tty 0 (s (Some 25)) = Some ST_FALSE /\ win_is_tty 0 (s None) = Some ST_INVALID_ARGUMENT /\
  win_tls_alloc 99 0 (s None) = (ST_SUCCESS, 3, [FlsAllocCall 0]).
Proof. now vm_compute. Qed.

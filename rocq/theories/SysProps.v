(** Properties C49-C52 and C55: atomics, critical sections, system wrappers, the default allocator, thread-local
    storage. *)
From Verif Require Import Base Status Mem AtomicModel AtomicSpec AtomicProofs SyncModel SyncSpec SyncProofs
  ApiModel ApiSpec ApiProofs AllocatorModel AllocatorProofs.

(** ** C49: atomics *)
(** For any number of threads, programs and schedules: there is a sequential history of all calls made so far that
    explains every result and the contents of the cell. *)
Theorem c49_linearizable :
  forall w x0 programs schedule, x0 < 2 ^ w ->
    (forall j c, In c (programs j) -> cas_fits w c) ->
    exists h, let m := mrun w (start x0 programs) schedule in
      seq_history w x0 h (cell m) /\ cell m < 2 ^ w /\
      (forall i, of_thread i h = made w (threads m i)) /\
      (forall i, programs i = map fst (made w (threads m i)) ++ todo (threads m i)).
Proof. exact linearizable. Qed.
Print Assumptions c49_linearizable.
(** The history respects real time: calls made by a moment come before the calls made later. *)
Theorem c49_real_time :
  forall w x0 programs s1 s2, x0 < 2 ^ w ->
    (forall j c, In c (programs j) -> cas_fits w c) ->
    exists h k, let m1 := mrun w (start x0 programs) s1 in let m2 := mrun w (start x0 programs) (s1 ++ s2) in
      seq_history w x0 h (cell m1) /\ seq_history w x0 (h ++ k) (cell m2) /\
      (forall i, of_thread i h = made w (threads m1 i)) /\
      (forall i, of_thread i (h ++ k) = made w (threads m2 i)) /\
      (forall i, programs i = map fst (made w (threads m2 i)) ++ todo (threads m2 i)).
Proof. exact linearizable_prefix. Qed.
Print Assumptions c49_real_time.
(** No update is lost: the cell is the initial value plus increments minus decrements, modulo the width. *)
Theorem c49_no_lost_update :
  forall w x0 programs schedule, x0 < 2 ^ w -> (forall i, only_count (programs i)) ->
    exists h, let m := mrun w (start x0 programs) schedule in
      (forall i, of_thread i h = made w (threads m i)) /\
      (forall i, programs i = map fst (made w (threads m i)) ++ todo (threads m i)) /\
      cell m < 2 ^ w /\
      (exists q, Z.of_N (cell m) = Z.of_N x0 + balance h + q * 2 ^ Z.of_N w)%Z.
Proof. exact counters. Qed.
Print Assumptions c49_no_lost_update.
(** Counting up: the n-th increment returns the n-th value. *)
Theorem c49_increments :
  forall w x0 programs schedule, x0 < 2 ^ w ->
    (forall i c, In c (programs i) -> c = Increment) ->
    exists h, let m := mrun w (start x0 programs) schedule in
      (forall i, of_thread i h = made w (threads m i)) /\
      cell m = (x0 + nlen h) mod 2 ^ w /\
      forall a i r b, h = a ++ (i, (Increment, r)) :: b -> r = (x0 + nlen a + 1) mod 2 ^ w.
Proof. exact increments_counted. Qed.
Print Assumptions c49_increments.

Example c49_met : (5 < 2 ^ 32) /\ (forall j c, In c (two_threads j) -> cas_fits 32 c) /\
  let m := mrun 32 (start 5 two_threads) [0;1;1;0;0;0;1;1] in
  cell m = 2 /\ done (threads m 0) = [(Increment, 6); (CompareExchange 7 3, 7)] /\
  done (threads m 1) = [(Increment, 7); (Decrement, 2)].
Proof.
  split; [reflexivity|]. split; [|now vm_compute].
  intros j c. unfold two_threads. destruct (j =? 0); [|destruct (j =? 1)]; cbn [In].
  - intros [<-|[<-|[]]]; [exact I|reflexivity].
  - intros [<-|[<-|[]]]; exact I.
  - intros [].
Qed.

(** ** C50: critical sections *)
(** Whenever a thread enters, no other thread is inside; whoever leaves was inside. *)
Theorem c50_mutual_exclusion :
  forall max_depth schedule m trace, cs_run max_depth schedule fresh_section [] = (m, trace) ->
    forall a t c r b, trace = a ++ (t, c, r) :: b ->
      (entered (t, c, r) = true -> forall u, u <> t -> holds u a = 0%Z) /\
      (left (t, c, r) = true -> (0 < holds t a)%Z).
Proof. exact mutual_exclusion. Qed.
Print Assumptions c50_mutual_exclusion.
Theorem c50_one_holder :
  forall max_depth schedule m trace, cs_run max_depth schedule fresh_section [] = (m, trace) ->
    forall t u, (0 < holds t trace)%Z -> u <> t -> holds u trace = 0%Z.
Proof. exact one_holder. Qed.
Print Assumptions c50_one_holder.
(** The section is free for a thread if no other thread is inside, also when it is inside itself (up to the
    system's limit on recursion). *)
Theorem c50_recursive :
  forall max_depth schedule m trace t, cs_run max_depth schedule fresh_section [] = (m, trace) -> 1 <= max_depth ->
    (forall u, u <> t -> holds u trace = 0%Z) -> (holds t trace < Z.of_N max_depth)%Z ->
    (exists m', cs_step max_depth t Enter 0 m = Some (RStatus ST_SUCCESS, m')) /\
    (exists m', cs_step max_depth t TryEnter 0 m = Some (RBool true, m')).
Proof. exact enters_again. Qed.
Print Assumptions c50_recursive.
(** While a thread is inside, others block in Enter, fail in TryEnter and are refused by Leave; it can leave. *)
Theorem c50_others_wait :
  forall max_depth schedule m trace t u, cs_run max_depth schedule fresh_section [] = (m, trace) ->
    (0 < holds t trace)%Z -> u <> t ->
    cs_step max_depth u Enter 0 m = None /\ cs_step max_depth u TryEnter 0 m = Some (RBool false, m) /\
    cs_step max_depth u Leave 0 m = Some (RStatus ST_INVALID_OPERATION, m) /\
    exists m', cs_step max_depth t Leave 0 m = Some (RStatus ST_SUCCESS, m').
Proof. exact others_wait. Qed.
Print Assumptions c50_others_wait.
Example c50_holder_met : exists m trace,
  cs_run 10 [(0,Enter,0);(1,TryEnter,0);(0,Enter,0);(1,Enter,0)] fresh_section [] = (m, trace) /\ 1 <= 10 /\
  (holds 0 trace = 2)%Z /\ (forall u, u <> 0 -> holds u trace = 0%Z).
Proof.
  eexists _, _. split; [vm_compute; reflexivity|]. split; [lia|]. split; [reflexivity|].
  intros u NE. cbn. destruct (N.eqb_spec 0 u); [congruence|]. destruct (1 =? u); reflexivity.
Qed.
(** At the system's limit on recursion the owner is refused and keeps the section. *)
Theorem c50_too_deep :
  forall max_depth schedule m trace t, cs_run max_depth schedule fresh_section [] = (m, trace) -> 1 <= max_depth ->
    holds t trace = Z.of_N max_depth ->
    cs_step max_depth t Enter 0 m = Some (RStatus ST_INVALID_OPERATION, m) /\
    cs_step max_depth t TryEnter 0 m = Some (RBool false, m).
Proof. exact too_deep. Qed.
Print Assumptions c50_too_deep.
(** Delete succeeds when nobody is inside and is refused when somebody is (the mutex reports that it is busy, as
    glibc does). *)
Theorem c50_delete :
  forall max_depth schedule m trace, cs_run max_depth schedule fresh_section [] = (m, trace) ->
    ((forall t, holds t trace = 0%Z) -> cs_delete (mutex_destroy m) = ST_SUCCESS) /\
    (forall t, (0 < holds t trace)%Z -> cs_delete (mutex_destroy m) = ST_INVALID_ARGUMENT).
Proof. exact delete_section. Qed.
Print Assumptions c50_delete.
Example c50_too_deep_met : exists m trace,
  cs_run 2 [(0,Enter,0);(1,TryEnter,0);(0,Enter,0);(1,Enter,0)] fresh_section [] = (m, trace) /\ 1 <= 2 /\
  holds 0 trace = Z.of_N 2.
Proof. eexists _, _. split; [vm_compute; reflexivity|]. split; [lia|reflexivity]. Qed.
Example c50_delete_met : exists m trace,
  cs_run 2 [(0,Enter,0);(0,Leave,0)] fresh_section [] = (m, trace) /\ (forall t, holds t trace = 0%Z).
Proof.
  eexists _, _. split; [vm_compute; reflexivity|]. intros t. cbn. destruct t; reflexivity.
Qed.
(** Errors of the mutex calls are reported. *)
Theorem c50_enter_error : forall e, e <> 0 -> st_success (cs_enter e) = false.
Proof. exact enter_errors. Qed.
Print Assumptions c50_enter_error.
Theorem c50_leave_error : forall e, e <> 0 -> st_success (cs_leave e) = false.
Proof. exact leave_errors. Qed.
Print Assumptions c50_leave_error.
Theorem c50_try_enter_error : forall e, e <> 0 -> cs_try_enter e = false.
Proof. exact try_errors. Qed.
Print Assumptions c50_try_enter_error.
Theorem c50_delete_error : forall e, e <> 0 -> st_success (cs_delete e) = false.
Proof. exact delete_errors. Qed.
Print Assumptions c50_delete_error.
Theorem c50_initialize_error : forall a t i, (a <> 0 \/ i <> 0) ->
  st_success (fst (cs_init a t i)) = false /\ snd (cs_init a t i) = None.
Proof. exact init_errors. Qed.
Print Assumptions c50_initialize_error.
Theorem c50_initialize : cs_init 0 0 0 = (ST_SUCCESS, Some fresh_section).
Proof. exact init_success. Qed.
Print Assumptions c50_initialize.
(** Initialize does not look at the result of pthread_mutexattr_settype: if that call fails, Initialize reports
    success but the owner blocks for ever when it enters again. *)
Theorem c50_recursive_refuted :
  forall e max_depth t, e <> 0 ->
    exists m m1, cs_init 0 e 0 = (ST_SUCCESS, Some m) /\
      cs_step max_depth t Enter 0 m = Some (RStatus ST_SUCCESS, m1) /\
      cs_step max_depth t Enter 0 m1 = None /\ cs_step max_depth t TryEnter 0 m1 = Some (RBool false, m1).
Proof. exact not_recursive. Qed.
Print Assumptions c50_recursive_refuted.
Example c50_met :
  cs_run 10 [(0,Enter,0);(1,TryEnter,0);(0,Enter,0);(1,Enter,0);(0,Leave,0);(0,Leave,0);(1,TryEnter,0);(1,Leave,EINVAL)]
    fresh_section [] =
  (mkmutex true (Some 1) 1,
   [(0,Enter,RStatus ST_SUCCESS);(1,TryEnter,RBool false);(0,Enter,RStatus ST_SUCCESS);
    (0,Leave,RStatus ST_SUCCESS);(0,Leave,RStatus ST_SUCCESS);(1,TryEnter,RBool true);
    (1,Leave,RStatus ST_INVALID_ARGUMENT)]).
Proof. reflexivity. Qed.

(** ** C51: system wrappers *)
(** One system call with the caller's arguments; success iff it succeeded. *)
Theorem c51_virtual_protect :
  forall a n p s, exists st, virtual_protect a n p s = (st, [Mprotect a n (prot_value p)]) /\
    (st = ST_SUCCESS <-> answer s (Mprotect a n (prot_value p)) = 0%Z) /\
    (st_success st = true <-> answer s (Mprotect a n (prot_value p)) = 0%Z).
Proof. exact virtual_protect_ok. Qed.
Print Assumptions c51_virtual_protect.
Theorem c51_protection_bits :
  forall p,
    N.testbit (prot_value p) 0 = match p with Execute => false | _ => true end /\
    N.testbit (prot_value p) 1 = match p with ReadWrite | ExecuteReadWrite => true | _ => false end /\
    N.testbit (prot_value p) 2 = match p with Execute | ExecuteRead | ExecuteReadWrite => true | _ => false end /\
    prot_value p < 8.
Proof. exact prot_bits. Qed.
Print Assumptions c51_protection_bits.
Theorem c51_virtual_free :
  forall a n s, exists st, virtual_free a n s = (st, [Munmap a n]) /\
    (st = ST_SUCCESS <-> answer s (Munmap a n) = 0%Z) /\ (st_success st = true <-> answer s (Munmap a n) = 0%Z).
Proof. exact virtual_free_ok. Qed.
Print Assumptions c51_virtual_free.
Theorem c51_flush_instruction_cache :
  forall a n s, exists st, flush_instruction_cache a n s = (st, [Msync a n 6]) /\
    (st = ST_SUCCESS <-> answer s (Msync a n 6) = 0%Z) /\ (st_success st = true <-> answer s (Msync a n 6) = 0%Z).
Proof. exact flush_ok. Qed.
Print Assumptions c51_flush_instruction_cache.
Theorem c51_page_size_partial :
  forall s, (0 <= answer s Sysconf_page_size < 4294967296)%Z ->
    Z.of_N (fst (page_size s)) = answer s Sysconf_page_size /\
    Z.of_N (fst (allocation_granularity s)) = answer s Sysconf_page_size.
Proof. exact page_size_ok. Qed.
Print Assumptions c51_page_size_partial.
Theorem c51_tls_alloc :
  forall old d s,
    (answer s (Key_create d) = 0%Z -> tls_alloc old d s = (ST_SUCCESS, new_key s, [Key_create d])) /\
    (answer s (Key_create d) <> 0%Z -> exists st, tls_alloc old d s = (st, old, [Key_create d]) /\ st_success st = false /\
       (answer s (Key_create d) = Z.of_N EAGAIN -> st = ST_OUT_OF_RESOURCES) /\
       (answer s (Key_create d) = Z.of_N ENOMEM -> st = ST_NOT_ENOUGH_MEMORY)).
Proof. exact tls_alloc_ok. Qed.
Print Assumptions c51_tls_alloc.
Theorem c51_tls_free :
  forall i s, snd (tls_free i s) = [Key_delete i] /\
    (st_success (fst (tls_free i s)) = true <-> answer s (Key_delete i) = 0%Z).
Proof. exact tls_free_ok. Qed.
Print Assumptions c51_tls_free.
Theorem c51_tls_set_value :
  forall i d s, snd (tls_set_value i d s) = [Setspecific i d] /\
    (st_success (fst (tls_set_value i d s)) = true <-> answer s (Setspecific i d) = 0%Z) /\
    (answer s (Setspecific i d) = Z.of_N EINVAL -> fst (tls_set_value i d s) = ST_INVALID_ARGUMENT).
Proof. exact tls_set_ok. Qed.
Print Assumptions c51_tls_set_value.
Theorem c51_tls_get_value :
  forall i s, (0 <= answer s (Getspecific i) < 2 ^ 64)%Z ->
    exists d, tls_get_value i s = (ST_SUCCESS, d, [Getspecific i]) /\ Z.of_N d = answer s (Getspecific i).
Proof. exact tls_get_ok. Qed.
Print Assumptions c51_tls_get_value.
Theorem c51_enable_vt100 :
  forall stream, enable_vt100 stream = if (stream =? 1) || (stream =? 2) then ST_SUCCESS else ST_INVALID_ARGUMENT.
Proof. exact vt100_ok. Qed.
Print Assumptions c51_enable_vt100.
Theorem c51_is_tty_partial :
  forall stream s, stream <= 2 ->
    (answer s (Isatty stream) <> 0%Z -> is_tty stream s = Some ST_TRUE) /\
    (answer s (Isatty stream) = 0%Z -> errno s (Isatty stream) = EBADF -> is_tty stream s = Some ST_INVALID_ARGUMENT) /\
    (answer s (Isatty stream) = 0%Z -> errno s (Isatty stream) <> EBADF -> is_tty stream s = Some ST_FALSE).
Proof. exact is_tty_ok. Qed.
Print Assumptions c51_is_tty_partial.
Example c51_met :
  let s tty e := mksystem (fun c => match c with Sysconf_page_size => 4096%Z | Isatty _ => tty | Getspecific _ => 77%Z
    | Key_create _ => Z.of_N EAGAIN | Setspecific _ _ => Z.of_N EINVAL | Munmap _ _ => (-1)%Z | _ => 0%Z end) (fun _ => e) 3 (fun _ => None) in
  (0 <= answer (s 0%Z 0%N) Sysconf_page_size < 4294967296)%Z /\ (0 <= answer (s 0%Z 0%N) (Getspecific 3%N) < 2 ^ 64)%Z /\
  page_size (s 0%Z 0) = (4096, [Sysconf_page_size]) /\ tls_get_value 3 (s 0%Z 0) = (ST_SUCCESS, 77, [Getspecific 3]) /\
  tls_alloc 9 100 (s 0%Z 0) = (ST_OUT_OF_RESOURCES, 9, [Key_create 100]) /\ tls_set_value 3 5 (s 0%Z 0) = (ST_INVALID_ARGUMENT, [Setspecific 3 5]) /\
  virtual_free 4096 10 (s 0%Z 0) = (ST_BAD_SYSTEMCALL, [Munmap 4096 10]) /\
  map (is_tty 1) [s 1%Z 0; s 0%Z EBADF; s 0%Z 25] = map Some [ST_TRUE; ST_INVALID_ARGUMENT; ST_FALSE].
Proof. cbv zeta. split; [split; [discriminate|reflexivity]|]. split; [split; [discriminate|reflexivity]|]. now vm_compute. Qed.
(** An unknown stream is not rejected: IsTTY runs into ZYAN_UNREACHABLE. *)
Theorem c51_is_tty_refuted : forall stream s, 2 < stream -> is_tty stream s = None.
Proof. exact is_tty_unknown. Qed.
Print Assumptions c51_is_tty_refuted.
(** A failing sysconf is reported as a page size. *)
Theorem c51_page_size_refuted :
  forall s, answer s Sysconf_page_size = (-1)%Z ->
    fst (page_size s) = 4294967295 /\ fst (allocation_granularity s) = 4294967295.
Proof. exact page_size_error. Qed.
Print Assumptions c51_page_size_refuted.
(** GetCurrentThread reports the handle of the calling thread; GetCurrentThreadId what can be read at that address. *)
Theorem c51_current_thread_partial :
  forall s, (0 <= answer s Self < 2 ^ 64)%Z ->
    exists h, current_thread s = (ST_SUCCESS, h) /\ Z.of_N h = answer s Self /\
      forall x, readable s h = Some x -> current_thread_id s = Some (ST_SUCCESS, x).
Proof. exact thread_handle. Qed.
Print Assumptions c51_current_thread_partial.
Example c51_current_thread_met :
  let s := mksystem (fun _ => 140737351878464%Z) (fun _ => 0) 0 (fun p => if p =? 140737351878464 then Some 77 else None) in
  (0 <= answer s Self < 2 ^ 64)%Z /\ current_thread s = (ST_SUCCESS, 140737351878464) /\ current_thread_id s = Some (ST_SUCCESS, 77).
Proof. cbv zeta. split; [cbn; lia|]. now vm_compute. Qed.
(** GetCurrentThreadId reads memory at the value of pthread_t, which POSIX does not promise to be an address. *)
Theorem c51_thread_id_refuted :
  forall s, readable s (to_u64 (answer s Self)) = None -> current_thread_id s = None.
Proof. exact thread_id_fault. Qed.
Print Assumptions c51_thread_id_refuted.
Example c51_refuted_met : let s := mksystem (fun _ => (-1)%Z) (fun _ => 0) 0 (fun _ => None) in
  2 < 3 /\ answer s Sysconf_page_size = (-1)%Z /\ readable s (to_u64 (answer s Self)) = None.
Proof. repeat split. Qed.

(** ** C52: the default allocator *)
(** Success: a block of exactly element_size * n bytes that was not in use, everything else unchanged. *)
Theorem c52_allocate_partial :
  forall C (w : world C) e n fill, e <> 0 -> n <> 0 -> e * n < W64 -> orc w (tick w) = AOk fill ->
    heap w (nextb w) = None ->
    exists p buf w', default_allocate e n w = Ok (ST_SUCCESS, Some p) w' /\ po p = 0 /\
      heap w (pb p) = None /\ heap w' (pb p) = Some buf /\ nlen buf = e * n /\
      (forall b, b <> pb p -> heap w' b = heap w b).
Proof. exact @allocate_ok. Qed.
Print Assumptions c52_allocate_partial.
Theorem c52_allocate_failure :
  forall C (w : world C) e n st, e <> 0 -> n <> 0 -> orc w (tick w) = AFail st ->
    exists w', default_allocate e n w = Ok (ST_NOT_ENOUGH_MEMORY, None) w' /\ forall b, heap w' b = heap w b.
Proof. exact @allocate_fail. Qed.
Print Assumptions c52_allocate_failure.
(** Success: a block of the new size that starts with the old contents; the old block is gone. *)
Theorem c52_reallocate_partial :
  forall C (w : world C) q buf e n fill, e <> 0 -> n <> 0 -> e * n < W64 -> orc w (tick w) = AOk fill ->
    heap w (nextb w) = None -> heap w q = Some buf ->
    exists p buf' w', default_reallocate (Some (mkptr q 0)) e n w = Ok (ST_SUCCESS, Some p) w' /\ po p = 0 /\
      heap w' (pb p) = Some buf' /\ nlen buf' = e * n /\
      nfirst (N.min (nlen buf) (e * n)) buf' = nfirst (N.min (nlen buf) (e * n)) buf /\
      heap w' q = None /\ (forall b, b <> pb p -> b <> q -> heap w' b = heap w b).
Proof. exact @reallocate_ok. Qed.
Print Assumptions c52_reallocate_partial.
Theorem c52_reallocate_failure_partial :
  forall C (w : world C) q buf e n st, e <> 0 -> n <> 0 -> e * n < W64 -> orc w (tick w) = AFail st ->
    heap w q = Some buf ->
    exists w', default_reallocate (Some (mkptr q 0)) e n w = Ok (ST_NOT_ENOUGH_MEMORY, Some (mkptr q 0)) w' /\
      forall b, heap w' b = heap w b.
Proof. exact @reallocate_fail. Qed.
Print Assumptions c52_reallocate_failure_partial.
Theorem c52_deallocate :
  forall C (w : world C) q buf e n, e <> 0 -> n <> 0 -> heap w q = Some buf ->
    exists w', default_deallocate (Some (mkptr q 0)) e n w = Ok ST_SUCCESS w' /\
      heap w' q = None /\ forall b, b <> q -> heap w' b = heap w b.
Proof. exact @deallocate_ok. Qed.
Print Assumptions c52_deallocate.
(** The product wraps: too large a request is granted with a block that is too small. *)
Theorem c52_allocate_refuted :
  forall C (w : world C) e n fill, 0 < e -> W64 <= e * n -> orc w (tick w) = AOk fill ->
    exists p buf w', default_allocate e n w = Ok (ST_SUCCESS, Some p) w' /\ heap w' (pb p) = Some buf /\
      nlen buf = (e * n) mod W64 /\ nlen buf < e * n.
Proof. exact @allocate_wraps. Qed.
Print Assumptions c52_allocate_refuted.
(** And a reallocation that fails loses the old block if the product wraps to 0: realloc frees it. *)
Theorem c52_reallocate_refuted :
  forall C (w : world C) q buf e n, e <> 0 -> n <> 0 -> (e * n) mod W64 = 0 -> heap w q = Some buf ->
    exists w', default_reallocate (Some (mkptr q 0)) e n w = Ok (ST_NOT_ENOUGH_MEMORY, Some (mkptr q 0)) w' /\
      heap w' q = None.
Proof. exact @reallocate_loses. Qed.
Print Assumptions c52_reallocate_refuted.
Example c52_refuted_met :
  let w := mkworld (fun b => if b =? 0 then Some [1;2;3] else None) 1 (fun _ => AOk (fun _ => 0)) 0 [] in
  W64 <= 4294967296 * 4294967296 /\ (4294967296 * 4294967296) mod W64 = 0 /\ orc w (tick w) = AOk (fun _ => 0) /\
  heap w 0 = Some [1;2;3].
Proof. cbv zeta. split; [vm_compute; congruence|]. repeat split. Qed.
(** The allocator interface assumed by the container models is what the default allocator does. *)
Theorem c52_models_agree_allocate :
  forall C (w : world C) e n, (forall k s, orc w k = AFail s -> err_status s = ST_NOT_ENOUGH_MEMORY) ->
    alloc e n w = default_allocate e n w.
Proof. exact @alloc_is_default. Qed.
Print Assumptions c52_models_agree_allocate.
Theorem c52_models_agree_reallocate_partial :
  forall C (w : world C) q e n, (forall k s, orc w k = AFail s -> err_status s = ST_NOT_ENOUGH_MEMORY) ->
    wmul e n <> 0 -> realloc (Some q) e n w = default_reallocate (Some q) e n w.
Proof. exact @realloc_is_default. Qed.
Print Assumptions c52_models_agree_reallocate_partial.
Theorem c52_models_agree_deallocate :
  forall C (w : world C) p e n, dealloc p e n w = default_deallocate p e n w.
Proof. exact @dealloc_is_default. Qed.
Print Assumptions c52_models_agree_deallocate.
Example c52_models_agree_met :
  let w := mkworld (fun b => if b =? 0 then Some [1;2;3] else None) 1 (fun k => if k =? 1 then AFail ST_NOT_ENOUGH_MEMORY else AOk (fun _ => 9)) 0 [] in
  (forall k s, orc w k = AFail s -> err_status s = ST_NOT_ENOUGH_MEMORY) /\ wmul 2 3 <> 0.
Proof.
  cbv zeta. split; [|discriminate]. intros k s. cbn [orc mkworld]. destruct (k =? 1); intros H; [|discriminate H].
  injection H as <-. reflexivity.
Qed.
Example c52_met : let w := mkworld (fun b => if b =? 0 then Some [1;2;3] else None) 1
                             (fun k => if k =? 0 then AFail ST_NOT_ENOUGH_MEMORY else AOk (fun _ => 9)) 0 [] in
  heap w (nextb w) = None /\ heap w 0 = Some [1;2;3] /\
  match (let* r1 := default_reallocate (Some (mkptr 0 0)) 2 3 in
         let* r2 := default_reallocate (snd r1) 2 3 in ret (r1, r2)) w with
  | Ok (r1, r2) w' => fst r1 = ST_NOT_ENOUGH_MEMORY /\ fst r2 = ST_SUCCESS /\ heap w' 1 = Some [1;2;3;9;9;9]
  | _ => False
  end.
Proof. now vm_compute. Qed.

(** Init stores the three callbacks it was given, each in its place, or reports INVALID_ARGUMENT if one (or the
    allocator itself) is missing. *)
Theorem c52_allocator_init :
  forall F (ok : bool) (a r d : option F),
    (forall x y z, ok = true -> a = Some x -> r = Some y -> d = Some z ->
       allocator_init ok a r d = (ST_SUCCESS, Some (x, y, z))) /\
    (ok = false \/ a = None \/ r = None \/ d = None -> allocator_init ok a r d = (ST_INVALID_ARGUMENT, None)).
Proof. exact @allocator_init_ok. Qed.
Print Assumptions c52_allocator_init.

(** ** C55: thread-local storage *)
(** After any history of calls of any threads, a thread reads under a key that is in use the value it stored
    there last since the key was allocated, or NULL; other threads' stores do not matter. *)
Theorem c55_thread_local :
  forall cs m tr k t, tls_run no_tls cs = (m, tr) ->
    (forall u k' d e, In (u, TSet k' d e) cs -> d < W64) ->
    key_live k tr false = true ->
    tls_step m t (TGet k) = (ST_SUCCESS, Some (tls_last k t tr 0), m).
Proof. exact tls_get_last. Qed.
Print Assumptions c55_thread_local.
Example c55_met :
  let cs := [(0, TAlloc 5 0); (0, TSet 5 11 0); (1, TSet 5 22 0); (1, TSet 5 33 ENOMEM); (2, TSet 6 1 0)] in
  let '(m, tr) := tls_run no_tls cs in
  key_live 5 tr false = true /\ key_live 6 tr false = false /\
  tls_last 5 0 tr 0 = 11 /\ tls_last 5 1 tr 0 = 22 /\ tls_last 5 2 tr 0 = 0 /\
  map (fun e => snd (fst e)) tr = [ST_SUCCESS; ST_SUCCESS; ST_SUCCESS; ST_BAD_SYSTEMCALL; ST_INVALID_ARGUMENT].
Proof. now vm_compute. Qed.

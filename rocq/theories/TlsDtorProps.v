(** C89: the destructors of thread-local storage. *)
From Verif Require Import Base Status ApiModel WinModel TlsDtorModel TlsDtorSpec TlsDtorProofs TlsDtorProofs2.
From Coq Require Import Permutation.
Local Open Scope N_scope.

(** C89, POSIX.  After any history of calls and thread ends, whatever the next event is: when a thread ends, the destructor
    that a slot was allocated with is invoked exactly once with the value that the thread has stored there, if that is not
    NULL, and for nothing else; a call (releasing a slot, say) and the end of the process invoke none.  For destructors
    that do not use thread-local storage themselves. *)
Theorem c89_posix :
  forall act order rounds, (forall d x, act d x = []) -> any_order order -> (1 <= rounds)%nat ->
  forall es m tr ev st r m' log,
    history (posix_step act order rounds) no_slots es = (m, tr) -> posix_step act order rounds m ev = (st, r, m', log) ->
    posix_rule tr ev log.
Proof. exact posix_ok. Qed.
Print Assumptions c89_posix.
(** C89, POSIX.  Whatever destructors do, they are not invoked with NULL. *)
Theorem c89_posix_never_null :
  forall act order rounds m ev st r m' log, posix_step act order rounds m ev = (st, r, m', log) ->
    Forall (fun c => snd c <> 0) log.
Proof. exact never_null. Qed.
Print Assumptions c89_posix_never_null.
(** C89, Windows.  When a thread ends, and when a slot is released, the destructor is invoked exactly once with every value
    concerned that is not NULL, for no other slot, and at no other call.  Missing: the end of the process, for which the
    header promises the invocation too; which threads the system still serves then is not modelled. *)
Theorem c89_windows_partial :
  forall order null_too, any_order order ->
  forall es m tr ev st r m' log,
    history (windows_step order null_too) no_slots es = (m, tr) -> windows_step order null_too m ev = (st, r, m', log) ->
    windows_rule tr ev st log.
Proof. exact windows_ok. Qed.
Print Assumptions c89_windows_partial.
(** Not every stored value meets its destructor: a destructor that stores its value again is invoked as often as the
    system makes rounds, and the value it stored last is dropped ([rounds + 1] stores, [rounds] invocations), on every
    system and in every slot. *)
Theorem c89_stored_again_refuted :
  forall order rounds t k d x, any_order order -> d <> 0 -> x <> 0 ->
    snd (history (posix_step (fun _ y => [DSet k y 0]) order rounds) no_slots
           [Call t (DAlloc d k 0); Call t (DSet k x 0); ThreadExit t]) =
    [(Call t (DAlloc d k 0), ST_SUCCESS, Some k, []); (Call t (DSet k x 0), ST_SUCCESS, None, []);
     (ThreadExit t, ST_SUCCESS, None, repeat (k, t, d, x) rounds)].
Proof. exact restoring. Qed.
Print Assumptions c89_stored_again_refuted.

(** A slot is released and its number used again, with another destructor; two threads end. *)
Example c89_met_posix : any_order (@rev N) /\
  map snd (snd (history (posix_step (fun _ _ => []) (@rev N) 4) no_slots
    [Call 1 (DAlloc 100 7 0); Call 1 (DAlloc 200 8 0); Call 1 (DSet 7 11 0); Call 1 (DSet 8 12 0); Call 2 (DSet 7 21 0);
     Call 2 (DFree 7); Call 1 (DAlloc 300 7 0); Call 2 (DSet 7 22 0); ThreadExit 1; ThreadExit 2; ThreadExit 1; ProcessExit]))
  = [[]; []; []; []; []; []; []; []; [(8, 1, 200, 12)]; [(7, 2, 300, 22)]; []; []].
Proof. split; [exact (@Permutation_rev N)|vm_compute; reflexivity]. Qed.
Example c89_met_windows :
  map snd (snd (history (windows_step (@rev N) false) no_slots
    [Call 1 (DAlloc 100 7 0); Call 1 (DAlloc 200 8 0); Call 1 (DSet 7 11 0); Call 1 (DSet 8 12 0); Call 2 (DSet 7 21 0);
     Call 2 (DFree 7); Call 1 (DAlloc 300 7 0); Call 2 (DSet 7 22 0); ThreadExit 1; ThreadExit 2; ThreadExit 1]))
  = [[]; []; []; []; []; [(7, 1, 100, 11); (7, 2, 100, 21)]; []; []; [(8, 1, 200, 12)]; [(7, 2, 300, 22)]; []].
Proof. vm_compute. reflexivity. Qed.

(** Property C84: calls made inside a critical section of the library are atomic. *)
From Verif Require Import Base NListFacts Status Mem VectorModel VectorSpec VectorDriver VectorExamples SyncModel WinModel GuardSpec GuardProofs.

(** For any number of threads, any programs of guarded calls, any schedule of their steps and any errors of the system: the
    results are those of making the calls one after the other, in the order in which the threads left the section. *)
Theorem c84_guarded_calls_are_atomic :
  forall (S R A : Type) (cs : section mutex) m (spec : A -> S -> R -> S -> Prop) (progs : N -> list (job S R A)) s0 schedule,
    library_section cs m ->
    (forall t j, In j (progs t) -> how j <> Leave /\ meets spec j) ->
    let y := sys_run cs schedule (sys_start m s0 progs) in
    exists s1,
      serially spec (log y) s0 s1 /\
      (nobody_inside y -> shared y = s1) /\
      forall t, made (seen (threads y t)) = of_thread t (log y) /\
                map fst (seen (threads y t)) ++ pending (threads y t) = map name (progs t).
Proof. intros S R A cs m spec progs s0 schedule. exact (library_atomic cs m spec progs s0 schedule). Qed.
Print Assumptions c84_guarded_calls_are_atomic.

(** A call that has ended comes before all calls that end later. *)
Theorem c84_order_of_calls :
  forall (S R A : Type) (cs : section mutex) (y : system S R A mutex) schedule later,
    exists l, log (sys_run cs (schedule ++ later) y) = log (sys_run cs schedule y) ++ l.
Proof. intros S R A cs y schedule later. exact (order_kept cs schedule later y). Qed.
Print Assumptions c84_order_of_calls.

(** Without errors of the system all threads can always be brought to their end: no deadlock. *)
Theorem c84_no_deadlock :
  forall (S R A : Type) (cs : section mutex) m (progs : N -> list (job S R A)) s0 schedule n,
    library_section cs m ->
    (forall t j, In j (progs t) -> how j <> Leave) ->
    (forall t, n <= t -> progs t = []) ->
    Forall (fun x => snd x = 0) schedule ->
    exists rest, Forall (fun x => snd x = 0) rest /\
                 finished (sys_run cs (schedule ++ rest) (sys_start m s0 progs)).
Proof. intros S R A cs m progs s0 schedule n. exact (library_completes cs m progs s0 schedule n). Qed.
Print Assumptions c84_no_deadlock.

(** Threads that share a growable vector: whatever the schedule, the vector is the array made by the calls in some order. *)
Theorem c84_shared_vector :
  forall (C : Type) cs m (w0 : world C) e cap d g s v0 w1 progs n schedule,
    library_section cs m ->
    init_args_ok w0 e cap d g s ->
    vinit_ex e cap d true g s w0 = Ok (ST_SUCCESS, Some v0) w1 ->
    (forall t j, In j (progs t) -> vjob_ok e j) ->
    (forall t, N.of_nat n <= t -> progs t = []) ->
    room (demands_of n progs) e ->
    let y := guarded_vector cs m v0 w1 progs schedule in
    nobody_inside y ->
    exists v w xs,
      shared y = Some (v, w) /\ shows w v xs /\
      vspecs (mkcfg false g s e d) (map (fun x => snd (fst x)) (log y)) (mkst [] (N.max 1 cap) (dlog w0))
             (map snd (log y)) (mkst xs (snd (vget_capacity v)) (dlog w)) /\
      forall t, made (seen (threads y t)) = of_thread t (log y) /\
                map fst (seen (threads y t)) ++ pending (threads y t) = map name (progs t).
Proof. exact @shared_vector. Qed.
Print Assumptions c84_shared_vector.

(** Two threads, a vector of one-byte elements; each PushBack reads the vector and the memory, then writes both. *)
Example c84_hypotheses_met :
  let m := mkmutex true None 0 in
  let push x := mkjob Enter (OPushBack [x]) (read_write (OPushBack [x])) in
  let progs := fun t : N => if t =? 0 then [push 7] else if t =? 1 then [push 8] else [] in
  library_section (posix_section 5) m /\ library_section windows_section m /\
  (forall t j, In j (progs t) -> vjob_ok 1 j) /\
  (forall t, N.of_nat 2 <= t -> progs t = []) /\ room (demands_of 2 progs) 1 /\
  match vinit_ex 1 0 None true 2 4 world0 with
  | Ok (r, Some v0) w1 =>
      let y := guarded_vector (posix_section 5) m v0 w1 progs [(0, 0); (1, 0); (0, 0); (1, 0); (0, 0); (0, 0); (1, 0); (1, 0); (1, 0); (1, 0)] in
      option_map (fun x => (snd (vget_size (fst x)), map (fun x => (fst (fst x), snd x)) (log y))) (shared y)
  | _ => None
  end = Some (2, [(0, ST_SUCCESS); (1, ST_SUCCESS)]).
Proof.
  split; [left; exists 5, 0, 0, 0; split; reflexivity|]. split; [right; split; reflexivity|]. split.
  - intros t j. destruct (t =? 0); [|destruct (t =? 1)]; cbn; intros H; [destruct H as [<-|[]]|destruct H as [<-|[]]|contradiction];
      (apply read_write_job_ok; [discriminate|reflexivity]).
  - split; [|split; [vm_compute; reflexivity|vm_compute; reflexivity]].
    intros t LE. destruct (N.eqb_spec t 0) as [->|]; [exfalso; now apply LE|]. destruct (N.eqb_spec t 1) as [->|]; [exfalso; now apply LE|reflexivity].
Qed.

(** Without the section the same threads can lose an element although both calls report success. *)
Theorem c84_unguarded_refuted :
  exists (progs : N -> list (job (vshared N) status (vop N))) schedule,
    (forall t j, In j (progs t) -> vjob_ok 1 j) /\
    match vinit_ex 1 0 None true 2 4 world0 with
    | Ok (_, Some v0) w1 =>
        let y := guarded_vector no_section (mkmutex true None 0) v0 w1 progs schedule in
        option_map (fun x => (snd (vget_size (fst x)), log y)) (shared y)
    | _ => None
    end = Some (1, [(0, OPushBack [7], ST_SUCCESS); (1, OPushBack [8], ST_SUCCESS)]).
Proof.
  exists (fun t => if t =? 0 then [mkjob Enter (OPushBack [7]) (read_write (OPushBack [7]))]
                   else if t =? 1 then [mkjob Enter (OPushBack [8]) (read_write (OPushBack [8]))] else []),
         [(0, 0); (1, 0); (0, 0); (1, 0); (0, 0); (1, 0); (0, 0); (1, 0)].
  split; [|vm_compute; reflexivity].
  intros t j. destruct (t =? 0); [|destruct (t =? 1)]; cbn; intros H; [destruct H as [<-|[]]|destruct H as [<-|[]]|contradiction];
    (apply read_write_job_ok; [discriminate|reflexivity]).
Qed.
Print Assumptions c84_unguarded_refuted.

(** Property C87: the atomic operations support the usual client programs: spin lock, update loop, reference count. *)
From Coq Require Import ZifyBool ZifyNat ZifyN.
From Verif Require Import Base NListFacts AtomicModel AtomicSpec SyncModel GuardSpec IdiomSpec IdiomProofs IdiomProofs2 IdiomProofs3.

(** Jobs done between "while (ZyanAtomicCompareExchange(&x, 0, 1) != 0);" and the release of the lock: at most one thread is
    inside, and the results are those of doing the jobs one after the other. *)
Theorem c87_spin_lock :
  forall (S R A : Type) w release (spec : A -> S -> R -> S -> Prop) (progs : N -> list (job S R A)) s0 schedule,
    releases release ->
    (forall t j, In j (progs t) -> how j <> Leave /\ meets spec j) ->
    let y := sys_run (spin_section w release) schedule (sys_start 0 s0 progs) in
    exists s1,
      serially spec (log y) s0 s1 /\
      (nobody_inside y -> shared y = s1) /\
      (forall t u j c j' c', spot (threads y t) = Inside j c -> spot (threads y u) = Inside j' c' -> t = u) /\
      forall t, made (seen (threads y t)) = of_thread t (log y) /\
                map fst (seen (threads y t)) ++ pending (threads y t) = map name (progs t).
Proof. intros S R A w release spec progs s0 schedule RL PR. exact (spin_atomic w release RL spec progs PR s0 schedule). Qed.
Print Assumptions c87_spin_lock.

Theorem c87_spin_lock_no_deadlock :
  forall (S R A : Type) w release (progs : N -> list (job S R A)) s0 schedule n,
    releases release ->
    (forall t j, In j (progs t) -> how j <> Leave) ->
    (forall t, n <= t -> progs t = []) ->
    Forall (fun x => snd x = 0) schedule ->
    exists rest, Forall (fun x => snd x = 0) rest /\
                 finished (sys_run (spin_section w release) (schedule ++ rest) (sys_start 0 s0 progs)).
Proof. intros S R A w release progs s0 schedule n. exact (spin_free w release progs s0 schedule n). Qed.
Print Assumptions c87_spin_lock_no_deadlock.

(** Two threads add to a shared number; each reads it, then writes it. *)
Example c87_spin_lock_hypotheses_met :
  let add k := mkjob Enter k (Step (fun n => n) (fun n => Step (fun _ => n + k) (fun _ => Done n))) in
  let progs := fun t : N => if t =? 0 then [add 7] else if t =? 1 then [add 8] else [] in
  let spec := fun k s r s' => r = s /\ s' = s + k in
  releases Decrement /\ releases (CompareExchange 1 0) /\
  (forall t j, In j (progs t) -> how j <> Leave /\ meets spec j) /\
  let y := sys_run (spin_section 32 Decrement) [(0, 0); (1, 0); (0, 0); (1, 0); (0, 0); (0, 0); (1, 0); (1, 0); (1, 0); (1, 0)] (sys_start 0 100 progs) in
  shared y = 115 /\ log y = [(0, 7, 100); (1, 8, 107)].
Proof.
  split; [now right|]. split; [now left|]. split; [|vm_compute; auto].
  intros t j. destruct (t =? 0); [|destruct (t =? 1)]; cbn; intros H; [destruct H as [<-|[]]|destruct H as [<-|[]]|contradiction]; (split; [discriminate|intros s; vm_compute; auto]).
Qed.

(** "old = read(x); while ((seen = ZyanAtomicCompareExchange(&x, old, f(old))) != old) old = seen;": for any functions, any
    number of threads and any schedule every update is atomic, the order [h] in which they take effect is kept by whatever
    happens later, and an iteration fails only if another thread has made an update meanwhile. *)
Theorem c87_update_loop :
  forall w x0 programs s1 s2, exists h k,
    let m1 := update_run w x0 programs s1 in
    let m2 := update_run w x0 programs (s1 ++ s2) in
    updates_made x0 h (ucell m1) /\ updates_made x0 (h ++ k) (ucell m2) /\
    forall i,
      programs i = map fst (updates_of i h) ++ updates (uthreads m1 i) /\
      replaced (uthreads m1 i) = map snd (updates_of i h) /\
      retries (uthreads m1 i) <= updates_of_others i h /\
      programs i = map fst (updates_of i (h ++ k)) ++ updates (uthreads m2 i) /\
      replaced (uthreads m2 i) = map snd (updates_of i (h ++ k)).
Proof. intros w x0 programs s1 s2. exact (updates_atomic w x0 programs s1 s2). Qed.
Print Assumptions c87_update_loop.

(** A thread that runs alone for a while makes its updates, each with two calls, and none of them fails. *)
Theorem c87_update_alone :
  forall w x0 programs schedule i,
    let m := update_run w x0 programs schedule in
    old (uthreads m i) = None ->
    let us := updates (uthreads m i) in
    let m' := update_run w x0 programs (schedule ++ repeat i (2 * length us)) in
    updates (uthreads m' i) = [] /\ retries (uthreads m' i) = retries (uthreads m i) /\
    ucell m' = fold_left (fun x f => f x) us (ucell m).
Proof. intros w x0 programs schedule i. exact (alone_run w x0 programs schedule i). Qed.
Print Assumptions c87_update_alone.

(** Thread 0 reads 5, thread 1 makes its update, thread 0 fails once and tries again. *)
Example c87_update_example :
  let programs := fun i : N => if i =? 0 then [fun x => 2 * x] else if i =? 1 then [fun x => x + 1] else [] in
  let m := update_run 32 5 programs [0; 1; 1; 0; 0] in
  ucell m = 12 /\ replaced (uthreads m 0) = [6] /\ replaced (uthreads m 1) = [5] /\
  retries (uthreads m 0) = 1 /\ retries (uthreads m 1) = 0 /\ old (uthreads m 0) = None.
Proof. vm_compute. auto 10. Qed.

(** Threads 0 .. n-1 begin with [h i] references to an object and copy them (ZyanAtomicIncrement) and give them up
    (ZyanAtomicDecrement) as they like, but only references they have; a thread whose Decrement returns 0 destroys the object.
    Then at most one thread is told to; one is if and only if all references are given up; and no call is made after that. *)
Theorem c87_reference_count :
  forall w n h programs schedule,
    (forall i, N.of_nat n <= i -> programs i = []) ->
    (forall i, owns_enough (h i) (programs i)) ->
    1 <= sum_to n h ->
    sum_to n h + sum_to n (fun i => copies (programs i)) < 2 ^ w ->
    let m := mrun w (start (sum_to n h) programs) schedule in
    let calls i := AtomicSpec.made w (AtomicModel.threads m i) in
    let references i := left_over (h i) (map fst (calls i)) in
    let told := sum_to n (fun i => destroys (calls i)) in
    told <= 1 /\
    (told = 1 <-> forall i, i < N.of_nat n -> references i = 0) /\
    (told = 1 -> forall i, AtomicModel.todo (AtomicModel.threads m i) = []) /\
    cell m = sum_to n references /\
    forall i, programs i = map fst (calls i) ++ AtomicModel.todo (AtomicModel.threads m i).
Proof. intros w n h programs schedule PN OE H1 FIT. exact (counted w n h programs PN OE H1 FIT schedule). Qed.
Print Assumptions c87_reference_count.

Example c87_reference_count_hypotheses_met :
  let programs := fun i : N => if i =? 0 then [Increment; Decrement; Decrement] else if i =? 1 then [Decrement] else [] in
  let h := fun i : N => if i =? 2 then 0 else 1 in
  (forall i, N.of_nat 2 <= i -> programs i = []) /\ (forall i, owns_enough (h i) (programs i)) /\
  sum_to 2 h = 2 /\ sum_to 2 h + sum_to 2 (fun i => copies (programs i)) < 2 ^ 32 /\
  let m := mrun 32 (start 2 programs) [0; 1; 0; 0; 1; 0; 0; 0] in
  AtomicSpec.made 32 (AtomicModel.threads m 0) = [(Increment, 3); (Decrement, 1); (Decrement, 0)] /\
  AtomicSpec.made 32 (AtomicModel.threads m 1) = [(Decrement, 2)] /\ cell m = 0.
Proof.
  split. { intros i L. destruct (N.eqb_spec i 0) as [->|]; [exfalso; now apply L|]. destruct (N.eqb_spec i 1) as [->|]; [exfalso; now apply L|reflexivity]. }
  split; [|vm_compute; auto 10]. intros i. destruct (N.eqb_spec i 0) as [->|]; [vm_compute; repeat split; discriminate|].
  destruct (N.eqb_spec i 1) as [->|]; [vm_compute; repeat split; discriminate|exact Logic.I].
Qed.

(** The threads must own what they copy: a thread without a reference that takes one as the last is given up makes the object
    be destroyed twice. *)
Theorem c87_borrowed_reference_refuted :
  exists programs schedule,
    let m := mrun 32 (start 1 programs) schedule in
    sum_to 2 (fun i => destroys (AtomicSpec.made 32 (AtomicModel.threads m i))) = 2.
Proof. exists (fun i => if i =? 0 then [Decrement] else if i =? 1 then [Increment; Decrement] else []), [0; 0; 1; 1; 1; 1]. vm_compute. reflexivity. Qed.
Print Assumptions c87_borrowed_reference_refuted.

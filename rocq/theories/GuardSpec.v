(** Threads that share data behind a critical section (property C84).  No proofs here. *)
From Verif Require Import Base Status Mem VectorModel VectorSpec VectorDriver SyncModel WinModel.

(** ** Threads *)
Section Threads.
  (** [S]: the shared data; [R]: results of calls; [A]: what is known about a call. *)
  Context {S R A : Type}.
  (** A call in atomic steps: each reads the shared data, changes them and goes on depending on what it has read. *)
  Inductive code := Done (r : R) | Step (f : S -> S) (k : S -> code).
  (** The call made by a thread alone. *)
  Fixpoint finish (c : code) (s : S) : R * S :=
    match c with Done r => (r, s) | Step f k => finish (k s) (f s) end.

  (** A guarded call of a client: "if Enter (or TryEnter) succeeds, make the call, then Leave".  *)
  Record job := mkjob { how : cscall; name : A; body : code }.
  Inductive place := Outside | Inside (j : job) (c : code).
  (** [seen]: the results the thread has got, in order; [None]: it could not enter and did not make the call. *)
  Record thread := mkthread { todo : list job; spot : place; seen : list (A * option R) }.
  (** [log]: the calls in the order in which their threads left the section. *)
  Record system (L : Type) := mksys { lock : L; shared : S; threads : N -> thread; log : list (N * A * R) }.
  Global Arguments mksys {L}. Global Arguments lock {L}. Global Arguments shared {L}. Global Arguments threads {L}. Global Arguments log {L}.
  Definition upd (f : N -> thread) (t : N) (x : thread) : N -> thread := fun u => if u =? t then x else f u.

  (** The section: [enter how t inject lock] is [None] when the thread blocks, otherwise whether it has entered; [inject] is
      0 or an error that the system reports. *)
  Record section (L : Type) := mksection {
    enter : cscall -> N -> N -> L -> option (bool * L);
    leave : N -> N -> L -> option L }.
  Global Arguments mksection {L}. Global Arguments enter {L}. Global Arguments leave {L}.

  (** Thread [t] makes its next step. *)
  Definition sys_step {L} (cs : section L) (t inject : N) (y : system L) : system L :=
    let th := threads y t in
    match spot th with
    | Outside =>
        match todo th with
        | [] => y
        | j :: rest =>
            match enter cs (how j) t inject (lock y) with
            | None => y
            | Some (true, m) => mksys m (shared y) (upd (threads y) t (mkthread rest (Inside j (body j)) (seen th))) (log y)
            | Some (false, m) => mksys m (shared y) (upd (threads y) t (mkthread rest Outside (seen th ++ [(name j, None)]))) (log y)
            end
        end
    | Inside j (Step f k) =>
        mksys (lock y) (f (shared y)) (upd (threads y) t (mkthread (todo th) (Inside j (k (shared y))) (seen th))) (log y)
    | Inside j (Done r) =>
        match leave cs t inject (lock y) with
        | None => y
        | Some m => mksys m (shared y) (upd (threads y) t (mkthread (todo th) Outside (seen th ++ [(name j, Some r)])))
                      (log y ++ [(t, name j, r)])
        end
    end.
  (** A schedule says which thread makes its next step. *)
  Fixpoint sys_run {L} (cs : section L) (schedule : list (N * N)) (y : system L) : system L :=
    match schedule with
    | [] => y
    | (t, inject) :: schedule => sys_run cs schedule (sys_step cs t inject y)
    end.
  Definition sys_start {L} (m : L) (s : S) (progs : N -> list job) : system L :=
    mksys m s (fun t => mkthread (progs t) Outside []) [].

  (** What thread [t] has seen of calls that it made. *)
  Definition made (l : list (A * option R)) : list (A * R) :=
    flat_map (fun '(a, r) => match r with Some r => [(a, r)] | None => [] end) l.
  Definition of_thread (t : N) (l : list (N * A * R)) : list (A * R) :=
    flat_map (fun '(u, a, r) => if u =? t then [(a, r)] else []) l.
  (** The calls that the thread has yet to make or to finish. *)
  Definition pending (th : thread) : list A :=
    match spot th with Inside j _ => name j :: map name (todo th) | Outside => map name (todo th) end.
  Definition nobody_inside {L} (y : system L) : Prop := forall t, spot (threads y t) = Outside.
  Definition finished {L} (y : system L) : Prop := forall t, spot (threads y t) = Outside /\ todo (threads y t) = [].

  (** What a call does when it is made alone, as a relation. *)
  Definition meets (spec : A -> S -> R -> S -> Prop) (j : job) : Prop :=
    forall s, spec (name j) s (fst (finish (body j) s)) (snd (finish (body j) s)).
  (** The calls of the list, made one after the other. *)
  Inductive serially (spec : A -> S -> R -> S -> Prop) : list (N * A * R) -> S -> S -> Prop :=
  | serially_nil s : serially spec [] s s
  | serially_cons t a r l s s1 s2 : spec a s r s1 -> serially spec l s1 s2 -> serially spec ((t, a, r) :: l) s s2.
End Threads.
Arguments code : clear implicits.
Arguments job : clear implicits.
Arguments system : clear implicits.

(** ** The sections of the library *)
Definition entered_by (r : csresult) : bool := match r with RStatus st => st_success st | RBool b => b end.
Definition posix_section (max_depth : N) : section mutex :=
  mksection (fun how t inject m => option_map (fun '(r, m') => (entered_by r, m')) (cs_step max_depth t how inject m))
            (fun t inject m => option_map snd (cs_step max_depth t Leave inject m)).
(** Nothing can be injected on Windows.  [None] stands for undefined behaviour of Leave as well. *)
Definition windows_section : section mutex :=
  mksection (fun how t _ m => match win_cs_step t how m with WDone (r, m') => Some (entered_by r, m') | _ => None end)
            (fun t _ m => match win_cs_step t Leave m with WDone (_, m') => Some m' | _ => None end).

(** A section of the library that has just been initialised with success, on either system. *)
Definition library_section (cs : section mutex) (m : mutex) : Prop :=
  (exists max_depth e_attr e_type e_init, cs = posix_section max_depth /\ cs_init e_attr e_type e_init = (ST_SUCCESS, Some m)) \/
  (cs = windows_section /\ win_cs_init = (ST_SUCCESS, m)).
(** No section at all. *)
Definition no_section : section mutex := mksection (fun _ _ _ m => Some (true, m)) (fun _ _ m => Some m).

(** ** A shared vector *)
Section SharedVector.
  Context {C : Type}.
  (** The shared data: the vector and the memory; [None] after undefined behaviour. *)
  Definition vshared := option (vector C * world C).
  (** The steps of the call, made by a thread alone, amount to the call. *)
  Definition implements (c : code vshared status) (o : vop C) : Prop :=
    forall v w, match run_op v o w with
                | Ok (r, v') w' => finish c (Some (v, w)) = (r, Some (v', w'))
                | Fault _ => snd (finish c (Some (v, w))) = None
                end.
  Definition vjob_ok (e : N) (j : job vshared status (vop C)) : Prop :=
    how j <> Leave /\ arg_ok e (name j) /\ implements (body j) (name j).
  (** A call in two steps: it reads the vector and the memory, then writes both back. *)
  Definition read_write (o : vop C) : code vshared status :=
    Step (fun s => s) (fun s => match s with
      | Some (v, w) => match run_op v o w with
                       | Ok (r, v') w' => Step (fun _ => Some (v', w')) (fun _ => Done r)
                       | Fault _ => Step (fun _ => None) (fun _ => Done ST_FAILED)
                       end
      | None => Done ST_FAILED
      end).
  (** Number of elements that the first [n] threads may ask room for. *)
  Fixpoint demands_of (n : nat) (progs : N -> list (job vshared status (vop C))) : N :=
    match n with
    | O => 0
    | S n => demands (map name (progs (N.of_nat n))) + demands_of n progs
    end.
  (** Threads that share the vector [v] in the memory [w]. *)
  Definition guarded_vector (cs : section mutex) (m : mutex) (v : vector C) (w : world C)
    (progs : N -> list (job vshared status (vop C))) (schedule : list (N * N)) : system vshared status (vop C) mutex :=
    sys_run cs schedule (sys_start m (Some (v, w)) progs).
End SharedVector.
Arguments vshared : clear implicits.

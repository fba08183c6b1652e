(** Destructors of thread-local storage.  The wrappers are those of ApiModel.v and WinModel.v; here the system keeps the
    destructor of every slot and runs it when a thread ends (POSIX, Windows) or a slot is released (Windows).  A model of
    POSIX pthread_key_create and of the Windows FlsAlloc family, not of code in the repository, apart from the wrappers
    called in [posix_call] and [windows_call].  No proofs here. *)
From Verif Require Import Base Status SyncModel ApiModel WinModel.

(** The slots in use with their destructors (0: NULL), and the value of every (slot, thread); on Windows also the threads
    that have stored something. *)
Record slots := mkslots { live : list (N * N); vals : N -> N -> N; users : list N }.
Definition no_slots : slots := mkslots [] (fun _ _ => 0) [].
(** One invocation of a destructor: slot, thread whose value it is, destructor, value. *)
Notation callback := (N * N * N * N)%type.
(** Calls of the library: [k] is the slot the system would hand out, [e] an error that it reports. *)
Inductive tcall := DAlloc (destructor k e : N) | DFree (k : N) | DSet (k data e : N) | DGet (k : N).
Inductive tevent := Call (t : N) (c : tcall) | ThreadExit (t : N) | ProcessExit.

Definition slot (m : slots) (k : N) : option N :=
  match find (fun x => fst x =? k) (live m) with Some x => Some (snd x) | None => None end.
Definition in_use (m : slots) (k : N) : bool := match slot m k with Some _ => true | None => false end.
Definition new_slot (m : slots) (k d : N) : slots :=
  mkslots ((k, d) :: live m) (fun k' u => if k' =? k then 0 else vals m k' u) (users m).
Definition drop_slot (m : slots) (k : N) : slots := mkslots (filter (fun x => negb (fst x =? k)) (live m)) (vals m) (users m).
Definition set_val (m : slots) (k t x : N) : slots :=
  mkslots (live m) (fun k' u => if (k' =? k) && (u =? t) then x else vals m k' u)
    (if existsb (N.eqb t) (users m) then users m else t :: users m).
(** The thread is gone. *)
Definition forget (m : slots) (t : N) : slots :=
  mkslots (live m) (fun k u => if u =? t then 0 else vals m k u) (filter (fun u => negb (u =? t)) (users m)).

(** ** POSIX *)
Definition posix_system (m : slots) (t k e : N) : system :=
  mksystem (fun c => match c with
                     | Key_create _ => if negb (e =? 0) then Z.of_N e else if in_use m k then Z.of_N EAGAIN else 0%Z
                     | Key_delete k => if in_use m k then 0%Z else Z.of_N EINVAL
                     | Setspecific k _ => if negb (e =? 0) then Z.of_N e else if in_use m k then 0%Z else Z.of_N EINVAL
                     | Getspecific k => Z.of_N (if in_use m k then vals m k t else 0)
                     | _ => 0%Z
                     end) (fun _ => 0) k (fun _ => None).
Definition posix_effect (t k e : N) (m : slots) (c : syscall) : slots :=
  if negb (answer (posix_system m t k e) c =? 0)%Z then m else
  match c with
  | Key_create d => new_slot m k d
  | Key_delete k' => drop_slot m k'
  | Setspecific k' x => set_val m k' t x
  | _ => m
  end.
(** A call of thread [t]: status, value stored through the out-pointer, slots. *)
Definition posix_call (m : slots) (t : N) (c : tcall) : status * option N * slots :=
  match c with
  | DAlloc d k e =>
      let '(st, i, cs) := tls_alloc 0 d (posix_system m t k e) in
      (st, if st_success st then Some i else None, fold_left (posix_effect t k e) cs m)
  | DFree k => let '(st, cs) := tls_free k (posix_system m t 0 0) in (st, None, fold_left (posix_effect t 0 0) cs m)
  | DSet k x e => let '(st, cs) := tls_set_value k x (posix_system m t 0 e) in (st, None, fold_left (posix_effect t 0 e) cs m)
  | DGet k => let '(st, x, cs) := tls_get_value k (posix_system m t 0 0) in (st, Some x, fold_left (posix_effect t 0 0) cs m)
  end.

Section Posix.
  (** What a destructor does with the storage when it is given a value; the order in which the slots are visited; how
      often they are visited (PTHREAD_DESTRUCTOR_ITERATIONS). *)
  Variable act : N -> N -> list tcall.
  Variable order : list N -> list N.
  Variable rounds : nat.

  Definition calls_of (t : N) (m : slots) (cs : list tcall) : slots :=
    fold_left (fun m c => snd (posix_call m t c)) cs m.
  (** A value that is not NULL, in a slot with a destructor: it is replaced by NULL, then the destructor gets it. *)
  Definition visit (t : N) (s : slots * list callback) (k : N) : slots * list callback :=
    let '(m, log) := s in
    match slot m k with
    | Some d =>
        let x := vals m k t in
        if (d =? 0) || (x =? 0) then s else (calls_of t (set_val m k t 0) (act d x), log ++ [(k, t, d, x)])
    | None => s
    end.
  Definition round (t : N) (s : slots * list callback) : slots * list callback :=
    fold_left (visit t) (order (map fst (live (fst s)))) s.
  Definition posix_step (m : slots) (ev : tevent) : status * option N * slots * list callback :=
    match ev with
    | Call t c => let '(st, r, m) := posix_call m t c in (st, r, m, [])
    | ThreadExit t => let '(m, log) := Nat.iter rounds (round t) (m, []) in (ST_SUCCESS, None, forget m t, log)
    | ProcessExit => (ST_SUCCESS, None, m, [])
    end.
End Posix.

(** ** Windows *)
Definition windows_system (m : slots) (f k e : N) : wsystem :=
  mkwsystem (fun c => match c with
                      | FlsAllocCall _ => if (e =? 0) && negb (in_use m k) && (k <? FLS_OUT_OF_INDEXES) then Z.of_N k else 4294967295%Z
                      | FlsFreeCall k => if in_use m k then 1%Z else 0%Z
                      | FlsSetCall k _ => if (e =? 0) && in_use m k then 1%Z else 0%Z
                      | FlsGetCall k => Z.of_N (if in_use m k then vals m k f else 0)
                      | _ => 0%Z
                      end)
            (fun _ => if e =? 0 then ERROR_INVALID_PARAMETER else e) 4096 65536 (fun _ => 0) 0 (fun _ => None).

Section Windows.
  (** The order of the callbacks, and whether they are also run for NULL, which Microsoft does not say. *)
  Variable order : list N -> list N.
  Variable null_too : bool.

  Definition due_now (m : slots) (k f : N) : list callback :=
    match slot m k with
    | Some d => if (d =? 0) || (vals m k f =? 0) && negb null_too then [] else [(k, f, d, vals m k f)]
    | None => []
    end.
  Definition windows_effect (f k e : N) (s : slots * list callback) (c : wcall) : slots * list callback :=
    let '(m, log) := s in
    let r := wanswer (windows_system m f k e) c in
    match c with
    | FlsAllocCall d => if (r =? 4294967295)%Z then s else (new_slot m (Z.to_N r) d, log)
    | FlsFreeCall k' =>
        if (r =? 0)%Z then s else (drop_slot m k', log ++ flat_map (due_now m k') (order (users m)))
    | FlsSetCall k' x => if (r =? 0)%Z then s else (set_val m k' f x, log)
    | _ => s
    end.
  Definition windows_call (m : slots) (f : N) (c : tcall) : status * option N * slots * list callback :=
    match c with
    | DAlloc d k e =>
        let '(st, i, cs) := win_tls_alloc 0 d (windows_system m f k e) in
        let '(m', log) := fold_left (windows_effect f k e) cs (m, []) in
        (st, if st_success st then Some i else None, m', log)
    | DFree k =>
        let '(st, cs) := win_tls_free k (windows_system m f 0 0) in
        let '(m', log) := fold_left (windows_effect f 0 0) cs (m, []) in (st, None, m', log)
    | DSet k x e =>
        let '(st, cs) := win_tls_set_value k x (windows_system m f 0 e) in
        let '(m', log) := fold_left (windows_effect f 0 e) cs (m, []) in (st, None, m', log)
    | DGet k =>
        let '(st, x, cs) := win_tls_get_value k (windows_system m f 0 0) in
        let '(m', log) := fold_left (windows_effect f 0 0) cs (m, []) in (st, Some x, m', log)
    end.
  Definition windows_step (m : slots) (ev : tevent) : status * option N * slots * list callback :=
    match ev with
    | Call f c => windows_call m f c
    | ThreadExit f =>
        (ST_SUCCESS, None, forget m f, flat_map (fun k => due_now m k f) (order (map fst (live m))))
    | ProcessExit => (ST_SUCCESS, None, m, [])   (* not modelled: see the property file *)
    end.
End Windows.

(** ** Histories *)
Notation tentry := (tevent * status * option N * list callback)%type.
Fixpoint history (step : slots -> tevent -> status * option N * slots * list callback) (m : slots) (es : list tevent)
    : slots * list tentry :=
  match es with
  | [] => (m, [])
  | ev :: es =>
      let '(st, r, m1, log) := step m ev in
      let '(m2, tr) := history step m1 es in (m2, (ev, st, r, log) :: tr)
  end.

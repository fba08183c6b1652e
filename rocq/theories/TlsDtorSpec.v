(** What the header says about the destructors of thread-local storage (include/Zycore/API/Thread.h:185-194), in terms of
    the calls that were made and their results. *)
From Verif Require Import Base Status ApiModel TlsDtorModel.
From Coq Require Import Permutation.

(** What the trace says about slot [k] of thread [t]: [None] if the slot is not allocated, else the destructor it was
    allocated with and the value the thread has stored (0: NULL). *)
Definition stored_step (k t : N) (old : option (N * N)) (e : tentry) : option (N * N) :=
  let '(ev, st, r, _) := e in
  match ev with
  | Call u c =>
      if st_success st then
        match c, r with
        | DAlloc d _ _, Some i => if k =? i then Some (d, 0) else old
        | DFree k', _ => if k =? k' then None else old
        | DSet k' x _, _ => if (k =? k') && (t =? u) then option_map (fun y => (fst y, x)) old else old
        | _, _ => old
        end
      else old
  | ThreadExit u => if t =? u then option_map (fun y => (fst y, 0)) old else old
  | ProcessExit => old
  end.
Definition stored (k t : N) (tr : list tentry) : option (N * N) := fold_left (stored_step k t) tr None.
(** The destructor has to be invoked once with the value if both are there. *)
Definition due (k t : N) (s : option (N * N)) : list callback :=
  match s with
  | Some (d, x) => if (d =? 0) || (x =? 0) then [] else [(k, t, d, x)]
  | None => []
  end.
Definition of_slot (k : N) (c : callback) : bool := fst (fst (fst c)) =? k.
Definition of_owner (t : N) (c : callback) : bool := snd (fst (fst c)) =? t.
Definition with_value (c : callback) : bool := negb (snd c =? 0).
(** The system visits slots in any order, each once. *)
Definition any_order (order : list N -> list N) : Prop := forall l, Permutation l (order l).
(** POSIX: at the end of a thread, never at other times. *)
Definition posix_rule (tr : list tentry) (ev : tevent) (log : list callback) : Prop :=
  match ev with
  | ThreadExit t => forall k, filter (of_slot k) log = due k t (stored k t tr)
  | _ => log = []
  end.
(** Windows: at the end of a thread and when the slot is released.  The callbacks for values that are not NULL. *)
Definition windows_rule (tr : list tentry) (ev : tevent) (st : status) (log : list callback) : Prop :=
  match ev with
  | ThreadExit f => forall k, filter (fun c => of_slot k c && with_value c) log = due k f (stored k f tr)
  | Call _ (DFree k) =>
      if st_success st then
        forallb (of_slot k) log = true /\
        forall u, filter (fun c => of_owner u c && with_value c) log = due k u (stored k u tr)
      else log = []
  | _ => log = []
  end.

(** Client programs around the atomic operations: a spin lock, an update in a compare-exchange loop, a reference count
    (property C87).  No proofs here. *)
From Verif Require Import Base AtomicModel SyncModel.
From Verif Require GuardSpec.

(** One atomic call, made and returned from: new contents of the cell and the result.  What a call does after its builtin
    touches the thread's own variables only (include/Zycore/Internal/AtomicGNU.h:47-107). *)
Definition atomic_call (w : N) (c : acall) (cell : N) : N * N :=
  let '(cell', x) := builtin w c cell in (cell', returned w c x).

(** ** A spin lock
    Enter: "while (ZyanAtomicCompareExchange(&x, 0, 1) != 0);", of which an iteration that fails changes nothing.  TryEnter:
    one such call.  Leave: [release], which is ZyanAtomicCompareExchange(&x, 1, 0) or ZyanAtomicDecrement(&x). *)
Definition spin_section (w : N) (release : acall) : GuardSpec.section N :=
  GuardSpec.mksection
    (fun how _ _ cell =>
       let '(cell', x) := atomic_call w (CompareExchange 0 1) cell in
       if x =? 0 then Some (true, cell') else match how with Enter => None | _ => Some (false, cell') end)
    (fun _ _ cell => Some (fst (atomic_call w release cell))).
Definition releases (c : acall) : Prop := c = CompareExchange 1 0 \/ c = Decrement.

(** ** Updates in a loop
    "old = ZyanAtomicCompareExchange(&x, 0, 0); loop: seen = ZyanAtomicCompareExchange(&x, old, f(old)); if (seen != old)
    { old = seen; goto loop; }" for each function [f] in the list of the thread. *)
Section Updates.
  Context (w : N).
  Record updater := mkupdater {
    updates : list (N -> N);
    old : option N;               (** the value read last; [None]: the loop has not begun *)
    replaced : list N;            (** the values that the thread has replaced, oldest first *)
    retries : N                   (** number of iterations that failed *)
  }.
  Definition update_step (u : updater) (cell : N) : updater * N :=
    match updates u with
    | [] => (u, cell)
    | f :: rest =>
        match old u with
        | None => let '(cell', x) := atomic_call w (CompareExchange 0 0) cell in
                  (mkupdater (updates u) (Some x) (replaced u) (retries u), cell')
        | Some o => let '(cell', x) := atomic_call w (CompareExchange o (f o)) cell in
                    if x =? o then (mkupdater rest None (replaced u ++ [o]) (retries u), cell')
                    else (mkupdater (updates u) (Some x) (replaced u) (retries u + 1), cell')
        end
    end.
  Record updating := mkupdating { ucell : N; uthreads : N -> updater }.
  Definition update_one (m : updating) (i : N) : updating :=
    let '(u, x) := update_step (uthreads m i) (ucell m) in
    mkupdating x (fun j => if j =? i then u else uthreads m j).
  Definition update_run (x0 : N) (programs : N -> list (N -> N)) (schedule : list N) : updating :=
    fold_left update_one schedule (mkupdating x0 (fun i => mkupdater (programs i) None [] 0)).

  (** The updates of the list, made one after the other: thread, function, value replaced. *)
  Inductive updates_made : N -> list (N * (N -> N) * N) -> N -> Prop :=
  | um_nil x : updates_made x [] x
  | um_snoc x h y i f : updates_made x h y -> updates_made x (h ++ [(i, f, y)]) (f y).
  Definition updates_of (i : N) (h : list (N * (N -> N) * N)) : list ((N -> N) * N) :=
    map (fun e => (snd (fst e), snd e)) (filter (fun e => fst (fst e) =? i) h).
  Definition updates_of_others (i : N) (h : list (N * (N -> N) * N)) : N :=
    nlen (filter (fun e => negb (fst (fst e) =? i)) h).
End Updates.

(** ** A reference count
    Thread [i] begins with [h i] references; Increment copies one that the thread has, Decrement gives one up; a thread
    whose Decrement returns 0 destroys the object. *)
Fixpoint owns_enough (h : N) (calls : list acall) : Prop :=
  match calls with
  | [] => True
  | Increment :: cs => 1 <= h /\ owns_enough (h + 1) cs
  | Decrement :: cs => 1 <= h /\ owns_enough (h - 1) cs
  | CompareExchange _ _ :: _ => False
  end.
(** All references of the thread are given up in the end. *)
Fixpoint left_over (h : N) (calls : list acall) : N :=
  match calls with
  | [] => h
  | Increment :: cs => left_over (h + 1) cs
  | Decrement :: cs => left_over (h - 1) cs
  | CompareExchange _ _ :: cs => left_over h cs
  end.
Fixpoint sum_to (n : nat) (f : N -> N) : N := match n with O => 0 | S n => f (N.of_nat n) + sum_to n f end.
Definition copies (calls : list acall) : N := nlen (filter (fun c => match c with Increment => true | _ => false end) calls).
(** How often the calls that a thread has made told it to destroy the object. *)
Definition destroys (made : list (acall * N)) : N :=
  nlen (filter (fun e => match e with (Decrement, 0) => true | _ => false end) made).

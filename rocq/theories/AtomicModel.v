(** Atomic operations, include/Zycore/Internal/AtomicGNU.h:47-105 and AtomicMSVC.h:51-129, executed by
    several threads on one shared cell.

    The compiler builtins (__sync_val_compare_and_swap, __sync_fetch_and_add, __sync_sub_and_fetch) are single
    atomic steps with full barriers, so executions are interleavings; everything else a function does is a
    separate, thread-local step that may be interleaved with other threads.  [width] is the width of the cell in
    bits (32 or 64; the pointer versions are those of the pointer width). *)
From Verif Require Import Base.

Inductive acall :=
| CompareExchange (comparand value : N)
| Increment
| Decrement.

Section Atomic.
  Context (width : N).

  (** The builtin a call is made of: new contents of the cell and the value the builtin returns.
      __sync_val_compare_and_swap returns the old value, __sync_fetch_and_add the old value,
      __sync_sub_and_fetch the new value. *)
  Definition builtin (c : acall) (cell : N) : N * N :=
    match c with
    | CompareExchange comparand value => (if cell =? comparand then value else cell, cell)
    | Increment => ((cell + 1) mod 2 ^ width, cell)
    | Decrement => let n := (cell + (2 ^ width - 1)) mod 2 ^ width in (n, n)
    end.
  (** What the function returns given the value of the builtin (AtomicGNU.h:50-52, 56-58, 63; 74-76, 80, 85;
      94-96, 101, 106): Increment adds 1 after __sync_fetch_and_add, in unsigned arithmetic. *)
  Definition returned (c : acall) (x : N) : N :=
    match c with
    | CompareExchange _ _ => x
    | Increment => (x + 1) mod 2 ^ width
    | Decrement => x
    end.

  (** A thread: calls still to make, a call whose builtin has been executed but that has not returned yet,
      and the calls that returned, oldest first. *)
  Record thread := mkthread {
    todo : list acall;
    pending : option (acall * N);
    done : list (acall * N)
  }.
  (** One step of a thread. *)
  Definition tstep (t : thread) (cell : N) : thread * N :=
    match pending t with
    | Some (c, x) => (mkthread (todo t) None (done t ++ [(c, returned c x)]), cell)
    | None =>
        match todo t with
        | [] => (t, cell)
        | c :: cs => let '(cell', x) := builtin c cell in (mkthread cs (Some (c, x)) (done t), cell')
        end
    end.
  (** The machine: one shared cell, a thread for every identifier. *)
  Record machine := mkmachine { cell : N; threads : N -> thread }.
  Definition mstep (m : machine) (i : N) : machine :=
    let '(t, x) := tstep (threads m i) (cell m) in
    mkmachine x (fun j => if j =? i then t else threads m j).
  (** A schedule is the list of threads that take a step. *)
  Definition mrun (m : machine) (schedule : list N) : machine := fold_left mstep schedule m.
  Definition start (x : N) (programs : N -> list acall) : machine :=
    mkmachine x (fun i => mkthread (programs i) None []).
End Atomic.

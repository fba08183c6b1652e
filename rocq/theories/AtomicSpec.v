(** Sequential meaning of the atomic calls (documented in include/Zycore/Atomic.h:148-178). *)
From Verif Require Import Base AtomicModel.

(** [seq_call w c x r y]: called on the value [x], the call returns [r] and leaves [y]. *)
Inductive seq_call (w : N) : acall -> N -> N -> N -> Prop :=
| seq_swap c v : seq_call w (CompareExchange c v) c c v
| seq_keep c v x : x <> c -> seq_call w (CompareExchange c v) x x x
| seq_inc x y : x + 1 < 2 ^ w -> y = x + 1 -> seq_call w Increment x y y
| seq_inc_wrap : seq_call w Increment (2 ^ w - 1) 0 0
| seq_dec x y : 0 < x -> y = x - 1 -> seq_call w Decrement x y y
| seq_dec_wrap : seq_call w Decrement 0 (2 ^ w - 1) (2 ^ w - 1).

(** A history: which thread made which call with which result, one after the other. *)
Inductive seq_history (w : N) : N -> list (N * (acall * N)) -> N -> Prop :=
| sh_nil x : seq_history w x [] x
| sh_snoc x h y i c r z : seq_history w x h y -> seq_call w c y r z ->
    seq_history w x (h ++ [(i, (c, r))]) z.

(** The part of a history that belongs to thread [i]. *)
Definition of_thread (i : N) (h : list (N * (acall * N))) : list (acall * N) :=
  map snd (filter (fun e => fst e =? i) h).
(** Number of increments minus number of decrements. *)
Definition balance (h : list (N * (acall * N))) : Z :=
  fold_right (fun e s => match fst (snd e) with Increment => (s + 1)%Z | Decrement => (s - 1)%Z | _ => s end) 0%Z h.
Definition only_count (cs : list acall) : Prop :=
  forall c, In c cs -> c = Increment \/ c = Decrement.
(** The value a compare-exchange may store fits the cell. *)
Definition cas_fits (w : N) (c : acall) : Prop := match c with CompareExchange _ v => v < 2 ^ w | _ => True end.
(** Calls of a thread with their results in program order: returned ones, then the one in flight. *)
Definition made (w : N) (t : thread) : list (acall * N) :=
  done t ++ match pending t with Some (c, x) => [(c, returned w c x)] | None => [] end.
Definition two_threads : N -> list acall := fun i =>
  if i =? 0 then [Increment; CompareExchange 7 3] else if i =? 1 then [Increment; Decrement] else [].

(** What a trace of calls on a critical section means. *)
From Verif Require Import Base Status SyncModel.

(** The call gave the thread the section / gave it up. *)
Definition entered (e : event) : bool :=
  match e with
  | (_, Enter, RStatus st) => st_success st
  | (_, TryEnter, RBool b) => b
  | _ => false
  end.
Definition left (e : event) : bool :=
  match e with
  | (_, Leave, RStatus st) => st_success st
  | _ => false
  end.
(** How often thread [t] entered the section without having left it again. *)
Definition holds (t : N) (trace : list event) : Z :=
  fold_right (fun e n => if fst (fst e) =? t then
                           (if entered e then n + 1 else if left e then n - 1 else n)%Z
                         else n) 0%Z trace.
(** Nobody else holds the section when a thread enters it, and only a thread that holds it leaves it. *)
Definition trace_ok (tr : list event) : Prop :=
  forall a t c r b, tr = a ++ (t, c, r) :: b ->
    (entered (t, c, r) = true -> forall u, u <> t -> holds u a = 0%Z) /\
    (left (t, c, r) = true -> (0 < holds t a)%Z).
(** A section right after a successful Initialize. *)
Definition fresh_section : mutex := mkmutex true None 0.

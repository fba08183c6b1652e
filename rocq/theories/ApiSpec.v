(** What a trace of thread-local storage calls means. *)
From Verif Require Import Base Status ApiModel.

(** What thread [t] finds under key [k] after the calls of a trace (newest last). *)
Definition tls_effect (k t : N) (e : tlsevent) (old : N) : N :=
  match e with
  | (u, c, st, r) =>
      if st_success st then
        match c, r with
        | TAlloc _ _, Some i => if k =? i then 0 else old      (* the index the caller was given *)
        | TSet k' d _, _ => if (k =? k') && (t =? u) then d else old
        | _, _ => old
        end
      else old
  end.
Definition tls_last (k t : N) (tr : list tlsevent) (old : N) : N :=
  fold_left (fun x e => tls_effect k t e x) tr old.
Definition key_event (k : N) (e : tlsevent) : option bool :=
  match e with
  | (_, TAlloc _ _, st, Some i) => if (k =? i) && st_success st then Some true else None
  | (_, TFree k', st, _) => if (k =? k') && st_success st then Some false else None
  | _ => None
  end.
(** The key is in use: its last successful Alloc is not followed by a successful Free. *)
Definition key_live (k : N) (tr : list tlsevent) (old : bool) : bool :=
  fold_left (fun x e => match key_event k e with Some b => b | None => x end) tr old.
(** A process that has not used thread-local storage yet. *)
Definition no_tls : tls := mktls [] (fun _ _ => 0).

(** C89: what the calls on thread-local storage with destructors answer. *)
From Verif Require Import Base Status ApiModel WinModel TlsDtorModel TlsDtorSpec TlsAnswerSpec TlsAnswerProofs.
From Coq Require Import Permutation.
Local Open Scope N_scope.

(** C89, POSIX.  After any history of calls and thread ends (destructors that do not use thread-local storage), every call
    answers as the calls before say: [answer_rule]. *)
Theorem c89_posix_answers :
  forall act order rounds, (forall d x, act d x = []) -> any_order order -> (1 <= rounds)%nat ->
  forall es m tr ev st r m' log,
    history (posix_step act order rounds) no_slots es = (m, tr) -> posix_step act order rounds m ev = (st, r, m', log) ->
    answer_rule None tr ev st r.
Proof. exact posix_answer_ok. Qed.
Print Assumptions c89_posix_answers.
(** C89, Windows. *)
Theorem c89_windows_answers :
  forall order null_too, any_order order ->
  forall es m tr ev st r m' log,
    history (windows_step order null_too) no_slots es = (m, tr) -> windows_step order null_too m ev = (st, r, m', log) ->
    answer_rule (Some FLS_OUT_OF_INDEXES) tr ev st r.
Proof. exact windows_answer_ok. Qed.
Print Assumptions c89_windows_answers.

(** A slot is used, released, and used again by another thread. *)
Example c89_answers_met : any_order (@rev N) /\
  map (fun e => let '(_, st, r, _) := e in (st, r)) (snd (history (posix_step (fun _ _ => []) (@rev N) 4) no_slots
    [Call 1 (DAlloc 100 7 0); Call 1 (DSet 7 11 0); Call 2 (DGet 7); Call 1 (DGet 7); Call 2 (DFree 7); Call 1 (DSet 7 12 0);
     Call 2 (DFree 7); Call 2 (DAlloc 0 7 0); Call 1 (DGet 7); Call 1 (DAlloc 0 7 0)]))
  = [(ST_SUCCESS, Some 7); (ST_SUCCESS, None); (ST_SUCCESS, Some 0); (ST_SUCCESS, Some 11); (ST_SUCCESS, None);
     (ST_INVALID_ARGUMENT, None); (ST_BAD_SYSTEMCALL, None); (ST_SUCCESS, Some 7); (ST_SUCCESS, Some 0);
     (ST_OUT_OF_RESOURCES, None)].
Proof. split; [exact (@Permutation_rev N)|vm_compute; reflexivity]. Qed.

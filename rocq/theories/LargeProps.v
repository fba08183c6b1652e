(** C99, for buffers with much unused room.  Statements only. *)
From Verif Require Import Base Status Mem VectorModel VectorDriver StringModel StringSpec StringDriver
  FormatModel FormatSpec FormatDriver FormatExamples AppendSpec LargeProofs LargeExamples.

(** AppendFormat compares the length of the text with the unused room as a 32-bit int.  On a fixed buffer with room for
    the whole text, but so much that its low 32 bits are a negative int or one smaller than the text's length, a debug
    build fails an assertion whatever the second formatter answer [t2] is, as long as the room that is left is such a
    number, too; a release build reports success and shows [t2] behind the old characters instead of the text [t]. *)
Theorem c99_large_room_refuted :
  forall is64 k (w : world N) s cs t,
    freached is64 (Some k) w s cs -> nlen cs + nlen t <= k -> int_text t -> sroom (nlen cs + nlen t) ->
    let m := (k - nlen cs) mod 4294967296 in 2147483648 <= m \/ m < nlen t ->
    let r := k - nlen cs - nlen t in let m2 := r mod 4294967296 in
    exists s',
      (forall t2, checked w = true -> 2147483648 <= m2 \/ m2 < nlen t2 ->
         sappend_format (FText t) (FText t2) s w = Fault AssertFailed) /\
      (forall t2, checked w = false -> exists w',
         sappend_format (FText t) (FText t2) s w = Ok (ST_SUCCESS, s') w' /\
         seen w' s' (nlen cs + nlen t) k (cs ++ nfirst r t2 ++ [0])) /\
      (forall t2, exists w',
         sappend_format (FText t) (FError t2) s w = Ok (ST_FAILED, s') w' /\
         seen w' s' (nlen cs + nlen t) k (cs ++ nfirst r t2)).
Proof. exact format_large. Qed.
Print Assumptions c99_large_room_refuted.
Example c99_large_room_hypotheses_met : forall build : bool, exists (w : world N) s,
  freached true (Some 2147483700) w s [] /\ checked w = build /\ nlen (@nil N) + nlen [120;121] <= 2147483700 /\
  int_text [120;121] /\ sroom (nlen (@nil N) + nlen [120;121]) /\ 2147483648 <= (2147483700 - nlen (@nil N)) mod 4294967296 /\
  2147483648 <= (2147483700 - nlen (@nil N) - nlen [120;121]) mod 4294967296.
Proof.
  intros build. destruct (freach_empty true build 2147483700 eq_refl) as (w & s & R & B). exists w, s.
  split; [exact R|]. split; [exact B|]. repeat split; vm_compute; congruence.
Qed.

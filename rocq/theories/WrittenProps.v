(** Property C101: command lines are read back as they were written. *)
From Coq Require Import String Permutation.
From Verif Require Import Base Status Mem VectorModel StringModel ArgModel ArgSpec ArgDriver ArgExamples WrittenSpec WrittenProofs WrittenExamples.
Import ListNotations.
Local Open Scope N_scope.

(** Whatever options with long names, options with values (with flags in front in the same token, value attached or not) and
    arguments a user writes, and whatever they write behind "--": ZyanArgParse returns exactly these, in this order, if the number
    of arguments and the required options are as configured.  Flags with a short name that are not followed by an option with a
    value in the same token are missing here; see below. *)
Theorem c101_written_partial :
  forall tw cfg prog is rest ds w, parse_args tw cfg prog (written is rest) ds w -> Forall (item_ok ds) is ->
    ac_min cfg <= nlen (unnamed_of (meant is rest)) <= ac_max cfg -> required_present ds (meant is rest) ->
    exists r w', argparse tw cfg w = Ok r w' /\ delivered tw w w' r (Accept (meant is rest)).
Proof. exact written_back. Qed.
Print Assumptions c101_written_partial.
(** The order does not matter: if a command line is accepted, so is each one with the same items in another order, and the
    result has the same entries. *)
Theorem c101_any_order_partial :
  forall tw cfg prog is rest ds w tw' cfg' prog' is' w',
    parse_args tw cfg prog (written is rest) ds w -> parse_args tw' cfg' prog' (written is' rest) ds w' ->
    ac_min cfg' = ac_min cfg -> ac_max cfg' = ac_max cfg -> Permutation is is' -> Forall (item_ok ds) is ->
    forall ov tok w1, argparse tw cfg w = Ok (ST_SUCCESS, ov, tok) w1 ->
    exists r w2, argparse tw' cfg' w' = Ok r w2 /\ delivered tw' w' w2 r (Accept (meant is' rest)) /\
      Permutation (meant is rest) (meant is' rest).
Proof. exact written_any_order. Qed.
Print Assumptions c101_any_order_partial.
Example c101_written_met :
  let is := some_items in let is' := rev some_items in let rest := some_rest in
  Permutation is is' /\ Forall (item_ok defs) is /\ required_present defs (meant is rest) /\ nlen (unnamed_of (meant is rest)) = 3 /\
  (let s := setup (chars "prog") (written is rest) defs 1 9 in parse_args (fst s) (snd s) (chars "prog") (written is rest) defs aworld) /\
  (let s := setup (chars "prog") (written is' rest) defs 1 9 in parse_args (fst s) (snd s) (chars "prog") (written is' rest) defs aworld).
Proof.
  split; [apply Permutation_rev|]. split; [exact some_items_ok|]. split; [exact some_required|]. split; [reflexivity|].
  split; apply call_ok; vm_compute; reflexivity.
Qed.

(** A flag with a short name in a token of its own always adds an argument that the user did not write: such a command line is
    rejected if it contains as many arguments as are allowed, and otherwise the result has one argument too many. *)
Theorem c101_short_flag_refuted :
  forall tw cfg prog is d c is2 rest ds w,
    parse_args tw cfg prog (written is None ++ [dash; c] :: written is2 rest) ds w ->
    Forall (item_ok ds) is -> Forall (item_ok ds) is2 -> c <> dash -> named ds [dash; c] d true ->
    let es := meant is None ++ flag d :: unnamed [dash; c] :: meant is2 rest in
    (ac_max cfg < nlen (unnamed_of es) -> exists t r w', argparse tw cfg w = Ok r w' /\ delivered tw w w' r (Reject ST_TOO_MANY_ARGS (Some t))) /\
    (ac_min cfg <= nlen (unnamed_of es) <= ac_max cfg -> required_present ds es ->
     exists r w', argparse tw cfg w = Ok r w' /\ delivered tw w w' r (Accept es)).
Proof. exact written_flag_extra. Qed.
Print Assumptions c101_short_flag_refuted.
Example c101_short_flag_met :
  let ts := written some_items None ++ [dash; 97] :: written [] some_rest in
  (let s := setup (chars "prog") ts defs 1 9 in parse_args (fst s) (snd s) (chars "prog") ts defs aworld) /\
  Forall (item_ok defs) some_items /\ Forall (item_ok defs) [] /\ 97 <> dash /\ named defs [dash; 97] 0 true.
Proof.
  split; [apply call_ok; vm_compute; reflexivity|]. split; [exact some_items_ok|]. split; [constructor|]. split; [discriminate|exact named_a].
Qed.

(** Property theorems of the argument parser (C40-C43).  Statements only; the counterexamples are in ArgRefuted.v. *)
From Coq Require Import String.
From Verif Require Import Base NListFacts Status Mem MemFacts VectorModel VectorDriver StringModel StringDriver ArgModel ArgSpec ArgDriver ArgFinal2 ArgWords ArgExamples.
From Coq Require Import ZifyBool ZifyNat ZifyN.
Import ListNotations.
Local Open Scope N_scope.

(** C40.  Every token list, definition table and bound: the call ends in the outcome that the grammar gives, with the
    entries in order (values as views of their texts), the status of the first error and its token.  The grammar is the
    actual one, in which "-ab" of flags only is also an unnamed argument. *)
Theorem c40_grammar_actual_partial :
  forall tw cfg prog ts ds w, parse_args tw cfg prog ts ds w ->
    exists es stop o r w',
      scan ds actual true ts es stop /\ judged ds (ac_min cfg) (ac_max cfg) es stop o /\
      argparse tw cfg w = Ok r w' /\ delivered tw w w' r o.
Proof. exact parse_ok. Qed.
Print Assumptions c40_grammar_actual_partial.
(** The grammar is a function of the tokens: they are read in exactly one way. *)
Theorem c40_grammar_function :
  forall ds behind a ts, exists! x : list entry * option (status * token), scan ds behind a ts (fst x) (snd x).
Proof. exact grammar_function. Qed.
Print Assumptions c40_grammar_function.
(** What the entries are read back from: eight bytes are a word exactly if that word was stored there
    whole, each byte of it in its place. *)
Theorem c40_words :
  forall x a, (dec_word x = Some a <-> x = enc_word a) /\ nlen (enc_word a) = 8 /\ (a <> WZero -> NoDup (enc_word a)).
Proof. exact words_exact. Qed.
Print Assumptions c40_words.
Example c40_words_met : dec_word (firstn 4 (enc_word (WNum 3)) ++ skipn 4 (enc_word (WDef 3))) = None /\ dec_word (enc_word (WNum 3)) = Some (WNum 3).
Proof. split; reflexivity. Qed.
(** The documented grammar, when no token consists of flags only: success exactly for the token lists of the language. *)
Theorem c40_documented_partial :
  forall tw cfg prog ts ds w, parse_args tw cfg prog ts ds w -> Forall (fun t => ~ flags_only ds t) ts ->
    exists st ov tok w', argparse tw cfg w = Ok (st, ov, tok) w' /\
      (st = ST_SUCCESS <-> exists es, accepts ds documented (ac_min cfg) (ac_max cfg) ts es) /\
      (forall es, accepts ds documented (ac_min cfg) (ac_max cfg) ts es -> delivered tw w w' (st, ov, tok) (Accept es)).
Proof. exact parse_documented. Qed.
Print Assumptions c40_documented_partial.
(** Bad bounds, a bad name or no allocator: INVALID_ARGUMENT, nothing stored, nothing allocated. *)
Theorem c40_invalid_config :
  forall tw cfg prog ts ds allocator w, config_is tw cfg prog ts ds ->
    ac_max cfg < ac_min cfg \/ ~ names_ok ds \/ allocator = false ->
    argparse_ex tw cfg allocator w = Ok (ST_INVALID_ARGUMENT, None, None) w.
Proof. exact bad_config. Qed.
Print Assumptions c40_invalid_config.
Example c40_hypotheses_met :
  (let s := setup (chars "prog") words defs 1 9 in parse_args (fst s) (snd s) (chars "prog") words defs aworld) /\
  (let s := setup (chars "prog") (line ["-abx"; "w1"]%string) defs 1 9 in
   parse_args (fst s) (snd s) (chars "prog") (line ["-abx"; "w1"]%string) defs aworld) /\
  Forall (fun t => ~ flags_only defs t) (line ["-abx"; "w1"]%string) /\
  ~ names_ok [mksdef (chars "-ab") true true].
Proof.
  split; [apply call_ok; vm_compute; reflexivity|]. split; [apply call_ok; vm_compute; reflexivity|]. split.
  - constructor; [|constructor; [|constructor]].
    + intros (_ & cs & fs & E & F). injection E as <-. inversion F as [|c d cs' fs' NM F' E1 E2]; subst. clear F NM. inversion F' as [|c d' cs fs NM F E1 E2]; subst.
      destruct NM as (x & NX & SN & SB & _). unfold nnth, defs in NX. destruct (N.to_nat d') as [|[|[|[|k]]]]; cbn in NX; try (injection NX as <-; discriminate SN || discriminate SB).
      destruct k; discriminate NX.
    + intros (_ & cs & fs & E & F). discriminate E.
  - intros F. inversion F as [|x l [(c & E)|(y & E)] _ E1]; discriminate E.
Qed.

(** C42.  Success implies the bounds and the presence of all required options, in terms of the entries the caller sees
    (which count flags-only tokens as unnamed). *)
Theorem c42_bounds_required_partial :
  forall tw cfg prog ts ds w, parse_args tw cfg prog ts ds w ->
  forall ov tok w', argparse tw cfg w = Ok (ST_SUCCESS, ov, tok) w' ->
    exists es v, ov = Some v /\ ashows tw w' v es /\ ac_min cfg <= nlen (unnamed_of es) <= ac_max cfg /\ required_present ds es.
Proof. exact success_bounds. Qed.
Print Assumptions c42_bounds_required_partial.
(** Tokens without a syntax error give the error that matches. *)
Theorem c42_matching_error_partial :
  forall tw cfg prog ts ds w es, parse_args tw cfg prog ts ds w -> scan ds actual true ts es None ->
    exists st ov tok w', argparse tw cfg w = Ok (st, ov, tok) w' /\
      let n := nlen (unnamed_of es) in
      (n < ac_min cfg -> st = ST_TOO_FEW_ARGS) /\
      (ac_max cfg < n -> st = ST_TOO_MANY_ARGS /\ exists t, nnth (ac_max cfg) (unnamed_of es) = Some t /\ etok_is tw tok (Some t)) /\
      (forall name, ac_min cfg <= n <= ac_max cfg -> first_missing ds es name -> st = ST_REQUIRED_ARG_MISSING /\ etok_is tw tok (Some name)) /\
      (ac_min cfg <= n <= ac_max cfg -> required_present ds es -> st = ST_SUCCESS).
Proof. exact matching_error. Qed.
Print Assumptions c42_matching_error_partial.
Example c42_hypotheses_met :
  let s := setup (chars "prog") (line ["u"; "v"]%string) defs 1 1 in
  parse_args (fst s) (snd s) (chars "prog") (line ["u"; "v"]%string) defs aworld /\
  scan defs actual true (line ["u"; "v"]%string) [unnamed (chars "u"); unnamed (chars "v")] None.
Proof.
  split; [apply call_ok; vm_compute; reflexivity|].
  apply scan_unnamed; [right; intros (c & y & X); discriminate X|]. apply scan_unnamed; [right; intros (c & y & X); discriminate X|constructor].
Qed.

(** C43.  With any behaviour of the allocator the call ends in the outcome that the grammar gives, and then an error has
    released everything; or a request failed.  In that case nothing stays allocated if it was the first one; for the later
    ones see c43_growth_failure_refuted and c43_later_refusal_leaks_refuted. *)
Theorem c43_release_partial :
  forall tw cfg prog ts ds w,
    config_is tw cfg prog ts ds -> names_ok ds -> ac_min cfg <= ac_max cfg -> world_ok w -> arg_room ts ->
    exists es stop r w',
      scan ds actual true ts es stop /\ argparse_ex tw cfg true w = Ok r w' /\
      ((exists o, judged ds (ac_min cfg) (ac_max cfg) es stop o /\ delivered tw w w' r o) \/ out_of_memory w r w').
Proof. exact any_release. Qed.
Print Assumptions c43_release_partial.
Example c43_hypotheses_met :
  let s := setup (chars "prog") words defs 1 9 in
  config_is (fst s) (snd s) (chars "prog") words defs /\ names_ok defs /\ ac_min (snd s) <= ac_max (snd s) /\ world_ok (aworld_failing [0; 2]) /\ arg_room words.
Proof.
  assert (P : let s := setup (chars "prog") words defs 1 9 in parse_args (fst s) (snd s) (chars "prog") words defs aworld)
    by (apply call_ok; vm_compute; reflexivity).
  destruct P as (P1 & P2 & P3 & _ & _ & P4). split; [exact P1|]. split; [exact P2|]. split; [exact P3|]. split; [intros b _; reflexivity|exact P4].
Qed.

(** C43.  Every error that is not one of the grammar's is one of the allocator. *)
Theorem c43_errors :
  forall tw cfg prog ts ds w st ov tok w',
    config_is tw cfg prog ts ds -> names_ok ds -> ac_min cfg <= ac_max cfg -> world_ok w -> arg_room ts ->
    argparse_ex tw cfg true w = Ok (st, ov, tok) w' -> st <> ST_SUCCESS ->
    In st grammar_errors /\ (forall k, heap w' k = heap w k) \/ out_of_memory w (st, ov, tok) w'.
Proof. exact other_errors. Qed.
Print Assumptions c43_errors.
(** Both occur, the second with the first request and with the second. *)
Example c43_errors_occur :
  let run w ts := let '(tw, cfg) := setup (chars "prog") (line ts) defs 1 9 in
    match argparse_ex tw cfg true w with Ok (st, _, _) _ => Some st | _ => None end in
  run aworld ["-a"; "-y"]%string = Some ST_ARG_NOT_UNDERSTOOD /\
  run (aworld_failing [0]) ["-a"; "-y"]%string = Some (err_status 7) /\
  run (aworld_failing [1]) ["-aaaaa"]%string = Some (err_status 7).
Proof. vm_compute. auto. Qed.

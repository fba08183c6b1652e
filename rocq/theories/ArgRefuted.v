(** Argument parser properties that the code does not have. *)
From Coq Require Import String.
From Verif Require Import Base NListFacts Status Mem MemFacts VectorModel VectorDriver StringModel StringDriver ArgModel ArgSpec ArgDriver ArgFinal2 ArgExamples.
From Coq Require Import ZifyBool ZifyNat ZifyN.
Import ListNotations.
Local Open Scope N_scope.

(** C41 (and with it the documented grammar of C40) is false for every token "-abc" that consists of flags: the token
    is also an unnamed argument.  If no unnamed arguments are allowed, the call fails. *)
Theorem c41_clusters_refuted :
  forall tw cfg prog ds cs fs w,
    parse_args tw cfg prog [dash :: cs] ds w -> short (dash :: cs) -> flags ds cs fs ->
    exists r w', argparse_ex tw cfg true w = Ok r w' /\
      (ac_max cfg = 0 -> delivered tw w w' r (Reject ST_TOO_MANY_ARGS (Some (dash :: cs)))) /\
      (ac_min cfg <= 1 <= ac_max cfg -> required_present ds fs -> delivered tw w w' r (Accept (fs ++ [unnamed (dash :: cs)]))).
Proof. exact clusters_unnamed. Qed.
Print Assumptions c41_clusters_refuted.
Example c41_instance :
  (let s := setup (chars "prog") [chars "-ab"] two_flags 0 0 in
   parse_args (fst s) (snd s) (chars "prog") [dash :: chars "ab"] two_flags aworld /\ ac_max (snd s) = 0) /\
  (let s := setup (chars "prog") [chars "-ab"] two_flags 0 1 in
   parse_args (fst s) (snd s) (chars "prog") [dash :: chars "ab"] two_flags aworld /\ ac_min (snd s) <= 1 <= ac_max (snd s)) /\
  short (dash :: chars "ab") /\ flags two_flags (chars "ab") [flag 0; flag 1] /\ required_present two_flags [flag 0; flag 1].
Proof.
  split; [split; [apply call_ok; vm_compute; reflexivity|reflexivity]|].
  split; [split; [apply call_ok; vm_compute; reflexivity|vm_compute; split; discriminate]|].
  split; [exists 97, [98]; split; [reflexivity|discriminate]|]. split.
  - apply flags_cons.
    + exists (mksdef (chars "-a") true true). repeat split; try reflexivity. intros j y L. lia.
    + apply flags_cons; [|constructor]. exists (mksdef (chars "-b") true false). repeat split; try reflexivity.
      intros j y L E. assert (J : j = 0) by lia. subst j. injection E as <-. discriminate.
  - intros d x E R. destruct d as [|[p|p|]]; cbn in E.
    + exists (flag 0). split; [now left|reflexivity].
    + exfalso. unfold nnth in E. apply nth_error_In in E as I. assert (N.to_nat (N.pos p~1) < length two_flags)%nat by (apply nth_error_Some; congruence). cbn [length two_flags] in *. lia.
    + exfalso. unfold nnth in E. assert (N.to_nat (N.pos p~0) < length two_flags)%nat by (apply nth_error_Some; congruence). cbn [length two_flags] in *. lia.
    + exists (flag 1). split; [right; now left|reflexivity].
Qed.
Example c41_runs :
  outcome_of (parse (chars "prog") [chars "-ab"] two_flags 0 0 aworld) = inr (ST_TOO_MANY_ARGS, [], Some (chars "-ab")) /\
  outcome_of (parse (chars "prog") [chars "-ab"] two_flags 0 1 aworld) = inr (ST_SUCCESS, [flag 0; flag 1; unnamed (chars "-ab")], None).
Proof. split; vm_compute; reflexivity. Qed.

(** C42 is false for definitions that share their name: if the later one is required, no token list is accepted, although
    the option named may be present.  The configuration is not reported as invalid either. *)
Theorem c42_duplicate_required_refuted :
  forall tw cfg prog ts ds w i j x y,
    parse_args tw cfg prog ts ds w ->
    i < j -> nnth i ds = Some x -> nnth j ds = Some y -> sd_name x = sd_name y -> sd_required y = true ->
    exists st ov tok w', argparse_ex tw cfg true w = Ok (st, ov, tok) w' /\ st <> ST_SUCCESS.
Proof. exact duplicate_never. Qed.
Print Assumptions c42_duplicate_required_refuted.
Example c42_instance :
  (let s := setup (chars "prog") (line ["--in"; "f"; "--in"; "g"]%string) twice 0 9 in
   parse_args (fst s) (snd s) (chars "prog") (line ["--in"; "f"; "--in"; "g"]%string) twice aworld) /\
  outcome_of (parse (chars "prog") (line ["--in"; "f"; "--in"; "g"]%string) twice 0 9 aworld) = inr (ST_REQUIRED_ARG_MISSING, [], Some (chars "--in")).
Proof. split; [apply call_ok; vm_compute; reflexivity|vm_compute; reflexivity]. Qed.

(** C43 is false when the vector has to grow and the allocator refuses: the call fails and its memory (block 0, which did
    not exist before) stays allocated.  Two command line words suffice. *)
Theorem c43_growth_failure_refuted :
  exists (prog : token) ts ds (w : world acell),
    world_ok w /\ heap w 0 = None /\
    let '(tw, cfg) := setup prog ts ds 0 9 in
    exists v w', argparse_ex tw cfg true w = Ok (err_status 7, Some v, None) w' /\ heap w' 0 <> None.
Proof.
  exists (chars "prog"), [chars "-abc"], [mksdef (chars "-a") true false; mksdef (chars "-b") true false; mksdef (chars "-c") true false], (aworld_failing [1]).
  split; [intros b _; reflexivity|]. split; [reflexivity|]. vm_compute. eexists _, _. split; [reflexivity|discriminate].
Qed.

(** And it is false for every call that is refused memory later than with its first request: a block is left, which the
    caller can release by destroying the vector. *)
Theorem c43_later_refusal_leaks_refuted :
  forall tw cfg prog ts ds w fill st ov tok w',
    config_is tw cfg prog ts ds -> names_ok ds -> ac_min cfg <= ac_max cfg -> world_ok w -> arg_room ts ->
    orc w (tick w) = AOk fill -> argparse_ex tw cfg true w = Ok (st, ov, tok) w' -> st <> ST_SUCCESS -> ~ In st grammar_errors ->
    exists v b v2 w2, ov = Some v /\ v_data v = Some (mkptr b 0) /\ heap w b = None /\ heap w' b <> None /\
      vdestroy v w' = Ok (ST_SUCCESS, v2) w2 /\ forall k, heap w2 k = heap w k.
Proof. exact later_refusal. Qed.
Print Assumptions c43_later_refusal_leaks_refuted.
Example c43_later_refusal_met :
  let '(tw, cfg) := setup (chars "prog") (line ["-aaaaa"]%string) defs 1 9 in
  exists ov w', argparse_ex tw cfg true (aworld_failing [1]) = Ok (err_status 7, ov, None) w' /\ ~ In (err_status 7) grammar_errors.
Proof. vm_compute. eexists _, _. split; [reflexivity|]. intuition discriminate. Qed.
(** The caller cannot do so in general: if the first request was refused, which looks the same to the caller, destroying the
    vector fails an assertion in a debug build. *)
Theorem c43_destroy_refuted :
  forall tw cfg prog ts ds w e,
    config_is tw cfg prog ts ds -> names_ok ds -> ac_min cfg <= ac_max cfg -> orc w (tick w) = AFail e ->
    exists v w', argparse_ex tw cfg true w = Ok (err_status e, Some v, None) w' /\ (forall k, heap w' k = heap w k) /\
      checked w' = checked w /\ (checked w = true -> vdestroy v w' = Fault AssertFailed).
Proof. exact first_refusal. Qed.
Print Assumptions c43_destroy_refuted.

(** C66 is false for every parsed value: at every index inside the value ZyanStringGetChar fails an assertion in a
    debug build and yields the first character in a release build. *)
Theorem c66_get_char_refuted :
  forall tw cfg prog ts ds w, parse_args tw cfg prog ts ds w ->
  forall v tok w' i d (q : view) w2 k x,
    argparse_ex tw cfg true w = Ok (ST_SUCCESS, Some v, tok) w' ->
    i < snd (vget_size v) -> get_arg v i w' = Ok (d, true, q) w2 -> views tw q x -> k < nlen x ->
    sget_char q k tw = if checked tw then Fault AssertFailed else Ok (ST_SUCCESS, nnth 0 x) tw.
Proof. exact value_view. Qed.
Print Assumptions c66_get_char_refuted.
Example c66_instance :
  let s := setup (chars "prog") [chars "word"] [] 0 1 in
  parse_args (fst s) (snd s) (chars "prog") [chars "word"] [] aworld /\
  exists v tok w' (q : view) w2, argparse_ex (fst s) (snd s) true aworld = Ok (ST_SUCCESS, Some v, tok) w' /\
    0 < snd (vget_size v) /\ get_arg v 0 w' = Ok (None, true, q) w2 /\ views (fst s) q (chars "word").
Proof.
  split; [apply call_ok; vm_compute; reflexivity|].
  assert (P : parse_args (fst (setup (chars "prog") [chars "word"] [] 0 1)) (snd (setup (chars "prog") [chars "word"] [] 0 1)) (chars "prog") [chars "word"] [] aworld)
    by (apply call_ok; vm_compute; reflexivity).
  destruct (parse_language _ _ _ _ _ _ P) as (st & ov & tok & w' & E & I & D).
  assert (A : accepts [] actual 0 1 [chars "word"] [unnamed (chars "word")]).
  { split; [|split].
    - apply scan_unnamed; [|constructor]. right. intros (c & y & X). discriminate X.
    - vm_compute. split; discriminate.
    - intros d x X. unfold nnth in X. now destruct (N.to_nat d). }
  destruct (D _ A) as (-> & -> & v & -> & (GS & SH) & _). destruct (SH 0 _ eq_refl) as (q & G & V).
  exists v, (Some None), w', q, w'. split; [exact E|]. split; [rewrite GS; reflexivity|]. split; [exact G|exact V].
Qed.

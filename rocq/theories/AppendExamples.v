(** Concrete strings for the theorems on AppendFormat. *)
From Verif Require Import Base NListFacts Status Mem MemFacts VectorModel VectorDriver VectorExamples StringModel
  StringSpec StringDriver StringFinal StringExamples FormatModel FormatSpec FormatDriver FormatFinal FormatExamples.
From Coq Require Import ZifyBool ZifyNat ZifyN.

(** "ab" in a growable string with growth factor 1 or 2, in a debug or a release build. *)
Lemma freach_ab is64 (build : bool) g : g = 1 \/ g = 2 -> exists (w : world N) s,
  freached is64 None w s [97;98] /\ sget_capacity s w = Ok (ST_SUCCESS, 32) w /\ v_growth (s_vec s) = g /\ checked w = build.
Proof.
  intros GB. set (w0 := if build then text_world [] else release (text_world [])).
  assert (A : sinit_args_ok w0 0 g 0).
  { destruct (text_world_ok []) as [X Y]. unfold w0, sinit_args_ok. destruct build.
    - split; [exact X|]. split; [exact Y|]. change W64 with 18446744073709551616. lia.
    - split; [exact X|]. split; [exact Y|]. change W64 with 18446744073709551616. lia. }
  destruct (growable_format is64 w0 0 g 0 [FStr (SAppend [97;98])] A) as (s0 & w1 & rs & s & w & cs & E1 & E2 & K & SH & _).
  { repeat constructor. } { reflexivity. }
  apply fspecs_append in K; [|reflexivity]. subst cs. exists w, s. split.
  { exists w0, s0, w1, [FStr (SAppend [97;98])], rs. split; [now exists 0, g, 0|]. split; [repeat constructor|]. split; [reflexivity|]. auto. }
  assert (GOAL : match sinit_ex 0 true g 0 w0 with
    | Ok (_, Some s0) w1 => match run_fops is64 s0 [FStr (SAppend [97;98])] w1 with
       | Ok (_, s) w => v_cap (s_vec s) = 33 /\ v_growth (s_vec s) = g /\ checked w = build | _ => True end
    | _ => True end).
  { unfold w0. destruct GB as [->| ->], build, is64; vm_compute; repeat split. }
  rewrite E1, E2 in GOAL. destruct GOAL as (C & G & B). split; [|split; assumption].
  unfold sget_capacity. rewrite C. reflexivity.
Qed.

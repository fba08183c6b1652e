(** Concrete strings for the theorem on AppendFormat with much unused room. *)
From Verif Require Import Base NListFacts Status Mem MemFacts VectorModel VectorDriver VectorExamples StringModel
  StringSpec StringDriver StringBytes StringProofs StringFinal StringFinal2 StringExamples FormatModel FormatSpec FormatDriver FormatProofs FormatRun FormatFinal FormatExamples.
From Coq Require Import ZifyBool ZifyNat ZifyN.

Lemma custom_checked p n w r w' : sinit_custom p n w = Ok r w' -> checked w' = checked w.
Proof.
  unfold sinit_custom, vinit_custom, bind, assert, ret, mwrite. intros E.
  repeat match type of E with
  | context [if ?b then _ else _] => destruct b eqn:?; cbn in E; try discriminate E
  | context [match ?x with Some _ => _ | None => _ end] => destruct x; cbn in E; try discriminate E
  end; inversion E; subst; cbn; congruence.
Qed.
(** An empty string in a buffer for [k] characters, in a debug or a release build. *)
Lemma freach_empty is64 (build : bool) k : k + 1 < W64 -> exists (w : Mem.world N) s,
  freached is64 (Some k) w s [] /\ checked w = build.
Proof.
  intros L. set (buf := repeat 7 (N.to_nat (k + 1))).
  assert (LB : nlen buf = k + 1). { unfold buf, nlen at 1. rewrite repeat_length. lia. }
  set (w0 := if build then text_world ([1;2] ++ buf ++ [3]) else release (text_world ([1;2] ++ buf ++ [3]))).
  assert (A : sbuffer_args_ok w0 (k + 1) 0 [1;2] buf [3]).
  { destruct (sbuffer_args_example [1;2] buf [3]) as (A1 & A2 & _); [lia|]. unfold w0, sbuffer_args_ok.
    destruct build; (split; [exact A1|]); (split; [exact A2|]); (split; [exact LB|]); lia. }
  destruct (sinit_custom_ok _ _ _ _ _ _ A) as (w & s & E & R & _). exists w, s. split.
  - exists w0, s, w, [], []. split; [now exists 0, [1;2], buf, [3]|]. split; [constructor|]. split; [reflexivity|].
    split; [reflexivity|]. eapply srep_shows. exact R.
  - rewrite (custom_checked _ _ _ _ _ E). unfold w0. now destruct build.
Qed.

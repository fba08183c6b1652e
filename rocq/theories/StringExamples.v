(** Concrete worlds, views and reachable strings. *)
From Verif Require Import Base NListFacts Status Mem MemFacts VectorModel VectorDriver VectorExamples StringModel
  StringSpec StringDriver StringFinal.
From Coq Require Import ZifyBool ZifyNat ZifyN.

(** Block 0 holds the caller's bytes [l]; the allocator works. *)
Definition text_world (l : list N) : world N :=
  mkworld (fun b => if b =? 0 then Some l else None) 1 (fun _ => AOk (fun _ => 170)) 0 [].
(** The view ZYAN_DEFINE_STRING_VIEW gives for the bytes [off .. off+size) of block 0, terminator included. *)
Definition text_view (off size : N) : view := define_view (Some (mkptr 0 off)) size.

Lemma text_world_ok l : world_ok (text_world l) /\ allocator_ok (text_world l).
Proof.
  split.
  - intros b L. change (1 <= b) in L. unfold text_world. cbn [heap mkworld]. destruct (N.eqb_spec b 0); [lia|reflexivity].
  - intros t. exists (fun _ => 170). reflexivity.
Qed.
Lemma text_views a x z : nlen x + 1 < W64 ->
  views (text_world (a ++ (x ++ [0]) ++ z)) (text_view (nlen a) (nlen x + 1)) x.
Proof.
  intros L. split; [reflexivity|]. split; [exact L|].
  apply (mread_mid _ 0 (nlen a) (nlen x + 1) a (x ++ [0]) z); [reflexivity|reflexivity|].
  now rewrite nlen_app.
Qed.
Lemma sinit_args_example l cap g t : 1 <= g < 256 -> t < 256 -> N.max 32 cap + 1 < W64 -> sinit_args_ok (text_world l) cap g t.
Proof. destruct (text_world_ok l). unfold sinit_args_ok. tauto. Qed.
Lemma sbuffer_args_example pre buf post : 1 <= nlen buf < W64 ->
  sbuffer_args_ok (text_world (pre ++ buf ++ post)) (nlen buf) 0 pre buf post.
Proof.
  intros L. split; [apply text_world_ok|]. split; [reflexivity|]. split; [reflexivity|]. lia.
Qed.
Lemma sspecs_append lim x rs cs : holds_chars lim (nlen x) = true -> sspecs lim [SAppend x] [] rs cs -> cs = x.
Proof.
  intros HC S. inversion S as [|? ? ? r cs1 ? ? S1 S2]; subst. inversion S2; subst. cbn in S1. unfold become in S1.
  rewrite HC in S1. apply S1.
Qed.
(** Every list of characters is the contents of a reachable string. *)
Lemma sreach_any x : sroom (nlen x) -> exists w s, sreached_own w s x.
Proof.
  intros F.
  assert (A : sinit_args_ok (text_world []) 0 2 4) by (apply sinit_args_example; [lia|lia|reflexivity]).
  destruct (growable_string (text_world []) 0 2 4 [SAppend x] A) as (s0 & w1 & rs & s & w & cs & E & E2 & K & SH & _).
  { repeat constructor. } { cbn [sdemands sdemand]. now rewrite N.add_0_r. }
  apply sspecs_append in K; [|reflexivity]. subst cs. exists w, s, (text_world []), 0, 2, 4, s0, w1, [SAppend x], rs.
  split; [exact A|]. split; [repeat constructor|]. split; [|auto]. cbn [sdemands sdemand]. now rewrite N.add_0_r.
Qed.
Lemma sreach_buf_any x more : sroom (nlen x) -> 1 <= more -> nlen x + more < W64 -> exists w s, sreached_buf w s x.
Proof.
  intros F M L. set (buf := repeat 7 (N.to_nat (nlen x + more))).
  assert (LB : nlen buf = nlen x + more). { unfold buf, nlen at 1. rewrite repeat_length. lia. }
  assert (A : sbuffer_args_ok (text_world ([1;2] ++ buf ++ [3])) (nlen buf) 0 [1;2] buf [3]) by (apply sbuffer_args_example; lia).
  destruct (fixed_string _ _ _ _ _ _ [SAppend x] A) as (s0 & w1 & rs & s & w & cs & buf' & E & E2 & K & SH & _).
  { repeat constructor. } { cbn [sdemands sdemand]. now rewrite N.add_0_r. }
  apply sspecs_append in K; [|cbn; lia]. subst cs.
  exists w, s, (text_world ([1;2] ++ buf ++ [3])), (nlen buf), 0, [1;2], buf, [3], s0, w1, [SAppend x], rs.
  split; [exact A|]. split; [repeat constructor|]. split; [|auto]. cbn [sdemands sdemand]. now rewrite N.add_0_r.
Qed.

(** Initialise and run, for the evaluated counterexamples. *)
Definition start_sops (cap g t : N) (ops : list sop) : M (list status * str) :=
  let* (st, os) := sinit_ex cap true g t in
  match os with
  | Some s => run_sops s ops
  | None => ret ([st], define_view None 0)
  end.
Definition c13_example_ops : list sop :=
  [SAppend [104;105]; SInsert 1 [65;66;67]; SDelete 0 2; SAppendEx [1;2;3;4] 1 2; SInsertEx 0 [90;91] 0 1; SToLower;
   SSetChar 1 88; SToUpperEx 0 2; STruncate 3; SResize 50; SShrinkToFit; SReserve 100; SDelete 70 1; SClear].

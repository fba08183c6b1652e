(** Concrete strings for the formatting theorems. *)
From Verif Require Import Base NListFacts Status Mem MemFacts VectorModel VectorDriver VectorExamples StringModel
  StringSpec StringDriver StringFinal StringExamples FormatModel FormatSpec FormatDriver FormatFinal.
From Coq Require Import ZifyBool ZifyNat ZifyN.

Lemma fspecs_append lim x rs cs : holds_chars lim (nlen x) = true -> fspecs lim [FStr (SAppend x)] [] rs cs -> cs = x.
Proof.
  intros HC S. inversion S as [|? ? ? r cs1 ? ? S1 S2]; subst. inversion S2; subst. cbn in S1. unfold become in S1.
  rewrite HC in S1. apply S1.
Qed.
(** Every list of characters is the contents of a reachable string. *)
Lemma freach_any is64 x : sroom (nlen x) -> exists w s, freached is64 None w s x.
Proof.
  intros F.
  assert (A : sinit_args_ok (text_world []) 0 2 4) by (apply sinit_args_example; [lia|lia|reflexivity]).
  assert (F' : sroom (fdemands [FStr (SAppend x)])) by (cbn [fdemands fdemand sdemand]; now rewrite N.add_0_r).
  destruct (growable_format is64 (text_world []) 0 2 4 [FStr (SAppend x)] A) as (s0 & w1 & rs & s & w & cs & E & E2 & K & SH & _).
  { repeat constructor. } { exact F'. }
  apply fspecs_append in K; [|reflexivity]. subst cs. exists w, s, (text_world []), s0, w1, [FStr (SAppend x)], rs.
  split; [now exists 0, 2, 4|]. split; [repeat constructor|]. auto.
Qed.
Lemma freach_buf_any is64 x k : sroom (nlen x) -> nlen x <= k -> k + 1 < W64 -> exists w s, freached is64 (Some k) w s x.
Proof.
  intros F M L. set (buf := repeat 7 (N.to_nat (k + 1))).
  assert (LB : nlen buf = k + 1). { unfold buf, nlen at 1. rewrite repeat_length. lia. }
  assert (A : sbuffer_args_ok (text_world ([1;2] ++ buf ++ [3])) (nlen buf) 0 [1;2] buf [3]) by (apply sbuffer_args_example; lia).
  assert (F' : sroom (fdemands [FStr (SAppend x)])) by (cbn [fdemands fdemand sdemand]; now rewrite N.add_0_r).
  destruct (fixed_format is64 _ _ _ _ _ _ [FStr (SAppend x)] A) as (s0 & w1 & rs & s & w & cs & buf' & E & E2 & K & SH & _).
  { repeat constructor. } { exact F'. }
  apply fspecs_append in K; [|cbn; lia]. subst cs.
  exists w, s, (text_world ([1;2] ++ buf ++ [3])), s0, w1, [FStr (SAppend x)], rs. rewrite LB in *.
  split; [now exists 0, [1;2], buf, [3]|]. split; [repeat constructor|]. auto.
Qed.

(** Initialise and run, for the evaluated counterexamples. *)
Definition start_fops (is64 : bool) (cap g t : N) (ops : list fop) : M (list status * str) :=
  let* (st, os) := sinit_ex cap true g t in
  match os with
  | Some s => run_fops is64 s ops
  | None => ret ([st], define_view None 0)
  end.
(** The same on the first [cap] bytes of block 0. *)
Definition start_fops_buf (is64 : bool) (cap : N) (ops : list fop) : M (list status * str) :=
  let* (st, os) := sinit_custom (Some (mkptr 0 0)) cap in
  match os with
  | Some s => run_fops is64 s ops
  | None => ret ([st], define_view None 0)
  end.
(** The bytes of the string's storage as the API shows them: GetSize characters and the byte after them. *)
Definition show (s : str) : M (list N) :=
  let* (_, n) := sget_size s in mread (snd (sget_data s)) (n + 1).
Definition c25_example_ops : list fop :=
  [FDecU 18446744073709551615 0; FStr (SAppend [32]); FHexU 3735928559 12 false; FDecS (-9223372036854775808) 3 false None;
   FHexS 255 0 true true (Some [48;120]); FStr (SDelete 0 5); FDecU 0 255; FHexU 0 0 true].

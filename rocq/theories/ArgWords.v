(** Argument parser: words in memory are read back as they were stored. *)
From Verif Require Import Base Status Mem VectorModel ArgModel ArgVec.
From Coq Require Import ZifyBool ZifyNat ZifyN.

Lemma word_eqb_eq a b : word_eqb a b = true -> a = b.
Proof.
  destruct a, b; cbn [word_eqb]; intros H; try discriminate H; try reflexivity; f_equal; try lia.
  apply andb_prop in H as [H1 H2]. destruct p as [b1 o1], p0 as [b2 o2]. cbn [pb po] in *. f_equal; lia.
Qed.
Lemma acells_eqb_eq : forall a b, acells_eqb a b = true -> a = b.
Proof.
  induction a as [|x a IH]; intros [|y b]; cbn [acells_eqb]; intros H; try discriminate H; [reflexivity|].
  apply andb_prop in H as [H1 H2]. f_equal; [|now apply IH]. destruct x, y; cbn [acell_eqb] in H1; try discriminate H1.
  - f_equal. lia.
  - apply andb_prop in H1 as [H1 H3]. apply word_eqb_eq in H1. f_equal; [exact H1|lia].
Qed.
Lemma dec_word_exact x a : dec_word x = Some a <-> x = enc_word a.
Proof.
  split; [|intros ->; apply dec_enc]. unfold dec_word. intros H.
  assert (Z : forall y, (if acells_eqb y (zero_cells 8) then Some WZero else None) = Some a -> y = enc_word a).
  { intros y HY. destruct (acells_eqb y (zero_cells 8)) eqn:E; [|discriminate HY]. injection HY as <-. now apply acells_eqb_eq in E. }
  destruct x as [|[b|b k] x]; [now apply Z|now apply Z|].
  destruct (acells_eqb (AWord b k :: x) (enc_word b)) eqn:E; [|discriminate H]. injection H as <-. now apply acells_eqb_eq in E.
Qed.
Lemma words_exact x a : (dec_word x = Some a <-> x = enc_word a) /\ nlen (enc_word a) = 8 /\ (a <> WZero -> NoDup (enc_word a)).
Proof.
  split; [apply dec_word_exact|]. split; [apply nlen_enc|]. intros N.
  destruct a; [now destruct N| | |]; cbn [enc_word map];
    repeat constructor; cbn [In]; intros H; repeat destruct H as [H|H]; try discriminate H; exact H.
Qed.

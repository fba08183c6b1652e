(** Lists: pointers in memory are read back as they were stored. *)
From Verif Require Import Base Status Mem VectorModel ListModel ListHeap.
From Coq Require Import ZifyBool ZifyNat ZifyN.

Lemma cells_eqb_eq : forall a b, cells_eqb a b = true -> a = b.
Proof.
  induction a as [|x a IH]; intros [|y b]; cbn [cells_eqb]; intros H; try discriminate H; [reflexivity|].
  apply andb_prop in H as [H1 H2]. f_equal; [|now apply IH]. destruct x, y; cbn [cell_eqb] in H1; try discriminate H1.
  - f_equal. lia.
  - apply andb_prop in H1 as [H1 H3]. apply ptr_eqb_spec in H1. f_equal; [exact H1|lia].
Qed.
Lemma dec_exact x p : dec x = Some p <-> x = enc p.
Proof.
  split; [|intros ->; apply dec_enc]. unfold dec. intros H. destruct x as [|[b|q k] x]; try discriminate H.
  destruct (cells_eqb (CPtr q k :: x) (enc q)) eqn:E; [|discriminate H]. injection H as <-. now apply cells_eqb_eq in E.
Qed.
Lemma links_exact x p : (dec x = Some p <-> x = enc p) /\ nlen (enc p) = 8 /\ NoDup (enc p).
Proof.
  split; [apply dec_exact|]. split; [reflexivity|]. unfold enc. cbn [map].
  repeat constructor; cbn [In]; intros H; repeat destruct H as [H|H]; try discriminate H; exact H.
Qed.

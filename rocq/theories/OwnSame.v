(** The calls of [OwnModel.v] are those of [VectorModel.v] when the destructor only changes the bytes of its element. *)
From Verif Require Import Base Status Mem VectorModel OwnModel.

Section OwnSame.
  Context {C : Type}.
  Implicit Types (w : world C) (v : vector C).

  Lemma loop_same f v : forall n i, own_loop (fun p => call_dtor f p (v_esz v)) v i n = dtor_loop f v i n.
  Proof. induction n as [|n IH]; intros i; cbn [own_loop dtor_loop]; [reflexivity|]. now rewrite IH. Qed.

  Lemma same_calls v f w : v_dtor v = Some f ->
    let d := fun p => call_dtor f p (v_esz v) in
    odestroy d v w = vdestroy v w /\
    (forall i p, oset d v i p w = vset v i p w) /\
    (forall i n, odelete_range d v i n w = vdelete_range v i n w) /\
    (forall i, odelete d v i w = vdelete v i w) /\
    opop_back d v w = vpop_back v w /\
    (forall n, oresize d v n w = vresize_ex v n None w) /\
    oclear d v w = vclear v w.
  Proof.
    intros D d.
    assert (RS : forall n, oresize d v n w = vresize_ex v n None w).
    { intros n. unfold oresize, vresize_ex, destroy_range, d. rewrite loop_same, D.
      destruct (n =? v_size v); [reflexivity|]. unfold bind at 1. symmetry. unfold bind at 1. symmetry.
      destruct ((if n <? v_size v then dtor_loop f v n (N.to_nat (v_size v - n)) else ret tt) w) as [u w1|x]; [|reflexivity].
      unfold bind at 1. symmetry. unfold bind at 1. symmetry.
      match goal with |- match ?A w1 with _ => _ end = _ => destruct (A w1) as [[st v1] w2|x]; [|reflexivity] end.
      destruct (negb (st_success st)); reflexivity. }
    repeat split; intros.
    - unfold odestroy, vdestroy, destroy_range, d. now rewrite loop_same, D, N.sub_0_r.
    - unfold oset, vset, d. now rewrite D.
    - unfold odelete_range, vdelete_range, destroy_range, d. now rewrite loop_same, D.
    - unfold odelete, vdelete, odelete_range, vdelete_range, destroy_range, d. now rewrite loop_same, D.
    - unfold opop_back, vpop_back, d. now rewrite D.
    - apply RS.
    - apply RS.
  Qed.
End OwnSame.

(** The calls of [OwnListModel.v] are those of [ListModel.v] when the destructor only changes the bytes of its element. *)
From Verif Require Import Base Status Mem VectorModel ListModel OwnListModel.

Section OwnListSame.
  Implicit Types (w : world cell) (l : zlist).
  Notation bytes f e := (fun p => call_dtor f p e).

  Lemma destroy_loop_same f l : l_dtor l = Some f -> forall n node w, oldestroy_loop (bytes f (l_esz l)) l node n w = destroy_loop l node n w.
  Proof.
    intros D. induction n as [|n IH]; intros [p|] w; try reflexivity. cbn [oldestroy_loop destroy_loop]. unfold destroy_node. rewrite D.
    unfold bind at 1. symmetry. unfold bind at 1. symmetry. destruct (call_dtor f _ _ w) as [u w1|x]; [|reflexivity].
    unfold bind at 1. symmetry. unfold bind at 1. symmetry. destruct (get_next _ w1) as [nx w2|x]; [|reflexivity].
    unfold bind at 1. symmetry. unfold bind at 1. symmetry.
    destruct ((if l_alloc l then dealloc (Some p) (lnode_size l) 1 else ret ST_SUCCESS) w2) as [st w3|x]; [|reflexivity].
    destruct (negb (st_success st)); [reflexivity|apply IH].
  Qed.
  Lemma destroy_all_same f l w : l_dtor l = Some f -> oldestroy_all (bytes f (l_esz l)) l w = destroy_all l w.
  Proof.
    intros D. unfold oldestroy_all, destroy_all. rewrite destroy_loop_same by exact D. rewrite D. cbn [nonnull]. now rewrite Bool.orb_true_r.
  Qed.
  Lemma dealloc_dtor l node w st l' w' : ldealloc_node l node w = Ok (st, l') w' -> l_dtor l' = l_dtor l /\ l_esz l' = l_esz l.
  Proof.
    unfold ldealloc_node. destruct (l_alloc l).
    - unfold bind. destruct (dealloc node (lnode_size l) 1 w) as [s w1|x]; [|discriminate]. unfold ret. intros E. injection E as _ <- _. now split.
    - unfold bind. destruct (set_next node _ w) as [s w1|x]; [|discriminate]. unfold ret. intros E. injection E as _ <- _. now split.
  Qed.
  Lemma shrink_loop_same f e : forall n l w, l_dtor l = Some f -> l_esz l = e -> olshrink_loop (bytes f e) l n w = shrink_loop l n w.
  Proof.
    induction n as [|n IH]; intros l w D EE; [reflexivity|]. cbn [olshrink_loop shrink_loop]. unfold destroy_node. rewrite D, EE.
    unfold bind at 1. symmetry. unfold bind at 1. symmetry. destruct (call_dtor f _ _ w) as [u w1|x]; [|reflexivity].
    unfold bind at 1. symmetry. unfold bind at 1. symmetry. destruct (get_prev _ w1) as [pv w2|x]; [|reflexivity].
    unfold bind at 1. symmetry. unfold bind at 1. symmetry.
    destruct ((if nonnull (l_tail (put_tail l pv)) then set_next (l_tail (put_tail l pv)) None else ret tt) w2) as [u2 w3|x]; [|reflexivity].
    unfold bind at 1. symmetry. unfold bind at 1. symmetry.
    destruct (ldealloc_node (put_tail l pv) (l_tail l) w3) as [[st l1] w4|x] eqn:ED; [|reflexivity].
    destruct (dealloc_dtor _ _ _ _ _ _ ED) as [D1 E1]. destruct (negb (st_success st)); [reflexivity|]. apply IH; [rewrite D1; exact D|rewrite E1; exact EE].
  Qed.

  Lemma list_same_calls l f w : l_dtor l = Some f ->
    let d := fun p => call_dtor f p (l_esz l) in
    oldestroy d l w = ldestroy l w /\
    (forall node p, olset_node_data d l node p w = lset_node_data l node p w) /\
    olpop_back d l w = lpop_back l w /\
    olpop_front d l w = lpop_front l w /\
    (forall n, olresize d l n w = lresize l n w) /\
    olclear d l w = lclear l w.
  Proof.
    intros D d.
    assert (RS : forall n, olresize d l n w = lresize_ex l n None w).
    { intros n. unfold olresize, lresize_ex. destruct (n =? l_size l); [reflexivity|]. destruct (n =? 0).
      - unfold bind. unfold d. now rewrite destroy_all_same by exact D.
      - destruct (l_size l <? n); [reflexivity|]. unfold bind, d. now rewrite shrink_loop_same. }
    split; [|split; [|split; [|split; [|split]]]].
    - unfold oldestroy, ldestroy. unfold bind at 1. symmetry. unfold bind at 1. symmetry. destruct (assert _ w) as [u w1|x]; [|reflexivity].
      unfold bind, d. now rewrite destroy_all_same.
    - intros node p. unfold olset_node_data, lset_node_data, destroy_node, d. now rewrite D.
    - unfold olpop_back, lpop_back, destroy_node, d. now rewrite D.
    - unfold olpop_front, lpop_front, destroy_node, d. now rewrite D.
    - exact RS.
    - apply RS.
  Qed.
End OwnListSame.

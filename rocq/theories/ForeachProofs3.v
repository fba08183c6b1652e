(** ZYAN_LIST_GET. *)
From Verif Require Import Base NListFacts Status Mem MemFacts VectorModel VectorSpec VectorDriver ListModel ListSpec ListDriver ListHeap
  ListRep ListProofs ListProofs2 ListFinal ListFinal2 AliasProofs3 ForeachModel.
From Coq Require Import ZifyBool ZifyNat ZifyN.

Lemma list_get_reached limit w l ps xs j q x : lreached limit w l xs -> lshows w l ps xs ->
  nnth j ps = Some q -> nnth j xs = Some x -> list_get (l_esz l) (Some q) w = Ok x w.
Proof.
  intros RE SH NP NX. destruct (reached_rep _ _ _ _ RE) as (e & d & m & base & ps0 & us & -> & REP).
  destruct (shows_unique _ _ _ _ _ _ SH (lrep_shows _ _ _ _ _ _ _ _ _ REP)) as [-> _].
  pose proof REP as (_ & CF & _ & _ & _ & _ & CH & _). destruct CF as (EE & _).
  destruct (chain_at _ _ _ _ _ _ _ CH NP NX) as (_ & s1 & s2 & RQ).
  unfold list_get, lget_node_data. cbn [nonnull]. rewrite EE. eapply data_read; eauto.
Qed.
Lemma list_get_null e w : list_get e None w = Fault NullDeref.
Proof. reflexivity. Qed.

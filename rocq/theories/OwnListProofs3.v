(** Proofs about lists whose elements own memory: whole lives. *)
From Coq Require Import Permutation.
From Verif Require Import Base NListFacts Status Mem MemFacts VectorModel VectorDriver ListModel ListSpec ListDriver ListHeap
  ListRep ListProofs ListProofs2 ListFinal ListFinal2 OwnDriver OwnListModel OwnListDriver OwnListProofs OwnListProofs2.
From Coq Require Import ZifyBool ZifyNat ZifyN.

Lemma nodup_join {A} (a b : list A) : NoDup a -> NoDup b -> (forall x, In x a -> In x b -> False) -> NoDup (a ++ b).
Proof.
  induction a as [|x a IH]; intros NA NB D; [exact NB|]. apply NoDup_cons_iff in NA as [NI NA]. cbn. constructor.
  - intros I. apply in_app_or in I as [I|I]; [now apply NI|]. apply (D x); [now left|exact I].
  - apply IH; auto. intros y I J. apply (D y); [now right|exact J].
Qed.

Section Lives.
  Variables (e : N) (name : N -> list cell) (own : list cell -> N).
  Hypothesis NM : names_ok e name own.

  Lemma life_of_list_owners (w0 : world) (ops : list qop) : linit_args_ok w0 e None -> nlen ops < W64 ->
    exists l0 rs l w bufs, linit_ex e None true w0 = Ok (ST_SUCCESS, Some l0) w0 /\
      run_qops e name own l0 ops w0 = Ok (rs, l) w /\ qspecs None (fails w0) ops [] rs bufs /\
      lowns own w l bufs /\
      (exists bs, NoDup bs /\ nlen bs = 2 * nlen bufs /\
         (forall b, In b bs -> heap w0 b = None /\ heap w b <> None) /\ forall b, ~ In b bs -> heap w b = heap w0 b) /\
      exists w', oldestroy (release e own) l w = Ok (ST_SUCCESS, l) w' /\ forall b, heap w' b = heap w0 b.
  Proof.
    intros A LW. destruct (init_rep w0 e None A) as (l0 & E & REP).
    assert (IV0 : inv e Grow name w0 w0 l0 []).
    { exists (heap w0), [], []. split; [exact REP|]. split; [split; constructor|]. split; [constructor|]. split; reflexivity. }
    destruct (run_qops_ok e Grow name own NM w0 ops w0 l0 [] IV0) as (rs & l & w & os & ER & IV & SP); [exact LW|].
    exists l0, rs, l, w, (conts os). split; [exact E|]. split; [exact ER|]. split; [exact SP|]. split; [eapply inv_owns; eauto|]. split.
    - destruct IV as (base & ps & us & REP' & [ND F] & FR & BA & OR). pose proof REP' as (_ & _ & _ & _ & _ & _ & CH & P).
      pose proof (chain_length _ _ _ _ _ _ CH) as LP. unfold elems in LP. rewrite map_length in LP.
      destruct P as (_ & -> & P3 & P4 & P5).
      assert (AW : forall b, In b (map fst os) -> ~ In b (map pb ps)).
      { intros b I J. apply in_map_iff in I as (o & <- & I). apply in_map_iff in J as (p & EQ & J). destruct (P4 p J) as (_ & Q & _).
        rewrite Forall_forall in F. destruct (F o I) as [X _]. congruence. }
      exists (map pb ps ++ map fst os). split; [|split; [|split]].
      + apply nodup_join; [exact P3|exact ND|]. intros b I J. now apply (AW b).
      + unfold nlen, conts. rewrite app_length, !map_length. lia.
      + intros b I. apply in_app_or in I as [I|I].
        * assert (NO : ~ In b (map fst os)) by (intros J; now apply (AW b)).
          apply in_map_iff in I as (p & <- & I). destruct (P4 p I) as (_ & Q & x & H & _). split; [rewrite <- BA by exact NO; exact Q|congruence].
        * pose proof (AW b I) as NP. apply in_map_iff in I as (o & <- & I). rewrite Forall_forall in *. split; [now apply FR|].
          rewrite P5 by exact NP. destruct (F o I) as [X _]. congruence.
      + intros b NI. rewrite in_app_iff in NI. rewrite P5 by tauto. apply BA. tauto.
    - destruct (inv_destroy e Grow name own NM w0 w l os IV) as (w' & ED & HW). exists w'. split; [exact ED|]. intros b. now apply HW.
  Qed.

  Lemma qspecs_fixed k (f : Prop) (ops : list qop) l rs l' : qspecs (Some k) f ops l rs l' -> qspecs (Some k) False ops l rs l'.
  Proof.
    induction 1 as [|o ops l r l1 rs l2 SP _ IH]; [constructor|]. econstructor; [|exact IH].
    assert (RF : forall n, refusal (Some k) f n r -> refusal (Some k) False n r).
    { intros n. unfold refusal. destruct (full _ _); [auto|]. intros (X & _). discriminate. }
    destruct o; cbn [qspec] in *; auto.
    - destruct (st_success r); [exact SP|]. destruct SP. auto.
    - destruct (st_success r); [exact SP|]. destruct SP. auto.
    - destruct (st_success r); [exact SP|]. destruct SP. auto.
    - destruct (st_success r); [exact SP|]. destruct SP. auto.
  Qed.

  Lemma life_of_buffer_owners (w0 : world) cap b pre buf post (ops : list qop) : lbuffer_args_ok w0 e None cap b pre buf post -> nlen ops < W64 ->
    exists l0 rs l w bufs, linit_custom e None (Some (mkptr b (nlen pre))) cap w0 = Ok (ST_SUCCESS, Some l0) w0 /\
      run_qops e name own l0 ops w0 = Ok (rs, l) w /\ qspecs (Some (nodes_in cap e)) False ops [] rs bufs /\
      lowns own w l bufs /\
      (exists bs, NoDup bs /\ nlen bs = nlen bufs /\
         (forall k, In k bs -> heap w0 k = None /\ heap w k <> None) /\ forall k, ~ In k bs -> k <> b -> heap w k = heap w0 k) /\
      exists w', oldestroy (release e own) l w = Ok (ST_SUCCESS, l) w' /\ (forall k, k <> b -> heap w' k = heap w0 k) /\
        exists buf', heap w' b = Some (pre ++ buf' ++ post) /\ nlen buf' = cap.
  Proof.
    intros A LW. destruct (init_buffer_rep w0 e None cap b pre buf post A) as (l0 & E & REP). set (m := Fixed b pre post cap) in *.
    assert (IV0 : inv e m name w0 w0 l0 []).
    { exists (heap w0), [], []. split; [exact REP|]. split; [split; constructor|]. split; [constructor|]. split; reflexivity. }
    destruct (run_qops_ok e m name own NM w0 ops w0 l0 [] IV0) as (rs & l & w & os & ER & IV & SP); [exact LW|].
    exists l0, rs, l, w, (conts os). split; [exact E|]. split; [exact ER|]. split; [eapply qspecs_fixed; exact SP|]. split; [eapply inv_owns; eauto|]. split.
    - destruct IV as (base & ps & us & REP' & [ND F] & FR & BA & OR). pose proof REP' as (_ & _ & _ & _ & _ & _ & CH & P).
      destruct P as (_ & _ & _ & _ & P5).
      exists (map fst os). split; [exact ND|]. split; [unfold nlen, conts; now rewrite !map_length|]. split.
      + intros k I. apply in_map_iff in I as (o & <- & I). rewrite Forall_forall in *. destruct (F o I) as [X Y]. split; [now apply FR|].
        rewrite P5 by exact Y. congruence.
      + intros k NI NB. rewrite P5 by exact NB. now apply BA.
    - destruct IV as (base & ps & us & REP' & OB & FR & BA & OR).
      destruct (destroy_all_own e m name own NM _ _ _ _ _ _ REP' OB) as (w2 & base' & E2 & _ & P2 & _).
      assert (IV : inv e m name w0 w l os) by (exists base, ps, us; auto).
      destruct (inv_destroy e m name own NM w0 w l os IV) as (w' & ED & HW). exists w'. split; [exact ED|]. split; [intros k NK; now apply HW|].
      assert (w' = w2) as ->.
      { unfold oldestroy, assert in ED. 
        replace (negb (l_esz l =? 0)) with true in ED by (destruct REP' as (_ & (EE & _ & _ & E0 & _) & _); lia).
        unfold bind, ret in ED. rewrite E2 in ED. now injection ED as ->. }
      destruct P2 as (_ & (buf' & H & L) & _). now exists buf'.
  Qed.
End Lives.

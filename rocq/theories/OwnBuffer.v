(** Proofs about vectors in a caller-supplied buffer whose elements own memory. *)
From Verif Require Import Base NListFacts Status Mem MemFacts VectorModel VectorSpec VectorDriver
  VectorRep VectorProofs VectorProofs2 VectorProofs3 VectorRefine OwnModel OwnDriver OwnProofs OwnProofs2.
From Coq Require Import ZifyBool ZifyNat ZifyN.

Section Buffer.
  Context {C : Type}.
  Implicit Types (w : world C) (v : vector C).
  Variables (e : N) (name : N -> list C) (own : list C -> N).
  Hypothesis NM : names_ok e name own.
  Notation d := (release e own).

  Lemma start_buffer w0 cap b pre buf post : buffer_args_ok w0 e cap None b pre buf post ->
    exists v, vinit_custom e (Some (mkptr b (nlen pre))) cap None w0 = Ok (ST_SUCCESS, Some v) w0 /\ holds e name false pre post cap b w0 w0 v [].
  Proof.
    intros (W & HB & L & E1 & C1 & MX & DK).
    destruct (init_custom_ok w0 e cap None b pre buf post) as (v & E & R & CP & ES & AL & CF & BL); auto.
    exists v. split; [exact E|]. split; [exact R| |now intros _|now intros _|discriminate|].
    - unfold cfg_of in CF. injection CF as _ _ _ _ CD. auto.
    - split; [constructor|constructor; [intros []|constructor]|intros x []|congruence|lia|reflexivity].
  Qed.

  Lemma life_in_buffer w0 cap b pre buf post ops :
    buffer_args_ok w0 e cap None b pre buf post -> Forall warg_ok ops -> room (wdemands ops) e ->
    exists v0 w1 v w, vinit_custom e (Some (mkptr b (nlen pre))) cap None w0 = Ok (ST_SUCCESS, Some v0) w1 /\
      run_wops e name own v0 ops w1 = Ok (fst (wbspecs cap ops []), v) w /\ owns own w v (snd (wbspecs cap ops [])) /\
      (exists bs buf', NoDup bs /\ nlen bs = nlen (snd (wbspecs cap ops [])) /\ (forall x, In x bs -> heap w0 x = None /\ heap w x <> None) /\
         (forall x, x <> b -> ~ In x bs -> heap w x = heap w0 x) /\
         nlen buf' = nlen buf /\ heap w b = Some (pre ++ buf' ++ post)) /\
      exists v' w' buf', odestroy d v w = Ok (ST_SUCCESS, v') w' /\ (forall x, x <> b -> heap w' x = heap w0 x) /\
        nlen buf' = nlen buf /\ heap w' b = Some (pre ++ buf' ++ post).
  Proof.
    intros I A F. destruct (start_buffer w0 cap b pre buf post I) as (v0 & E0 & H0). destruct I as (W0 & _ & LB & _).
    destruct (steps e name own NM false pre post cap b w0 W0 ops w0 v0 [] H0 A) as (rs & v & w & ps & E & H & S).
    { change (nlen (@nil (N * list C))) with 0. exact F. }
    unfold wsps in S. cbn [map] in S. exists v0, w0, v, w. rewrite S. cbn [fst snd]. split; [exact E0|]. split; [exact E|].
    split; [eapply holds_owns; eauto|].
    destruct (buffer_kept _ _ _ _ _ _ _ _ _ _ _ H eq_refl) as (buf' & LB' & HB').
    pose proof (h_blk _ _ _ _ _ _ _ _ _ _ _ H eq_refl) as BV.
    split.
    - pose proof (h_mem _ _ _ _ _ _ _ _ _ _ _ H) as MM. pose proof MM as [B AP NW NV NX RS].
      exists (map fst ps), buf'. split; [now apply NoDup_cons_iff in AP|]. split; [|split; [|split; [|split; [congruence|exact HB']]]].
      + unfold nlen. now rewrite !map_length.
      + intros x IX. split; [now apply W0, NW|]. eapply mem_live; [exact MM|exact IX].
      + intros x NX1 NX2. apply RS; congruence.
    - destruct (destroy_all e name own NM _ _ _ _ _ _ _ _ _ H W0) as (v' & w' & ED & KD & KB). exists v', w', buf'.
      split; [exact ED|]. split; [intros x NE; now apply KD|]. split; [congruence|]. now rewrite KB.
  Qed.
End Buffer.

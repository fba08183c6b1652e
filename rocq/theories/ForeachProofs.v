(** The loop macros. *)
From Verif Require Import Base NListFacts Status Mem MemFacts VectorModel VectorSpec VectorDriver
  VectorRep VectorProofs VectorProofs2 VectorProofs3 VectorRefine VectorSearch VectorFail VectorMore
  VectorFinal VectorFinal2 ListModel ListSpec ListDriver ForeachModel ForeachSpec.
From Coq Require Import ZifyBool ZifyNat ZifyN.

Section Loops.
  Context {C A : Type}.
  Notation vec := (vector C).
  Implicit Types (w : Mem.world C) (v : vec).

  Lemma vget_ok w v pre xs post i : vrep w v pre xs post ->
    vget v i w = Ok (if i <? nlen xs then offset v i else None) w.
  Proof.
    intros R. unfold vget. rewrite (r_size _ _ _ _ _ R).
    destruct (N.leb_spec (nlen xs) i); destruct (N.ltb_spec i (nlen xs)); try lia; [reflexivity|].
    now rewrite (bind_ok _ _ _ _ _ (rep_assert_valid _ _ _ _ _ R)).
  Qed.
  Lemma vector_get_ok w v pre xs post i : vrep w v pre xs post ->
    vector_get v i w = match nnth i xs with Some x => Ok x w | None => Fault NullDeref end.
  Proof.
    intros R. unfold vector_get. rewrite (bind_ok _ _ _ _ _ (vget_ok _ _ _ _ _ i R)).
    destruct (N.ltb_spec i (nlen xs)).
    - destruct (nnth_exists _ _ H) as [x NX]. rewrite NX. exact (elem_read _ _ _ _ _ _ _ R NX).
    - now rewrite nnth_ge.
  Qed.

  Variable calls : A -> list C -> list (vop C).
  Variable after : A -> list C -> list status -> bool * A.
  Variable d : N.
  Variable inv : N -> A -> Prop.

  Lemma loop_ok e size : size < W64 ->
    (forall i a x, i < size -> inv i a -> nlen x = e -> Forall (arg_ok e) (calls a x) /\ demands (calls a x) <= d) ->
    (forall i a x rs, i < size -> inv i a -> inv (i + 1) (snd (after a x rs))) ->
    forall fuel i a w v pre xs post, inv i a -> size <= i + N.of_nat fuel ->
    vrep w v pre xs post -> nofail w v -> v_esz v = e -> fits (nlen xs + N.of_nat fuel * d) e ->
    exists r s', visits calls after (cfg_of v) size i a (mkst xs (v_cap v) (dlog w)) r s' /\
      match r with
      | Some a' => exists w' v', foreach_loop size (caller calls after) fuel i a v w = Ok (a', v') w' /\
          good w v w' v' pre (s_elems s') post /\ s' = mkst (s_elems s') (v_cap v') (dlog w')
      | None => foreach_loop size (caller calls after) fuel i a v w = Fault NullDeref
      end.
  Proof.
    intros SW K KI. induction fuel as [|fuel IH]; intros i a w v pre xs post IA L R NF ES F.
    - eexists (Some a), _. split; [apply visits_end; lia|]. exists w, v. cbn [foreach_loop s_elems].
      replace (i <? size) with false by lia. split; [reflexivity|]. split; [now apply good_refl|reflexivity].
    - cbn [foreach_loop]. destruct (N.ltb_spec i size) as [I|I].
      2:{ eexists (Some a), _. split; [apply visits_end; lia|]. exists w, v. cbn [s_elems].
          split; [reflexivity|]. split; [now apply good_refl|reflexivity]. }
      pose proof (vector_get_ok w v pre xs post i R) as VG.
      destruct (nnth i xs) as [x|] eqn:NX.
      2:{ exists None. eexists. split; [now apply visits_gone|]. unfold bind at 1. now rewrite VG. }
      assert (LX : nlen x = e) by (rewrite <- ES; exact (chunked_nnth _ _ _ _ (r_chunk _ _ _ _ _ R) NX)).
      destruct (K i a x I IA LX) as [AO DM]. pose proof (KI i a x) as IA1.
      destruct (run_ops_ok (calls a x) w v pre xs post R NF) as (rs & w1 & v1 & xs1 & E1 & G1 & S1).
      { now rewrite ES. } { rewrite ES. eapply fits_le; [|exact F]. lia. }
      assert (E2 : caller calls after a v x w = Ok (fst (after a x rs), snd (after a x rs), v1) w1).
      { unfold caller. now rewrite (bind_ok _ _ _ _ _ E1). }
      rewrite (bind_ok _ _ _ _ _ VG), (bind_ok _ _ _ _ _ E2).
      destruct (after a x rs) as [stop a1] eqn:AF. cbn [fst snd]. destruct stop.
      + eexists (Some a1), _. split; [eapply visits_stop; eauto|]. exists w1, v1.
        split; [reflexivity|]. split; [exact G1|reflexivity].
      + rewrite wadd_small by lia.
        pose proof (vspecs_len _ _ _ _ _ S1) as L1. cbn [s_elems] in L1.
        destruct (g_cfg _ _ _ _ _ _ _ G1) as (CA & CG & CS & CE & CD).
        destruct (IH (i + 1) a1 w1 v1 pre xs1 post) as (r & s' & V & X).
        { specialize (IA1 rs I IA). now rewrite AF in IA1. } { lia. } { apply G1. } { eapply nofail_frame; [exact NF|apply G1|apply G1]. } { congruence. }
        { eapply fits_le; [|exact F]. lia. }
        exists r, s'. split.
        * eapply visits_next; eauto. rewrite (cfg_of_same _ _ (g_cfg _ _ _ _ _ _ _ G1)) in V. exact V.
        * destruct r as [a'|]; [|exact X]. destruct X as (w' & v' & EX & G & EQ). exists w', v'.
          split; [exact EX|]. split; [eapply good_trans; [exact G1|apply R|exact G]|exact EQ].
  Qed.

  Lemma foreach_reached w v xs a :
    reached w v xs -> inv 0 a ->
    (forall i a x, i < nlen xs -> inv i a -> nlen x = v_esz v -> Forall (arg_ok (v_esz v)) (calls a x) /\ demands (calls a x) <= d) ->
    (forall i a x rs, i < nlen xs -> inv i a -> inv (i + 1) (snd (after a x rs))) ->
    room (nlen xs * (1 + d)) (v_esz v) ->
    exists r s', visits calls after (cfg_of v) (nlen xs) 0 a (mkst xs (v_cap v) (dlog w)) r s' /\
      match r with
      | Some a' => exists w' v', foreach (caller calls after) a v w = Ok (a', v') w' /\
          shows w' v' (s_elems s') /\ snd (vget_capacity v') = s_cap s' /\ dlog w' = s_log s'
      | None => foreach (caller calls after) a v w = Fault NullDeref
      end.
  Proof.
    intros H IA K KI F. destruct (reached_rep _ _ _ H) as (pre & post & R & F0 & NF).
    pose proof (r_size _ _ _ _ _ R) as SZ.
    assert (SW : nlen xs < W64).
    { unfold fits in F0. pose proof (r_esz _ _ _ _ _ R). nia. }
    destruct (loop_ok (v_esz v) (nlen xs) SW K KI (N.to_nat (nlen xs)) 0 a w v pre xs post) as (r & s' & V & X); auto.
    { lia. } { unfold fits, room in *. rewrite N2Nat.id. replace (nlen xs + nlen xs * d) with (nlen xs * (1 + d)) by lia. exact F. }
    exists r, s'. split; [exact V|]. unfold foreach. rewrite SZ.
    destruct r as [a'|]; [|exact X]. destruct X as (w' & v' & E & G & EQ). exists w', v'.
    split; [exact E|]. split; [eapply rep_shows, G|]. rewrite EQ. auto.
  Qed.
End Loops.

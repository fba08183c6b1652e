(** Reachable vectors with any growth factor and shrink threshold, for the examples of C80. *)
From Verif Require Import Base NListFacts Status Mem MemFacts VectorModel VectorSpec VectorDriver
  VectorRep VectorProofs VectorProofs2 VectorProofs3 VectorRefine VectorSearch VectorFail VectorMore
  VectorFinal VectorFinal2 VectorExamples.
From Coq Require Import ZifyBool ZifyNat ZifyN.

Lemma ex_params g t extra : 1 <= g < 256 -> t < 256 -> extra < 1000 ->
  exists w v, reached_own w v [[1;2];[3;4];[5;6]] /\ v_esz v = 2 /\ v_growth v = g /\ v_shrink v = t /\
    snd (vget_capacity v) = 3 + extra.
Proof.
  intros G T X. assert (I : init_args_ok world0 2 (3 + extra) None g t) by (apply init_args_world0; [lia|exact I|lia|lia|change W64 with 18446744073709551616; lia]).
  set (ops := map OPushBack [[1;2];[3;4];[5;6]]).
  destruct (own_run world0 2 (3 + extra) None g t ops I) as
    (v0' & w1' & rs' & v' & w' & xs' & E' & ER' & VS & R' & _ & CF' & _).
  { repeat constructor. } { reflexivity. }
  destruct (init_ok world0 2 (3 + extra) None g t (fun _ => 170)) as (w1 & v0 & E & R & CP & ES & AL & CF & _); auto; try reflexivity; try lia.
  { apply world0_ok. } { change W64 with 18446744073709551616; lia. }
  destruct (pushes_room [[1;2];[3;4];[5;6]] w1 v0 [] [] [] R) as (v & w & E2 & _ & _ & CP2 & R2).
  { rewrite ES. repeat constructor. } { rewrite CP. change (nlen [] + nlen [[1;2];[3;4];[5;6]]) with 3. lia. }
  rewrite E in E'. injection E' as <- <-. change (map OPushBack [[1;2];[3;4];[5;6]]) with ops in E2. rewrite E2 in ER'. injection ER' as <- <- <-.
  exists w, v. split.
  { exists world0, 2, (3 + extra), None, g, t, v0, w1, ops, (map (fun _ => ST_SUCCESS) [[1;2];[3;4];[5;6]]).
    split; [exact I|]. split; [repeat constructor|]. split; [reflexivity|]. split; [exact E|]. split; [exact E2|]. eapply rep_shows; eauto. }
  unfold cfg_of in CF'. injection CF' as _ -> -> -> _. cbn [vget_capacity snd]. rewrite CP2, CP. repeat split. lia.
Qed.

(** Reachable vectors and strings with known growth factors, for the examples of C79. *)
From Verif Require Import Base NListFacts Status Mem MemFacts VectorModel VectorSpec VectorDriver VectorRep VectorProofs VectorProofs2 VectorProofs3 VectorRefine VectorSearch VectorFail VectorMore VectorFinal VectorFinal2 VectorExamples
  StringModel StringSpec StringDriver StringFinal StringExamples AliasExamples.
From Coq Require Import ZifyBool ZifyNat ZifyN.

Lemma ex_growing : exists w v, reached_own w v [[1;2];[3;4];[5;6]] /\ v_esz v = 2 /\ v_growth v = 2 /\
  snd (vget_capacity v) = 4.
Proof.
  assert (I : init_args_ok world0 2 4 None 2 4) by (apply init_args_world0; [lia|exact I|lia|lia|reflexivity]).
  destruct (init_ok world0 2 4 None 2 4 (fun _ => 170)) as (w1 & v0 & E & R & CP & ES & AL & CF & _); auto; try reflexivity; try lia.
  { apply world0_ok. }
  destruct (pushes_room [[1;2];[3;4];[5;6]] w1 v0 [] [] [] R) as (v & w & E2 & _ & _ & CP2 & R2).
  { rewrite ES. repeat constructor. } { rewrite CP. discriminate. }
  exists w, v. split.
  { exists world0, 2, 4, None, 2, 4, v0, w1, (map OPushBack [[1;2];[3;4];[5;6]]), (map (fun _ => ST_SUCCESS) [[1;2];[3;4];[5;6]]).
    split; [exact I|]. split; [repeat constructor|]. split; [reflexivity|]. split; [exact E|]. split; [exact E2|]. eapply rep_shows; eauto. }
  clear R R2 ES AL CF CP CP2. vm_compute in E. injection E as <- <-. vm_compute in E2. injection E2 as <- _. repeat split.
Qed.
Lemma ex_growing_string : exists w s, sreached_own w s [97;98;99] /\ v_cap (s_vec s) = 33 /\ v_growth (s_vec s) = 2.
Proof.
  destruct (ex_string_sized [97;98;99] 0 0) as (w & s & s0 & w1 & rs & R & E & E2); [reflexivity|reflexivity|reflexivity|].
  exists w, s. split; [exact R|]. vm_compute in E. injection E as <- <-. vm_compute in E2. injection E2 as _ <- _. split; reflexivity.
Qed.

(** Reachable strings with known capacities, for the examples of C77. *)
From Verif Require Import Base NListFacts Status Mem MemFacts VectorModel VectorDriver VectorExamples StringModel
  StringSpec StringDriver StringFinal StringExamples.
From Coq Require Import ZifyBool ZifyNat ZifyN.

Definition letters20 : list N := nrepeat 97 20.
Lemma ex_string_sized (x : list N) cap t : sroom (nlen x) -> N.max 32 cap + 1 < W64 -> t < 256 ->
  exists w s s0 w1 rs, sreached_own w s x /\ sinit_ex cap true 2 t (text_world []) = Ok (ST_SUCCESS, Some s0) w1 /\
    run_sops s0 [SAppend x] w1 = Ok (rs, s) w.
Proof.
  intros F CW TW.
  assert (A : sinit_args_ok (text_world []) cap 2 t) by (apply sinit_args_example; [lia|lia|exact CW]).
  destruct (growable_string (text_world []) cap 2 t [SAppend x] A) as (s0 & w1 & rs & s & w & cs & E & E2 & K & SH & _).
  { repeat constructor. } { cbn [sdemands sdemand]. now rewrite N.add_0_r. }
  apply sspecs_append in K; [|reflexivity]. subst cs.
  exists w, s, s0, w1, rs. split; [|now split]. exists (text_world []), cap, 2, t, s0, w1, [SAppend x], rs.
  split; [exact A|]. split; [repeat constructor|]. split; [|auto]. cbn [sdemands sdemand]. now rewrite N.add_0_r.
Qed.
(** "abc" with room, and twenty letters in a string that is more than half full. *)
Lemma ex_string_room : exists w s, sreached_own w s [97;98;99] /\ v_cap (s_vec s) = 33 /\ v_shrink (s_vec s) = 0.
Proof.
  destruct (ex_string_sized [97;98;99] 0 0) as (w & s & s0 & w1 & rs & R & E & E2); [reflexivity|reflexivity|reflexivity|].
  exists w, s. split; [exact R|]. vm_compute in E. injection E as <- <-. vm_compute in E2. injection E2 as _ <- _. split; reflexivity.
Qed.
Lemma ex_string_full : exists w s, sreached_own w s letters20 /\ v_cap (s_vec s) = 33 /\ v_shrink (s_vec s) = 0.
Proof.
  destruct (ex_string_sized letters20 0 0) as (w & s & s0 & w1 & rs & R & E & E2); [reflexivity|reflexivity|reflexivity|].
  exists w, s. split; [exact R|]. vm_compute in E. injection E as <- <-. vm_compute in E2. injection E2 as _ <- _. split; reflexivity.
Qed.

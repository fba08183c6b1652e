(** The literal "," beside a buffer of 60 bytes. *)
From Verif Require Import Base Status VectorModel VectorDriver StringModel StringDriver StringExamples Mem.
From Coq Require Import ZifyBool ZifyNat ZifyN.

Definition nums_world : world N :=
  mkworld (fun b => if b =? 0 then Some [44;0] else if b =? 1 then Some (nrepeat 7 60) else None) 2 (fun _ => AOk (fun _ => 170)) 0 [].
Lemma nums_world_buffer : sbuffer_args_ok nums_world 60 1 [] (nrepeat 7 60) [].
Proof.
  split.
  - intros b L. change (2 <= b) in L. unfold nums_world. cbn [heap mkworld]. destruct (N.eqb_spec b 0); [lia|]. destruct (N.eqb_spec b 1); [lia|reflexivity].
  - split; [reflexivity|]. split; [reflexivity|]. unfold W64. lia.
Qed.

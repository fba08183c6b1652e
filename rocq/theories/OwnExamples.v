(** Examples for C115: elements of two cells whose first cell names the block. *)
From Verif Require Import Base Status Mem VectorModel VectorSpec VectorDriver VectorExamples OwnModel OwnDriver OwnProofs2.
From Coq Require Import ZifyBool ZifyNat ZifyN.

Definition ex_name (b : N) : list N := [b; 7].
Definition ex_own (x : list N) : N := match x with b :: _ => b | [] => 0 end.
Lemma ex_names : names_ok 2 ex_name ex_own.
Proof. split; reflexivity. Qed.

Definition ex_wops : list (wop (C := N)) :=
  [WPush [1]; WPush [2; 2]; WInsert 1 [3]; WSet 0 [4; 4; 4]; WPush [5]; WDelete 1 1; WInsert 9 [6]; WPop; WPush [8]; WReserve 20;
   WEmplace 1 [9]; WSwap 0 2; WSwap 0 8].
Lemma ex_wops_args : Forall warg_ok ex_wops.
Proof. repeat constructor; discriminate. Qed.
Lemma ex_wops_room : room (wdemands ex_wops) 2.
Proof. reflexivity. Qed.
Lemma ex_wops_spec : wspecs ex_wops [] =
  ([ST_SUCCESS; ST_SUCCESS; ST_SUCCESS; ST_SUCCESS; ST_SUCCESS; ST_SUCCESS; ST_OUT_OF_RANGE; ST_SUCCESS; ST_SUCCESS; ST_SUCCESS;
    ST_SUCCESS; ST_SUCCESS; ST_OUT_OF_RANGE],
   [[2; 2]; [9]; [4; 4; 4]; [8]]).
Proof. reflexivity. Qed.
Lemma ex_own_init : init_args_ok world0 2 4 None 2 4.
Proof. apply init_args_world0; [lia|exact Logic.I|lia|lia|reflexivity]. Qed.

Lemma ex_own_run : exists v0 w1 rs v w,
  vinit_ex 2 4 None true 2 4 world0 = Ok (ST_SUCCESS, Some v0) w1 /\ run_wops 2 ex_name ex_own v0 ex_wops w1 = Ok (rs, v) w /\
  v_shrink v = 4 /\ snd (vget_capacity v) = 20.
Proof.
  eexists _, _, _, _, _. split; [vm_compute; reflexivity|]. split; [vm_compute; reflexivity|]. split; reflexivity.
Qed.

(** A buffer of three such elements. *)
Lemma ex_own_buffer : buffer_args_ok world_buf 2 3 None 0 [1; 1] [2; 2; 2; 2; 2; 2] [3; 3].
Proof.
  split; [|repeat split; try reflexivity; discriminate]. intros b L. cbn in *. destruct (N.eqb_spec b 0); [lia|reflexivity].
Qed.
Lemma ex_own_buffer_spec : wbspecs 3 ex_wops [] =
  ([ST_SUCCESS; ST_SUCCESS; ST_SUCCESS; ST_SUCCESS; ST_INSUFFICIENT_BUFFER_SIZE; ST_SUCCESS; ST_OUT_OF_RANGE; ST_SUCCESS; ST_SUCCESS;
    ST_INSUFFICIENT_BUFFER_SIZE; ST_SUCCESS; ST_INSUFFICIENT_BUFFER_SIZE; ST_INSUFFICIENT_BUFFER_SIZE],
   [[4; 4; 4]; [9]; [8]]).
Proof. reflexivity. Qed.

(** C92: results do not depend on addresses, on what unused memory contains, or on the build. *)
From Verif Require Import Base Status VectorModel VectorSpec VectorDriver StringModel StringSpec StringDriver
  BitsetModel BitsetSpec BitsetDriver ProgSpec ReproSpec ReproProofs VectorExamples Mem.

(** C92.  Run in two processes -- memory with other contents, other addresses, an allocator that hands out other garbage,
    a debug and a release build -- a program that leaves no contents open returns the same statuses, shows the same
    contents and passes the same elements to destructors in the same order. *)
Theorem c92_same_results :
  forall (w1 w2 : world N) ps,
    world_ok w1 -> allocator_ok w1 -> world_ok w2 -> allocator_ok w2 -> dlog w1 = dlog w2 ->
    plegals ps [] (dlog w1) -> determineds ps [] (dlog w1) ->
    exists rs K os1 os2 w1' w2', run_prog [] ps w1 = Ok (rs, os1) w1' /\ run_prog [] ps w2 = Ok (rs, os2) w2' /\
      Forall2 (obj_shows w1') os1 K /\ Forall2 (obj_shows w2') os2 K /\ dlog w1' = dlog w2'.
Proof. exact same_results. Qed.
Print Assumptions c92_same_results.
(** C92.  Of every program the statuses, the sizes, the capacities of the vectors and the number of destructor calls are the
    same, also if it leaves contents open. *)
Theorem c92_same_statuses :
  forall (w1 w2 : world N) ps,
    world_ok w1 -> allocator_ok w1 -> world_ok w2 -> allocator_ok w2 -> dlog w1 = dlog w2 ->
    plegals ps [] (dlog w1) ->
    exists rs K1 K2 os1 os2 w1' w2', run_prog [] ps w1 = Ok (rs, os1) w1' /\ run_prog [] ps w2 = Ok (rs, os2) w2' /\
      Forall2 (obj_shows w1') os1 K1 /\ Forall2 (obj_shows w2') os2 K2 /\ Forall2 same_shape K1 K2 /\
      nlen (dlog w1') = nlen (dlog w2').
Proof. exact same_statuses. Qed.
Print Assumptions c92_same_statuses.
Example c92_worlds_met : world_ok other_world /\ allocator_ok other_world /\ dlog world0 = dlog other_world /\
  checked world0 <> checked other_world.
Proof.
  split; [|split; [|split; [reflexivity|discriminate]]].
  - intros b H. unfold other_world in *. cbn in *. unfold hset. destruct (N.eqb_spec b 0); [lia|reflexivity].
  - intros t. eexists. reflexivity.
Qed.
(** A program with a constructor, a logical operation, shrinking Resizes, a number and copies leaves nothing open. *)
Example c92_hypotheses_met : plegals settled_program [] [] /\ determineds settled_program [] [].
Proof. exact settled_program_ok. Qed.
(** It runs the same in both: statuses and destructor calls. *)
Example c92_settled_runs :
  match run_prog [] settled_program world0, run_prog [] settled_program other_world with
  | Ok (rs1, _) w1, Ok (rs2, _) w2 => rs1 = repeat ST_SUCCESS 15 /\ rs2 = rs1 /\ dlog w1 = [[1;2]] /\ dlog w2 = dlog w1
  | _, _ => False
  end.
Proof. vm_compute. repeat split. Qed.

(** C92.  Leaving contents open lets the two runs show different elements: an emplaced element without a constructor is
    whatever the memory contained. *)
Theorem c92_open_contents_refuted :
  exists os1 os2 w1 w2 v1 v2,
    run_prog [] open_program world0 = Ok ([ST_SUCCESS; ST_SUCCESS], os1) w1 /\
    run_prog [] open_program other_world = Ok ([ST_SUCCESS; ST_SUCCESS], os2) w2 /\
    os1 = [Some (OV v1)] /\ os2 = [Some (OV v2)] /\ plegals open_program [] [] /\
    read_elem v1 0 w1 = Ok (Some [170;170]) w1 /\ read_elem v2 0 w2 = Ok (Some [0;1]) w2.
Proof. exact open_contents. Qed.
Print Assumptions c92_open_contents_refuted.

(** C96: lists do not disturb each other. *)
From Verif Require Import Base NListFacts Status VectorModel VectorDriver ListModel ListSpec ListDriver ListExamples ListsSpec ListsProofs ListsExamples Mem.

(** A legal program that creates, uses and destroys any number of lists, in any order and whatever the allocator does,
    runs without fault.  Every call does what it would do if its list were the only one ([cmds_spec]): statuses,
    elements and what the destructors see.  Traversal shows the elements of every list, nodes of different lists lie in
    different blocks, memory that was there before is left alone except for buffers handed over (which keep their
    size), and when all lists are destroyed no block is left. *)
Theorem c96_many_lists :
  forall (w0 : world cell) cs, world_ok w0 -> cmds_ok w0 empty cs -> cmds_demand cs < W64 ->
    exists rs s w a log,
      run_cmds empty cs w0 = Ok (rs, s) w /\ cmds_spec (fails w0) cs empty rs a log /\ lists_show w s a /\
      dlog w = dlog w0 ++ log /\
      (forall k x, heap w0 k = Some x ->
         exists x', heap w k = Some x' /\ nlen x' = nlen x /\ (~ In k (buffers cs) -> x' = x)) /\
      (forall i j li lj ps qs xs ys, i <> j -> s i = Some li -> s j = Some lj ->
         lshows w li ps xs -> lshows w lj qs ys -> forall p q, In p ps -> In q qs -> pb p <> pb q) /\
      ((forall i, s i = None) -> forall k, heap w0 k = None -> heap w k = None).
Proof. exact many_lists. Qed.
Print Assumptions c96_many_lists.
Example c96_hypotheses_met :
  world_ok lists_world /\ cmds_ok lists_world empty lists_program /\ cmds_demand lists_program < W64.
Proof. exact (conj lists_world_ok lists_program_ok). Qed.
(** What this program does: request 2 is refused, the buffer holds two nodes. *)
Example c96_program_runs :
  match (let* (rs, s) := run_cmds empty lists_program in
         let look i := match s i with Some l => elements_of l | None => ret [] end in
         let* x := look 1 in let* y := look 2 in let* z := look 1000 in ret (rs, x, y, z)) lists_world with
  | Ok (rs, x, y, z) w =>
      x = [] /\ y = [[CByte 3]; [CByte 7]; [CByte 4]] /\ z = [] /\ dlog w = [el 1 1] /\
      map st_success rs = [true; true; true; true; true; true; true; false; false; true; true; true; true; true]
  | Fault _ => False
  end.
Proof. vm_compute. repeat split. Qed.

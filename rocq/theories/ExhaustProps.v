(** C88: a careful program survives an allocator that runs out of memory. *)
From Verif Require Import Base Status VectorModel VectorSpec VectorDriver StringSpec StringDriver FormatSpec
  BitsetModel BitsetSpec BitsetDriver RefuseSpec ProgSpec VectorRep VectorFail MemFacts VectorExamples ExhaustSpec ExhaustProofs3 Mem.
From Coq Require Import Permutation ZifyBool ZifyNat ZifyN.

(** C88.  A program that creates, uses and destroys any number of vectors, strings and bitsets, looks at every status, does not
    use an object whose creation failed and only destroys an object one of whose calls was refused memory, never faults,
    whichever requests the allocator refuses.  Every status and all contents are as the specification says, the refused
    calls return the allocator's error, the other objects keep their contents, no other memory is touched, and once
    everything is destroyed the memory is as it was. *)
Theorem c88_memory_exhaustion :
  forall (w0 : world N) q, world_ok w0 -> careful q [] [] (dlog w0) ->
    exists rs os w K sp, run_client [] q w0 = Ok (rs, os) w /\
      xsteps (orc w0) q [] [] (dlog w0) (tick w0) rs K sp (dlog w) (tick w) /\
      nlen os = nlen K /\ (forall i x k, nnth i os = Some x -> holds K i k -> obj_shows w x (Some k)) /\ untouched w0 w /\
      (Forall (fun k => k = None) K -> sp = [] -> forall b, heap w b = heap w0 b).
Proof. exact exhausted_ok. Qed.
Print Assumptions c88_memory_exhaustion.
(** C88.  Wherever such a program stops, destroying the objects that are left, spoiled ones among them, in any order, always
    succeeds and gives back all memory. *)
Theorem c88_always_cleared_up :
  forall (w0 : world N) q rs os w ds, world_ok w0 -> careful q [] [] (dlog w0) -> run_client [] q w0 = Ok (rs, os) w ->
    Permutation ds (remaining os) ->
    exists os' w', run_prog os (map PDestroy ds) w = Ok (repeat ST_SUCCESS (length ds), os') w' /\ forall b, heap w' b = heap w0 b.
Proof. exact cleared_up. Qed.
Print Assumptions c88_always_cleared_up.

(** It runs like this when all requests are granted, and when the first, the second, the third or, after the
    sign of the number, the fifth is refused: *)
Example c88_client_runs :
  map (fun n => match run_client [] example_client (with_oracle world0 (refuses_request n)) with
    | Ok (rs, os) w => Some (rs, os, dlog w, tick w)
    | Fault _ => None
    end) [9; 0; 1; 2; 4] =
  [ Some (repeat ST_SUCCESS 7, [None; None], [[7]; [8]], 5);
    Some ([err_status 5], [None], [], 1);
    Some ([ST_SUCCESS; ST_SUCCESS; err_status 5; ST_SUCCESS], [None; None], [[7]], 2);
    Some ([ST_SUCCESS; ST_SUCCESS; ST_SUCCESS; err_status 5; ST_SUCCESS; ST_SUCCESS; ST_SUCCESS], [None; None], [[7]], 4);
    Some ([ST_SUCCESS; ST_SUCCESS; ST_SUCCESS; ST_SUCCESS; err_status 5; ST_SUCCESS; ST_SUCCESS], [None; None], [[7]; [8]], 5) ].
Proof. vm_compute. reflexivity. Qed.
(** It is careful. *)
Example c88_hypotheses_met : world_ok (with_oracle world0 (refuses_request 1)) /\ careful example_client [] [] [].
Proof.
  split; [apply world0_ok|]. unfold example_client.
  Ltac arrive H := try match goal with IN : In _ _ |- _ => clear IN end; let e := fresh in let i := fresh in let words := fresh in
    destruct H as [(H & -> & _)|[(e & _ & _ & _ & -> & H)|(i & words & E & IN & -> & -> & -> & -> & _)]];
    [cbn [pspec] in H|cbn [refused_step] in H|try discriminate E]; rewrite ?st_success_err.
  Ltac whole := left; eexists; reflexivity.
  Ltac broken := right; eexists _, _; split; [reflexivity|now left].
  Ltac done := intros; exact I.
  split.
  { left. repeat split; try lia; reflexivity. }
  intros ans t r K sp log t' H. arrive H.
  2:{ exact I. }
  destruct H as (-> & -> & ->). change (negb (st_success ST_SUCCESS)) with false. cbv iota. split.
  { left. eexists _, _, _. split; [reflexivity|]. split; reflexivity. }
  intros ans1 t1 r1 K1 sp1 log1 t1' H. arrive H.
  2:{ destruct H as (c & xs & cap & k & s & HK & AK & _). injection HK as <- <- <-. discriminate AK. }
  destruct H as (c & xs & cap & xs' & cap' & HK & S & ->). injection HK as <- <- <-. vm_compute in S. destruct S as [-> S]. injection S as -> -> ->.
  split.
  { left. repeat split; try lia; reflexivity. }
  intros ans2 t2 r2 K2 sp2 log2 t2' H. arrive H.
  2:{ destruct H as (-> & -> & ->). cbv iota. split; [whole|done]. }
  destruct H as (-> & -> & ->). change (negb (st_success ST_SUCCESS)) with false. cbv iota. split.
  { left. eexists _, _, _. split; [reflexivity|]. split; reflexivity. }
  intros ans3 t3 r3 K3 sp3 log3 t3' H. arrive H.
  2:{ cbv iota.
      destruct H as (c & xs & cap & k & s & HK & AK & VR & (-> & ->) & ->). injection HK as <- <- <-. split; [broken|].
      intros ans4 t4 r4 K4 sp4 log4 t4' H. arrive H.
      { destruct H as (k2 & HK & _). discriminate HK. } { contradiction H. }
      injection E as <-. split.
      { left. exists []. split; [reflexivity|]. split; [exact I|reflexivity]. }
      intros ans5 t5 r5 K5 sp5 log5 t5' H. arrive H.
      - destruct H as (cs & cs' & HK & _ & -> & ->). split; [whole|done].
      - destruct H as (cs & HK & (-> & ->) & ->). split; [broken|done]. }
  destruct H as (c & xs & cap & xs' & cap' & HK & S & ->). injection HK as <- <- <-. vm_compute in S. destruct S as [-> S]. injection S as -> -> ->.
  change (negb (st_success ST_SUCCESS)) with false. cbv iota. split.
  { left. exists []. split; [reflexivity|]. split; [cbn; lia|reflexivity]. }
  intros ans4 t4 r4 K4 sp4 log4 t4' H. arrive H.
  - destruct H as (cs & cs' & HK & _ & -> & ->). split; [whole|]. intros ans5 t5 r5 K5 sp5 log5 t5' H. arrive H.
    + destruct H as (k & HK2 & -> & -> & ->). split; [whole|done].
    + contradiction H.
    + contradiction IN.
  - destruct H as (cs & HK & (-> & ->) & ->). split; [whole|]. intros ans5 t5 r5 K5 sp5 log5 t5' H. arrive H.
    + destruct H as (k & HK2 & -> & -> & ->). split; [broken|done].
    + contradiction H.
    + injection E as <-. destruct IN as [IN|[]]. discriminate IN.
Qed.

(** C88.  The discipline is needed: a client that goes on with a vector after a refused PushBack, as if nothing but the one
    element was lost, writes behind the end of its memory. *)
Theorem c88_careless_refuted :
  exists w0 : world N, world_ok w0 /\ (forall t, t <> 1 -> exists fill, orc w0 t = AOk fill) /\
    run_prog [] [PVec 1 1 None 2 1; PVecCall 0 (OPushBack [7]); PVecCall 0 (OPushBack [8]); PVecCall 0 (OPushBack [9])] w0 = Fault OutOfBounds.
Proof. exact careless_witness. Qed.
Print Assumptions c88_careless_refuted.

(** C75: objects do not disturb one another. *)
From Verif Require Import Base Status Mem VectorModel VectorSpec VectorDriver StringModel StringSpec StringDriver
  BitsetModel BitsetSpec BitsetDriver FormatModel FormatSpec FormatDriver FormatDigits ProgSpec ProgProofs VectorExamples.

(** C75.  A program that creates, uses and destroys any number of vectors, strings and bitsets, in any order, meets the
    specification of each kind object by object; no step touches memory that was there before, and once everything is
    destroyed the memory is as it was. *)
Theorem c75_independent_objects :
  forall (w0 : world) ps, world_ok w0 -> allocator_ok w0 -> plegals ps [] (dlog w0) ->
    exists rs os w K, run_prog [] ps w0 = Ok (rs, os) w /\
      pspecs ps [] (dlog w0) rs K (dlog w) /\ Forall2 (obj_shows w) os K /\ untouched w0 w /\
      (Forall (fun k => k = None) K -> forall b, heap w b = heap w0 b).
Proof. exact program_ok. Qed.
Print Assumptions c75_independent_objects.
(** C75.  After any such program, one more step leaves every object that it does not change exactly as it was: the same
    descriptor, showing the same contents. *)
Theorem c75_others_unchanged :
  forall (w0 : world) ps rs os w p r os' w' j x,
    world_ok w0 -> allocator_ok w0 -> plegals (ps ++ [p]) [] (dlog w0) ->
    run_prog [] ps w0 = Ok (rs, os) w -> run_step os p w = Ok (r, os') w' ->
    target p <> Some j -> nnth j os = Some (Some x) ->
    nnth j os' = Some (Some x) /\ exists k, obj_shows w (Some x) (Some k) /\ obj_shows w' (Some x) (Some k).
Proof. exact others_unchanged. Qed.
Print Assumptions c75_others_unchanged.

(** It runs as the theorem says: *)
Example c75_program_runs :
  exists w, run_prog [] example_program world0 = Ok (repeat ST_SUCCESS 24, repeat None 6) w /\ dlog w = [[7; 8]; [9; 9]] /\ tick w = 9.
Proof. eexists. split; [vm_compute; reflexivity|]. split; vm_compute; reflexivity. Qed.
(** and it is legal. *)
Example c75_hypotheses_met : world_ok world0 /\ allocator_ok world0 /\ plegals example_program [] [].
Proof.
  split; [apply world0_ok|split; [apply world0_ok|]]. unfold example_program.
  Ltac legal := cbn [plegal]; repeat first [ split | eexists ]; first [ reflexivity | exact I | lia | (vm_compute; congruence) | (repeat constructor; fail) ].
  Ltac next := split; [legal|]; let r := fresh "r" in let K := fresh "K" in let log := fresh "log" in let H := fresh "H" in
    intros r K log H; cbn [pspec] in H;
    repeat match goal with
    | H : exists _, _ |- _ => destruct H
    | H : _ /\ _ |- _ => destruct H
    | H : holds _ _ _ |- _ => vm_compute in H; injection H; clear H; intros; subst
    | H : vspec _ _ _ _ _ |- _ => vm_compute in H; destruct H as [? H]; injection H; clear H; intros; subst
    | H : sspec _ _ _ _ _ |- _ => vm_compute in H; destruct H; subst
    | H : nnth _ _ = Some _ |- _ => vm_compute in H; injection H; clear H; intros; subst
    | H : combined _ _ ?zs ?z |- _ => apply proj1 in H
    | H : ?K = _ |- context [plegals _ ?K _] => is_var K; vm_compute in H; subst K
    | H : ?l = _ |- context [plegals _ _ ?l] => is_var l; vm_compute in H; subst l
    end;
    match goal with |- plegals ?ps ?K ?l =>
      let K' := eval vm_compute in K in let l' := eval vm_compute in l in change (plegals ps K' l')
    end.
  do 20 next. change (nlen x1 = 16) in H1.
  assert (D : exists a b, x1 = a :: b).
  { destruct x1 as [|a b]; [discriminate H1|eauto]. }
  destruct D as (a & b & ->). split.
  { eexists. split; [reflexivity|]. split; [exact I|]. unfold bitroom. rewrite H1. reflexivity. }
  intros r K log (bs & HB & -> & -> & ->). injection HB as <-.
  split; [eexists; reflexivity|]. intros r K log (k & _ & -> & -> & ->).
  split; [eexists; reflexivity|]. intros r K log (k0 & _ & -> & -> & ->).
  split; [eexists; reflexivity|]. intros r K log _. exact I.
Qed.
(** Copies and numbers: the string "Hi0042", a copy of it, the copy followed by what the original has become, and a copied vector. *)
Example c75_copies_run :
  match run_prog [] copy_program world0 with
  | Ok (rs, os) w => rs = repeat ST_SUCCESS 14 /\ os = repeat None 5 /\ dlog w = [[7]; [7]]
  | _ => False
  end.
Proof. vm_compute. repeat split. Qed.
Example c75_copies_shown :
  match run_prog [] (firstn 9 copy_program) world0 with
  | Ok (_, [Some (OS s0); Some (OS s1); Some (OS s2); _; Some (OV v)]) w =>
      mread (sdata s0) 3 w = Ok [52; 50; 0] w /\ mread (sdata s1) 7 w = Ok [72; 105; 48; 48; 52; 50; 0] w /\
      mread (sdata s2) 9 w = Ok [72; 105; 48; 48; 52; 50; 52; 50; 0] w /\ read_elem v 0 w = Ok (Some [7]) w /\ v_cap v = 8
  | _ => False
  end.
Proof. vm_compute. repeat split. Qed.
Example c75_copies_legal : plegals copy_program [] [].
Proof.
  unfold copy_program.
  assert (N42 : forall ds, numeral 10 false 42 ds -> ds = [52; 50]).
  { intros ds H. eapply numeral_unique; [|exact H|]; [lia|]. exists [4; 2]. repeat split; try discriminate. repeat constructor. }
  next. next. next.
  match goal with H : fspec _ _ _ _ _ |- _ => destruct H as (ds & NU & H); rewrite (N42 _ NU) in H; vm_compute in H; destruct H as [-> ->] end.
  match goal with |- plegals ?ps ?K ?l => let K' := eval vm_compute in K in change (plegals ps K' l) end.
  do 11 next. exact I.
Qed.

(** Property C90: threads that work on different objects do not disturb one another, and any number of threads may read the
    same objects. *)
From Verif Require Import Base Status VectorModel VectorDriver VectorSpec StringModel StringSpec StringDriver FormatModel FormatSpec
  FormatDriver BitsetModel BitsetSpec BitsetDriver ListModel ListSpec ListDriver ArgModel ProgSpec ProgProofs ThreadSpec ThreadProofs
  ThreadCode ThreadCode2 ThreadProofs2 ThreadProofs3 ThreadExamples Mem.

(** ** The calls in single steps *)
(** Every call is a sequence of single accesses of the memory and requests to the allocator, and changes only memory that was
    there before or that it has got itself. *)
Theorem c90_vector_calls :
  (forall (C : Type) e cap (d : option (list C -> list C)), in_steps (vinit e cap d)) /\
  (forall (C : Type) e cap (d : option (list C -> list C)) a g s, in_steps (vinit_ex e cap d a g s)) /\
  (forall (C : Type) e b cap (d : option (list C -> list C)), in_steps (vinit_custom e b cap d)) /\
  (forall (C : Type) (v : vector C), in_steps (vdestroy v)) /\
  (forall (C : Type) (v : vector C) cap, in_steps (vduplicate v cap)) /\
  (forall (C : Type) (v : vector C) cap a g s, in_steps (vduplicate_ex v cap a g s)) /\
  (forall (C : Type) (v : vector C) b cap, in_steps (vduplicate_custom v b cap)) /\
  (forall (C : Type) (v : vector C) i p, in_steps (vset v i p)) /\
  (forall (C : Type) (v : vector C) p, in_steps (vpush_back v p)) /\
  (forall (C : Type) (v : vector C) i p, in_steps (vinsert v i p)) /\
  (forall (C : Type) (v : vector C) i p n, in_steps (vinsert_range v i p n)) /\
  (forall (C : Type) (v : vector C) f, in_steps (vemplace v f)) /\
  (forall (C : Type) (v : vector C) i f, in_steps (vemplace_ex v i f)) /\
  (forall (C : Type) (v : vector C) i j, in_steps (vswap v i j)) /\
  (forall (C : Type) (v : vector C) i, in_steps (vdelete v i)) /\
  (forall (C : Type) (v : vector C) i n, in_steps (vdelete_range v i n)) /\
  (forall (C : Type) (v : vector C), in_steps (vpop_back v)) /\
  (forall (C : Type) (v : vector C), in_steps (vclear v)) /\
  (forall (C : Type) (v : vector C) n, in_steps (vresize v n)) /\
  (forall (C : Type) (v : vector C) n p, in_steps (vresize_ex v n p)) /\
  (forall (C : Type) (v : vector C) n, in_steps (vreserve v n)) /\
  (forall (C : Type) (v : vector C), in_steps (vshrink_to_fit v)).
Proof. exact vector_calls. Qed.
Print Assumptions c90_vector_calls.
Theorem c90_string_calls :
  (forall cap, in_steps (sinit cap)) /\
  (forall cap a g s, in_steps (sinit_ex cap a g s)) /\
  (forall b cap, in_steps (sinit_custom b cap)) /\
  (forall s, in_steps (sdestroy s)) /\
  (forall x cap, in_steps (sduplicate x cap)) /\
  (forall x cap a g s, in_steps (sduplicate_ex x cap a g s)) /\
  (forall x b cap, in_steps (sduplicate_custom x b cap)) /\
  (forall x y cap, in_steps (sconcat x y cap)) /\
  (forall x y cap a g s, in_steps (sconcat_ex x y cap a g s)) /\
  (forall x y b cap, in_steps (sconcat_custom x y b cap)) /\
  (forall s i p, in_steps (sset_char s i p)) /\
  (forall s x, in_steps (sappend s x)) /\
  (forall s, in_steps (sappend_self s)) /\
  (forall s x i n, in_steps (sappend_ex s x i n)) /\
  (forall s i x, in_steps (sinsert s i x)) /\
  (forall s i x j n, in_steps (sinsert_ex s i x j n)) /\
  (forall s i n, in_steps (sdelete s i n)) /\
  (forall s i, in_steps (struncate s i)) /\
  (forall s, in_steps (sclear s)) /\
  (forall f s, in_steps (scase f s)) /\
  (forall f s i n, in_steps (scase_ex f s i n)) /\
  (forall s n, in_steps (sresize s n)) /\
  (forall s n, in_steps (sreserve s n)) /\
  (forall s, in_steps (sshrink_to_fit s)) /\
  (forall b s v p, in_steps (sappend_decu b s v p)) /\
  (forall b s v p u, in_steps (sappend_hexu b s v p u)) /\
  (forall b x y s v p f q, in_steps (sappend_decs b x y s v p f q)) /\
  (forall b x y s v p u f q, in_steps (sappend_hexs b x y s v p u f q)) /\
  (forall f g s, in_steps (sappend_format f g s)).
Proof. exact string_calls. Qed.
Print Assumptions c90_string_calls.
Theorem c90_bitset_calls :
  (forall z n, in_steps (bs_init z n)) /\
  (forall z n a g s, in_steps (bs_init_ex z n a g s)) /\
  (forall z n b cap, in_steps (bs_init_buffer z n b cap)) /\
  (forall b, in_steps (bs_destroy b)) /\
  (forall d s, in_steps (bs_and d s)) /\
  (forall d s, in_steps (bs_or d s)) /\
  (forall d s, in_steps (bs_xor d s)) /\
  (forall b, in_steps (bs_flip b)) /\
  (forall b i, in_steps (bs_set b i)) /\
  (forall b i, in_steps (bs_reset b i)) /\
  (forall b i, in_steps (bs_toggle b i)) /\
  (forall b i v, in_steps (bs_assign b i v)) /\
  (forall b, in_steps (bs_set_all b)) /\
  (forall b, in_steps (bs_reset_all b)) /\
  (forall z b v, in_steps (bs_push z b v)) /\
  (forall b, in_steps (bs_pop b)) /\
  (forall b, in_steps (bs_clear b)) /\
  (forall b n, in_steps (bs_reserve b n)) /\
  (forall b, in_steps (bs_shrink_to_fit b)).
Proof. exact bitset_calls. Qed.
Print Assumptions c90_bitset_calls.
Theorem c90_list_calls :
  (forall e d, in_steps (linit e d)) /\
  (forall e d a, in_steps (linit_ex e d a)) /\
  (forall e d b cap, in_steps (linit_custom e d b cap)) /\
  (forall l, in_steps (ldestroy l)) /\
  (forall l n p, in_steps (lset_node_data l n p)) /\
  (forall l p, in_steps (lpush_back l p)) /\
  (forall l p, in_steps (lpush_front l p)) /\
  (forall l f, in_steps (lemplace_back l f)) /\
  (forall l f, in_steps (lemplace_front l f)) /\
  (forall l, in_steps (lpop_back l)) /\
  (forall l, in_steps (lpop_front l)) /\
  (forall l n, in_steps (lremove l n)) /\
  (forall l p q, in_steps (lremove_range l p q)) /\
  (forall l, in_steps (lclear l)) /\
  (forall l n, in_steps (lresize l n)) /\
  (forall l n p, in_steps (lresize_ex l n p)).
Proof. exact list_calls. Qed.
Print Assumptions c90_list_calls.
Theorem c90_arg_calls :
  (forall tw cfg, in_steps (argparse tw cfg)) /\
  (forall tw cfg a, in_steps (argparse_ex tw cfg a)).
Proof. exact arg_calls. Qed.
Print Assumptions c90_arg_calls.
Theorem c90_driver_calls :
  (forall (C : Type) (v : vector C) o, in_steps (run_op v o)) /\
  (forall (C : Type) (v : vector C) ops, in_steps (run_ops v ops)) /\
  (forall s o, in_steps (run_sop s o)) /\
  (forall s ops, in_steps (run_sops s ops)) /\
  (forall b s o, in_steps (run_fop b s o)) /\
  (forall b s ops, in_steps (run_fops b s ops)) /\
  (forall b o, in_steps (run_bitop b o)) /\
  (forall b ops, in_steps (run_bitops b ops)) /\
  (forall os p, in_steps (run_step os p)) /\
  (forall os ps, in_steps (run_prog os ps)) /\
  (forall l o, in_steps (run_lop l o)) /\
  (forall l ops, in_steps (run_lops l ops)).
Proof. exact driver_calls. Qed.
Print Assumptions c90_driver_calls.
(** The calls that take a const object only read. *)
Theorem c90_vector_queries :
  (forall (C : Type) (v : vector C) i, only_reads (vget v i)) /\
  (forall (C : Type) (v : vector C) i, only_reads (vget_pointer v i)) /\
  (forall (C : Type) (v : vector C) p cmp, only_reads (vfind v p cmp)) /\
  (forall (C : Type) (v : vector C) p cmp i n, only_reads (vfind_ex v p cmp i n)) /\
  (forall (C : Type) (v : vector C) p cmp, only_reads (vbinary_search v p cmp)) /\
  (forall (C : Type) (v : vector C) p cmp i n, only_reads (vbinary_search_ex v p cmp i n)).
Proof. exact vector_queries. Qed.
Print Assumptions c90_vector_queries.
Theorem c90_string_queries :
  (forall v p, only_reads (view_inside_buffer v p)) /\
  (forall v, only_reads (view_get_size v)) /\
  (forall s i, only_reads (sget_char s i)) /\
  (forall s i, only_reads (sget_char_mutable s i)) /\
  (forall eqc h x, only_reads (slpos eqc h x)) /\
  (forall eqc h x i n, only_reads (slpos_ex eqc h x i n)) /\
  (forall eqc h x, only_reads (srpos eqc h x)) /\
  (forall eqc h x i n, only_reads (srpos_ex eqc h x i n)) /\
  (forall eqc x y, only_reads (scompare eqc x y)) /\
  (forall s, only_reads (sget_capacity s)) /\
  (forall s, only_reads (sget_size s)).
Proof. exact string_queries. Qed.
Print Assumptions c90_string_queries.
Theorem c90_bitset_queries :
  (forall b i, only_reads (bs_test b i)) /\
  (forall b, only_reads (bs_test_msb b)) /\
  (forall b, only_reads (bs_test_lsb b)) /\
  (forall b, only_reads (bs_count b)) /\
  (forall b, only_reads (bs_all b)) /\
  (forall b, only_reads (bs_any b)) /\
  (forall b, only_reads (bs_none b)).
Proof. exact bitset_queries. Qed.
Print Assumptions c90_bitset_queries.
Theorem c90_list_queries :
  (forall n, only_reads (lget_prev_node n)) /\
  (forall n, only_reads (lget_next_node n)).
Proof. exact list_queries. Qed.
Print Assumptions c90_list_queries.

(** ** Interleaved *)
(** Every thread makes calls that are fine when it is alone in its own part of the memory, and no thread changes a block that
    another one can use.  Then, for every schedule of their single steps in one common memory, nothing goes wrong; a thread that
    has had its turns has the result it would have had alone and finds its memory as if it had been alone; and memory that
    nobody changes stays as it is. *)
Theorem c90_threads_apart :
  forall (C A : Type) (memory0 : N -> option (list C)) (ms : N -> M C A) (cs : N -> code C A) (ws : N -> world C) (last : N -> N)
    (rs : N -> A) (ends : N -> world C),
    (forall t, amounts_to (cs t) (ms t)) ->
    (forall t, ms t (ws t) = Ok (rs t) (ends t)) ->
    (forall t, nextb (ends t) <= last t) ->
    apart cs ws last -> holds_all memory0 ws last ->
    forall schedule, exists m,
      play schedule (start memory0 cs ws) = Some m /\
      (forall t, steps (cs t) (ws t) <= turns t schedule ->
         exists w, finished m t (rs t) w /\ same_view ws last t w (ends t)) /\
      (forall b, (forall t, ~ In b (changes (cs t) (ws t))) -> memory m b = memory0 b).
Proof. exact (@calls_interleaved). Qed.
Print Assumptions c90_threads_apart.

(** Any number of threads make calls that only read, in the same memory: each gets the result it would have got alone. *)
Theorem c90_readers :
  forall (C A : Type) (ms : N -> M C A) (cs : N -> code C A) (w : world C) (rs : N -> A) (ends : N -> world C),
    (forall t, amounts_to (cs t) (ms t)) -> (forall t, reads_only (cs t)) ->
    (forall t, ms t w = Ok (rs t) (ends t)) ->
    forall schedule, exists m,
      play schedule (start (heap w) cs (fun _ => w)) = Some m /\
      (forall t, steps (cs t) w <= turns t schedule -> exists w', finished m t (rs t) w' /\ same_world w' w) /\
      (forall b, memory m b = heap w b).
Proof. exact (@readers_interleaved). Qed.
Print Assumptions c90_readers.

(** Any number of threads run legal programs with vectors, strings and bitsets of their own (C75), under any schedule: every
    program that has had its turns met the specification of each object, and the API shows the contents in the common memory;
    when a thread has destroyed its objects, none of its memory is left; other memory stays as it is. *)
Theorem c90_programs :
  forall memory0 (ps : N -> list pstep) (cs : N -> code N (list status * objs)) (ws : N -> world N) (last : N -> N),
  (forall t, amounts_to (cs t) (run_prog [] (ps t)) /\ tidy (cs t)) ->
  (forall t b, heap (ws t) b = None) -> (forall t, allocator_ok (ws t)) -> (forall t, plegals (ps t) [] (dlog (ws t))) ->
  (forall t r w, run_prog [] (ps t) (ws t) = Ok r w -> nextb w <= last t) ->
  (forall t u b, t <> u -> nextb (ws t) <= b < last t -> ~ (nextb (ws u) <= b < last u)) ->
  (forall t b, nextb (ws t) <= b < last t -> memory0 b = None) ->
  exists needed : N -> N, forall schedule, exists m,
    play schedule (start memory0 cs ws) = Some m /\
    (forall t, needed t <= turns t schedule -> exists rs os w K,
       finished m t (rs, os) w /\ pspecs (ps t) [] (dlog (ws t)) rs K (dlog w) /\ Forall2 (obj_shows w) os K /\
       (Forall (fun k => k = None) K -> forall b, nextb (ws t) <= b < last t -> memory m b = None)) /\
    (forall b, (forall t, ~ (nextb (ws t) <= b < last t)) -> memory m b = memory0 b).
Proof. exact programs_interleaved. Qed.
Print Assumptions c90_programs.

(** ** Examples *)
(** Three schedules of two threads: the same results, the same memory. *)
Example c90_programs_run :
  map ex_results ex_schedules =
  repeat (Some (repeat ST_SUCCESS 4, repeat ST_SUCCESS 6, [None; None; None; None; Some [1; 2; 1; 2]; None], repeat None 6)) 3.
Proof. vm_compute. reflexivity. Qed.
(** Their hypotheses. *)
Example c90_programs_hypotheses_met :
  (forall t, amounts_to (ex_codes t) (run_prog [] (ex_programs t)) /\ tidy (ex_codes t)) /\
  (forall t b, heap (ex_world t) b = None) /\ (forall t, allocator_ok (ex_world t)) /\
  (forall t, plegals (ex_programs t) [] (dlog (ex_world t))) /\
  (forall t r w, run_prog [] (ex_programs t) (ex_world t) = Ok r w -> nextb w <= ex_last t) /\
  (forall t u b, t <> u -> nextb (ex_world t) <= b < ex_last t -> ~ (nextb (ex_world u) <= b < ex_last u)) /\
  (forall t b, nextb (ex_world t) <= b < ex_last t -> ex_memory b = None).
Proof.
  split; [intros t; split; [apply tree_ok|apply tree_tidy]|]. split; [reflexivity|]. split; [intros t i; eexists; reflexivity|].
  split; [|split; [|split; [|reflexivity]]].
  - intros t. unfold ex_programs. destruct (t =? 0); [|destruct (t =? 1); [|exact I]]; cbn [dlog ex_world mkworld].
  Ltac legal := cbn [plegal]; repeat first [ split | eexists ]; first [ reflexivity | exact I | lia | (vm_compute; congruence) | (repeat constructor; fail) ].
  Ltac next := split; [legal|]; let r := fresh "r" in let K := fresh "K" in let log := fresh "log" in let H := fresh "H" in
    intros r K log H; cbn [pspec] in H;
    repeat match goal with
    | H : exists _, _ |- _ => destruct H
    | H : _ /\ _ |- _ => destruct H
    | H : holds _ _ _ |- _ => vm_compute in H; injection H; clear H; intros; subst
    | H : vspec _ _ _ _ _ |- _ => vm_compute in H; destruct H as [? H]; injection H; clear H; intros; subst
    | H : sspec _ _ _ _ _ |- _ => vm_compute in H; destruct H; subst
    | H : nnth _ _ = Some _ |- _ => vm_compute in H; injection H; clear H; intros; subst
    | H : ?K = _ |- context [plegals _ ?K _] => is_var K; vm_compute in H; subst K
    | H : ?l = _ |- context [plegals _ _ ?l] => is_var l; vm_compute in H; subst l
    end;
    match goal with |- plegals ?ps ?K ?l =>
      let K' := eval vm_compute in K in let l' := eval vm_compute in l in change (plegals ps K' l')
    end.
    + do 4 next. exact I.
    + do 6 next. exact I.
  - intros t r w. unfold ex_programs. destruct (N.eqb_spec t 0) as [->|]; [|destruct (N.eqb_spec t 1) as [->|]].
    + intros E. vm_compute in E. injection E as _ <-. vm_compute. discriminate.
    + intros E. vm_compute in E. injection E as _ <-. vm_compute. discriminate.
    + intros E. cbn in E. injection E as _ <-. unfold ex_last. cbn. lia.
  - intros t u b NE. unfold ex_last. cbn. lia.
Qed.
(** Readers of one vector. *)
Example c90_readers_hypotheses_met :
  (forall t, amounts_to (rtree (ro_read_elem shared_vector t)) (two_readers t)) /\
  (forall t, reads_only (rtree (ro_read_elem shared_vector t))) /\
  (forall t, two_readers t shared_world = Ok (if t =? 0 then Some [7; 8] else None) shared_world).
Proof.
  split; [intros t; apply amounts_eq, rtree_ok|]. split; [intros t; apply rtree_ro|]. intros t. unfold two_readers, read_elem.
  destruct (N.eqb_spec t 0) as [->|NE]; [vm_compute; reflexivity|]. unfold vget, bind. cbn.
  destruct (1 <=? t) eqn:E; [reflexivity|lia].
Qed.
(** The hypothesis is needed: a thread that reads a vector and a thread that destroys it are both fine alone, and one after the
    other in one order, but not in every order. *)
Theorem c90_shared_object_refuted :
  exists (ms : N -> M N (option (list N))) (cs : N -> code N (option (list N))) (w : world N),
    (forall t, amounts_to (cs t) (ms t) /\ tidy (cs t)) /\
    (forall t, exists r w', ms t w = Ok r w') /\
    (exists schedule m, play schedule (start (heap w) cs (fun _ => w)) = Some m /\
       todo (threads m 0) = Done (Some [7; 8]) /\ todo (threads m 1) = Done None) /\
    (exists schedule, play schedule (start (heap w) cs (fun _ => w)) = None).
Proof. exact shared_object. Qed.
Print Assumptions c90_shared_object_refuted.

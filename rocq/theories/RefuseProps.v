(** C73 and C74: allocators that refuse requests. *)
From Verif Require Import Base Status Mem VectorModel VectorSpec VectorDriver StringModel StringSpec StringDriver
  FormatModel FormatSpec FormatDriver BitsetModel BitsetSpec BitsetDriver ListModel ListSpec ListDriver
  ArgModel ArgSpec ArgDriver RefuseSpec OracleProofs2 RefuseProofs VectorExamples.

(** C73.  What a call does depends on the allocator only through the answers to the requests that the call itself makes. *)
Theorem c73_vector :
  forall (C : Type) (v : vector C),
    (forall ops, depends_on_answers (run_ops v ops)) /\
    (forall e cap d a g s, depends_on_answers (@vinit_ex C e cap d a g s)) /\
    (forall e p cap d, depends_on_answers (@vinit_custom C e p cap d)) /\
    (forall cap a g s, depends_on_answers (vduplicate_ex v cap a g s)) /\
    (forall p cap, depends_on_answers (vduplicate_custom v p cap)) /\
    depends_on_answers (vdestroy v) /\
    (forall i, depends_on_answers (vget v i) /\ depends_on_answers (vget_pointer v i)) /\
    (forall p cmp i n, depends_on_answers (vfind_ex v p cmp i n)) /\
    (forall p cmp i n, depends_on_answers (vbinary_search_ex v p cmp i n)).
Proof. exact vector_answers. Qed.
Print Assumptions c73_vector.
Theorem c73_string :
  forall s : str,
    (forall ops, depends_on_answers (run_sops s ops)) /\
    (forall cap a g t, depends_on_answers (sinit_ex cap a g t)) /\
    (forall p cap, depends_on_answers (sinit_custom p cap)) /\
    (forall cap a g t, depends_on_answers (sduplicate_ex s cap a g t)) /\
    (forall p cap, depends_on_answers (sduplicate_custom s p cap)) /\
    (forall q cap a g t, depends_on_answers (sconcat_ex s q cap a g t)) /\
    (forall q p cap, depends_on_answers (sconcat_custom s q p cap)) /\
    depends_on_answers (sdestroy s) /\
    (forall i, depends_on_answers (sget_char s i)) /\
    (forall eqc q i n, depends_on_answers (slpos_ex eqc s q i n) /\ depends_on_answers (srpos_ex eqc s q i n)) /\
    (forall eqc q, depends_on_answers (scompare eqc s q)) /\
    (forall p, depends_on_answers (view_inside_buffer s p)) /\
    depends_on_answers (view_get_size s) /\ depends_on_answers (sget_size s) /\ depends_on_answers (sget_capacity s).
Proof. exact string_answers. Qed.
Print Assumptions c73_string.
Theorem c73_format :
  forall s : str,
    (forall is64 ops, depends_on_answers (run_fops is64 s ops)) /\
    (forall f1 f2, depends_on_answers (sappend_format f1 f2 s)).
Proof. exact format_answers. Qed.
Print Assumptions c73_format.
Theorem c73_bitset :
  forall b : bitset,
    (forall ops, depends_on_answers (run_bitops b ops)) /\
    (forall n a g s, depends_on_answers (with_zero (fun z => bs_init_ex z n a g s))) /\
    (forall n p cap, depends_on_answers (with_zero (fun z => bs_init_buffer z n p cap))) /\
    depends_on_answers (bs_destroy b) /\
    (forall c, depends_on_answers (bs_and b c) /\ depends_on_answers (bs_or b c) /\ depends_on_answers (bs_xor b c)) /\
    (forall i, depends_on_answers (bs_test b i)) /\
    depends_on_answers (bs_count b) /\ depends_on_answers (bs_all b) /\ depends_on_answers (bs_any b) /\ depends_on_answers (bs_none b).
Proof. exact bitset_answers. Qed.
Print Assumptions c73_bitset.
Theorem c73_list :
  forall l : zlist,
    (forall ops, depends_on_answers (run_lops l ops)) /\
    (forall e d a, depends_on_answers (linit_ex e d a)) /\
    (forall e d p cap, depends_on_answers (linit_custom e d p cap)) /\
    depends_on_answers (ldestroy l) /\
    (forall p, depends_on_answers (lget_prev_node p) /\ depends_on_answers (lget_next_node p)) /\
    (forall p q, depends_on_answers (lset_node_data l p q)).
Proof. exact list_answers. Qed.
Print Assumptions c73_list.
Theorem c73_argparse : forall tw cfg a, depends_on_answers (argparse_ex tw cfg a).
Proof. exact argparse_answers. Qed.
Print Assumptions c73_argparse.
(** Two allocators that agree on the requests made: a run that makes one request, with an allocator that refuses all others. *)
Example c73_hypothesis_met :
  exists v w' o, vinit_ex 2 3 None true 2 4 world0 = Ok (ST_SUCCESS, Some v) w' /\ tick world0 = 0 /\ tick w' = 1 /\
    (forall t, tick world0 <= t < tick w' -> o t = orc world0 t) /\ o 1 = AFail 5 /\ orc world0 1 <> AFail 5.
Proof.
  eexists _, _, (fun t => if t =? 0 then AOk (fun _ => 170) else AFail 5).
  split; [vm_compute; reflexivity|]. split; [reflexivity|]. split; [reflexivity|]. split; [|split; [reflexivity|discriminate]].
  intros t T. change (0 <= t < 1) in T. replace t with 0 by lia. reflexivity.
Qed.

(** C74.  A growable vector with an allocator that may refuse any request.  The history runs like the list machine until the
    first refused request that leaves a capacity the storage does not have ([usable] fails); that call returns the
    allocator's error.  At both points every element can be read, and Destroy gives all memory back. *)
Theorem c74_any_allocator :
  forall (C : Type) (w0 : world C) e cap d g s ops fill,
    init_params_ok w0 e cap d g s -> Forall (arg_ok e) ops -> room (demands ops) e -> orc w0 (tick w0) = AOk fill ->
    exists v0 w1 ops1 ops2 rs v w xs, let c := mkcfg false g s e d in let s1 := mkst xs (snd (vget_capacity v)) (dlog w) in
      vinit_ex e cap d true g s w0 = Ok (ST_SUCCESS, Some v0) w1 /\
      ops = ops1 ++ ops2 /\ run_ops v0 ops1 w1 = Ok (rs, v) w /\
      vcalls c (orc w0) (tick w0 + 1) ops1 (mkst [] (N.max 1 cap) (dlog w0)) rs s1 (tick w) /\
      shows w v xs /\ destroys_back w0 c w v xs /\
      (ops2 = [] \/ exists o rest r v2 w2 xs2, let s2 := mkst xs2 (snd (vget_capacity v2)) (dlog w2) in
         ops2 = o :: rest /\ run_op v o w = Ok (r, v2) w2 /\
         refuses c (orc w0 (tick w)) o s1 /\ vcall c (orc w0 (tick w)) o s1 r s2 /\ ~ usable s1 s2 /\
         shows w2 v2 xs2 /\ destroys_back w0 c w2 v2 xs2).
Proof. exact @any_allocator. Qed.
Print Assumptions c74_any_allocator.
(** C74.  A refused request of a deletion or of ShrinkToFit leaves a usable vector, if the growth factor is at most the shrink
    threshold ... *)
Theorem c74_refused_trim_usable :
  forall (C : Type) (c : vcfg C) ans o (s : vstate C) r s',
    trims o = true -> nlen (s_elems s) <= s_cap s -> 1 <= s_cap s -> 1 <= c_growth c -> c_growth c <= c_shrink c ->
    refuses c ans o s -> vcall c ans o s r s' -> usable s s'.
Proof. exact @trimmed_usable. Qed.
Print Assumptions c74_refused_trim_usable.
(** ... and a refused request of a call that needs room never does. *)
Theorem c74_refused_extension_unusable :
  forall (C : Type) (c : vcfg C) ans o (s : vstate C) r s',
    extends o = true -> 1 <= c_growth c -> refuses c ans o s -> vcall c ans o s r s' -> ~ usable s s'.
Proof. exact @extended_unusable. Qed.
Print Assumptions c74_refused_extension_unusable.
(** Requests 1 and 3 are refused: PopBack reports the refusal and the vector goes on, PushBack reports it and the history ends. *)
Example c74_hypotheses_met :
  let ops := [OPushBack [1;2]; OPushBack [3;4]; OPopBack; OPushBack [5;6]; OPushBack [7;8]; OReserve 99; OPushBack [9;9]] in
  init_params_ok (world_failing [1; 3]) 2 8 None 2 4 /\ Forall (arg_ok 2) ops /\ room (demands ops) 2 /\
  orc (world_failing [1; 3]) (tick (world_failing [1; 3])) = AOk (fun _ => 170) /\
  exists v0 w1 v w, vinit_ex 2 8 None true 2 4 (world_failing [1; 3]) = Ok (ST_SUCCESS, Some v0) w1 /\
    run_ops v0 (firstn 6 ops) w1 =
      Ok ([ST_SUCCESS; ST_SUCCESS; err_status 7; ST_SUCCESS; ST_SUCCESS; err_status 7], v) w /\
    vget_size v = (ST_SUCCESS, 3) /\ vget_capacity v = (ST_SUCCESS, 99) /\ tick w = 4.
Proof.
  cbv zeta. split; [|split; [|split; [reflexivity|split; [reflexivity|]]]].
  - unfold init_params_ok. split; [intros b _; reflexivity|]. repeat split; lia.
  - repeat constructor.
  - eexists _, _, _, _. split; [vm_compute; reflexivity|]. split; [vm_compute; reflexivity|]. now repeat split.
Qed.

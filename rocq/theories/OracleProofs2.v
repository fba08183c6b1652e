(** What a call does depends on the allocator only through the answers to the requests the call makes. *)
From Verif Require Import Base Status Mem VectorModel VectorSpec VectorDriver StringModel StringSpec StringDriver
  FormatModel FormatSpec FormatDriver BitsetModel BitsetSpec BitsetDriver ListModel ListSpec ListDriver
  ArgModel ArgSpec ArgDriver RefuseSpec OracleProofs.

Lemma local_answers {C A} (m : Mem.M C A) : local m m -> depends_on_answers m.
Proof. intros L w a w' E. destruct (L w a w' E) as (_ & T & H). now split. Qed.

Lemma vector_answers (C : Type) (v : vector C) :
    (forall ops, depends_on_answers (run_ops v ops)) /\
    (forall e cap d a g s, depends_on_answers (@vinit_ex C e cap d a g s)) /\
    (forall e p cap d, depends_on_answers (@vinit_custom C e p cap d)) /\
    (forall cap a g s, depends_on_answers (vduplicate_ex v cap a g s)) /\
    (forall p cap, depends_on_answers (vduplicate_custom v p cap)) /\
    depends_on_answers (vdestroy v) /\
    (forall i, depends_on_answers (vget v i) /\ depends_on_answers (vget_pointer v i)) /\
    (forall p cmp i n, depends_on_answers (vfind_ex v p cmp i n)) /\
    (forall p cmp i n, depends_on_answers (vbinary_search_ex v p cmp i n)).
Proof.
  repeat match goal with |- _ /\ _ => split end; intros; [apply local_answers, lo_run_ops | apply local_answers, lo_vinit_ex | apply local_answers, lo_vinit_custom | apply local_answers, lo_vduplicate_ex
   | apply local_answers, lo_vduplicate_custom | apply local_answers, lo_vdestroy | split; [apply local_answers, lo_vget | apply local_answers, lo_vget_pointer] | apply local_answers, lo_vfind_ex | apply local_answers, lo_vbinary_search_ex].
Qed.
Lemma string_answers (s : str) :
    (forall ops, depends_on_answers (run_sops s ops)) /\
    (forall cap a g t, depends_on_answers (sinit_ex cap a g t)) /\
    (forall p cap, depends_on_answers (sinit_custom p cap)) /\
    (forall cap a g t, depends_on_answers (sduplicate_ex s cap a g t)) /\
    (forall p cap, depends_on_answers (sduplicate_custom s p cap)) /\
    (forall q cap a g t, depends_on_answers (sconcat_ex s q cap a g t)) /\
    (forall q p cap, depends_on_answers (sconcat_custom s q p cap)) /\
    depends_on_answers (sdestroy s) /\
    (forall i, depends_on_answers (sget_char s i)) /\
    (forall eqc q i n, depends_on_answers (slpos_ex eqc s q i n) /\ depends_on_answers (srpos_ex eqc s q i n)) /\
    (forall eqc q, depends_on_answers (scompare eqc s q)) /\
    (forall p, depends_on_answers (view_inside_buffer s p)) /\
    depends_on_answers (view_get_size s) /\ depends_on_answers (sget_size s) /\ depends_on_answers (sget_capacity s).
Proof.
  repeat match goal with |- _ /\ _ => split end; intros; [apply local_answers, lo_run_sops | apply local_answers, lo_sinit_ex | apply local_answers, lo_sinit_custom | apply local_answers, lo_sduplicate_ex
   | apply local_answers, lo_sduplicate_custom | apply local_answers, lo_sconcat_ex | apply local_answers, lo_sconcat_custom | apply local_answers, lo_sdestroy | apply local_answers, lo_sget_char
   | split; [apply local_answers, lo_slpos_ex | apply local_answers, lo_srpos_ex] | apply local_answers, lo_scompare | apply local_answers, lo_view_inside_buffer | apply local_answers, lo_view_get_size
   | apply local_answers, lo_sget_size | apply local_answers, lo_sget_capacity].
Qed.
Lemma format_answers (s : str) :
    (forall is64 ops, depends_on_answers (run_fops is64 s ops)) /\
    (forall f1 f2, depends_on_answers (sappend_format f1 f2 s)).
Proof. split; intros; [apply local_answers, lo_run_fops | apply local_answers, lo_sappend_format]. Qed.
Lemma bitset_answers (b : bitset) :
    (forall ops, depends_on_answers (run_bitops b ops)) /\
    (forall n a g s, depends_on_answers (with_zero (fun z => bs_init_ex z n a g s))) /\
    (forall n p cap, depends_on_answers (with_zero (fun z => bs_init_buffer z n p cap))) /\
    depends_on_answers (bs_destroy b) /\
    (forall c, depends_on_answers (bs_and b c) /\ depends_on_answers (bs_or b c) /\ depends_on_answers (bs_xor b c)) /\
    (forall i, depends_on_answers (bs_test b i)) /\
    depends_on_answers (bs_count b) /\ depends_on_answers (bs_all b) /\ depends_on_answers (bs_any b) /\ depends_on_answers (bs_none b).
Proof.
  repeat match goal with |- _ /\ _ => split end; intros;
    [apply local_answers, lo_run_bitops | apply local_answers, lo_with_arg; intros; apply lo_bs_init_ex | apply local_answers, lo_with_arg; intros; apply lo_bs_init_buffer
    | apply local_answers, lo_bs_destroy | split; [|split]; apply local_answers, lo_byte_op_loop | apply local_answers, lo_bs_test | apply local_answers, lo_bs_count
    | apply local_answers, lo_scan_loop | apply local_answers, lo_scan_loop | apply local_answers, lo_scan_loop].
Qed.
Lemma list_answers (l : zlist) :
    (forall ops, depends_on_answers (run_lops l ops)) /\
    (forall e d a, depends_on_answers (linit_ex e d a)) /\
    (forall e d p cap, depends_on_answers (linit_custom e d p cap)) /\
    depends_on_answers (ldestroy l) /\
    (forall p, depends_on_answers (lget_prev_node p) /\ depends_on_answers (lget_next_node p)) /\
    (forall p q, depends_on_answers (lset_node_data l p q)).
Proof.
  repeat match goal with |- _ /\ _ => split end; intros; [apply local_answers, lo_run_lops | apply local_answers, lo_linit_ex | apply local_answers, lo_linit_custom | apply local_answers, lo_ldestroy
   | split; [apply local_answers, lo_lget_prev_node | apply local_answers, lo_lget_next_node] | apply local_answers, lo_lset_node_data].
Qed.
Lemma argparse_answers tw cfg a : depends_on_answers (argparse_ex tw cfg a).
Proof. apply local_answers, lo_argparse_ex. Qed.

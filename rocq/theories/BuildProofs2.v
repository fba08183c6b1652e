(** The theorems on release builds, put together. *)
From Verif Require Import Base Status Mem VectorModel VectorSpec VectorDriver StringModel StringSpec StringDriver
  FormatModel FormatSpec FormatDriver BitsetModel BitsetSpec BitsetDriver ListModel ListSpec ListDriver
  ArgModel ArgSpec ArgDriver BuildSpec BuildProofs.

Lemma vector_release (C : Type) (v : vector C) :
    (forall ops, same_in_release (run_ops v ops)) /\
    (forall e cap d a g s, same_in_release (@vinit_ex C e cap d a g s)) /\
    (forall e p cap d, same_in_release (@vinit_custom C e p cap d)) /\
    (forall cap a g s, same_in_release (vduplicate_ex v cap a g s)) /\
    (forall p cap, same_in_release (vduplicate_custom v p cap)) /\
    same_in_release (vdestroy v) /\
    (forall i, same_in_release (vget v i) /\ same_in_release (vget_pointer v i)) /\
    (forall p cmp i n, same_in_release (vfind_ex v p cmp i n)) /\
    (forall p cmp i n, same_in_release (vbinary_search_ex v p cmp i n)).
Proof.
  repeat match goal with |- _ /\ _ => split end; intros; [apply st_run_ops | apply st_vinit_ex | apply st_vinit_custom | apply st_vduplicate_ex
   | apply st_vduplicate_custom | apply st_vdestroy | split; [apply st_vget | apply st_vget_pointer] | apply st_vfind_ex | apply st_vbinary_search_ex].
Qed.
Lemma string_release (s : str) :
    (forall ops, same_in_release (run_sops s ops)) /\
    (forall cap a g t, same_in_release (sinit_ex cap a g t)) /\
    (forall p cap, same_in_release (sinit_custom p cap)) /\
    (forall cap a g t, same_in_release (sduplicate_ex s cap a g t)) /\
    (forall p cap, same_in_release (sduplicate_custom s p cap)) /\
    (forall q cap a g t, same_in_release (sconcat_ex s q cap a g t)) /\
    (forall q p cap, same_in_release (sconcat_custom s q p cap)) /\
    same_in_release (sdestroy s) /\
    (forall i, same_in_release (sget_char s i)) /\
    (forall eqc q i n, same_in_release (slpos_ex eqc s q i n) /\ same_in_release (srpos_ex eqc s q i n)) /\
    (forall eqc q, same_in_release (scompare eqc s q)) /\
    (forall p, same_in_release (view_inside_buffer s p)) /\
    same_in_release (view_get_size s) /\ same_in_release (sget_size s) /\ same_in_release (sget_capacity s).
Proof.
  repeat match goal with |- _ /\ _ => split end; intros; [apply st_run_sops | apply st_sinit_ex | apply st_sinit_custom | apply st_sduplicate_ex
   | apply st_sduplicate_custom | apply st_sconcat_ex | apply st_sconcat_custom | apply st_sdestroy | apply st_sget_char
   | split; [apply st_slpos_ex | apply st_srpos_ex] | apply st_scompare | apply st_view_inside_buffer | apply st_view_get_size
   | apply st_sget_size | apply st_sget_capacity].
Qed.
Lemma format_release (s : str) :
    (forall is64 ops, same_in_release (run_fops is64 s ops)) /\
    (forall f1 f2, same_in_release (sappend_format f1 f2 s)).
Proof. split; intros; [apply st_run_fops | apply st_sappend_format]. Qed.
Lemma bitset_release (b : bitset) :
    (forall ops, same_in_release (run_bitops b ops)) /\
    (forall n a g s, same_in_release (with_zero (fun z => bs_init_ex z n a g s))) /\
    (forall n p cap, same_in_release (with_zero (fun z => bs_init_buffer z n p cap))) /\
    same_in_release (bs_destroy b) /\
    (forall c, same_in_release (bs_and b c) /\ same_in_release (bs_or b c) /\ same_in_release (bs_xor b c)) /\
    (forall i, same_in_release (bs_test b i)) /\
    same_in_release (bs_count b) /\ same_in_release (bs_all b) /\ same_in_release (bs_any b) /\ same_in_release (bs_none b).
Proof.
  repeat match goal with |- _ /\ _ => split end; intros;
    [apply st_run_bitops | apply st_with_arg; intros; apply st_bs_init_ex | apply st_with_arg; intros; apply st_bs_init_buffer
    | apply st_bs_destroy | repeat split; apply st_byte_op_loop | apply st_bs_test | apply st_bs_count
    | apply st_scan_loop | apply st_scan_loop | apply st_scan_loop].
Qed.
Lemma list_release (l : zlist) :
    (forall ops, same_in_release (run_lops l ops)) /\
    (forall e d a, same_in_release (linit_ex e d a)) /\
    (forall e d p cap, same_in_release (linit_custom e d p cap)) /\
    same_in_release (ldestroy l) /\
    (forall p, same_in_release (lget_prev_node p) /\ same_in_release (lget_next_node p)) /\
    (forall p q, same_in_release (lset_node_data l p q)).
Proof.
  repeat match goal with |- _ /\ _ => split end; intros; [apply st_run_lops | apply st_linit_ex | apply st_linit_custom | apply st_ldestroy
   | split; [apply st_lget_prev_node | apply st_lget_next_node] | apply st_lset_node_data].
Qed.
Lemma argparse_release tw cfg a (w : world acell) r w' :
  argparse_ex tw cfg a w = Ok r w' -> argparse_ex (release tw) cfg a (release w) = Ok r (release w').
Proof. apply st_argparse_ex. Qed.
Lemma faults_of {C A} (m : Mem.M C A) : same_in_release m -> no_new_faults m.
Proof.
  intros H w f E. destruct (m w) as [a w'|g] eqn:F; [|now exists g].
  apply H in F. rewrite F in E. discriminate E.
Qed.
Lemma histories_no_new_faults :
  (forall (C : Type) (v : vector C) ops, no_new_faults (run_ops v ops)) /\
  (forall s ops, no_new_faults (run_sops s ops)) /\
  (forall is64 s ops, no_new_faults (run_fops is64 s ops)) /\
  (forall b ops, no_new_faults (run_bitops b ops)) /\
  (forall l ops, no_new_faults (run_lops l ops)).
Proof.
  repeat match goal with |- _ /\ _ => split end; intros; apply faults_of;
    [apply st_run_ops | apply st_run_sops | apply st_run_fops | apply st_run_bitops | apply st_run_lops].
Qed.

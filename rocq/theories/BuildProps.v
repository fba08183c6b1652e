(** C72: builds without assertions. *)
From Verif Require Import Base Status Mem VectorModel VectorSpec VectorDriver StringModel StringSpec StringDriver
  FormatModel FormatSpec FormatDriver BitsetModel BitsetSpec BitsetDriver ListModel ListSpec ListDriver
  ArgModel ArgSpec ArgDriver BuildSpec BuildProofs2.

(** C72.  Histories of calls: a run in which no assertion fails is the same run in a build without assertions. *)
Theorem c72_vector :
  forall (C : Type) (v : vector C),
    (forall ops, same_in_release (run_ops v ops)) /\
    (forall e cap d a g s, same_in_release (@vinit_ex C e cap d a g s)) /\
    (forall e p cap d, same_in_release (@vinit_custom C e p cap d)) /\
    (forall cap a g s, same_in_release (vduplicate_ex v cap a g s)) /\
    (forall p cap, same_in_release (vduplicate_custom v p cap)) /\
    same_in_release (vdestroy v) /\
    (forall i, same_in_release (vget v i) /\ same_in_release (vget_pointer v i)) /\
    (forall p cmp i n, same_in_release (vfind_ex v p cmp i n)) /\
    (forall p cmp i n, same_in_release (vbinary_search_ex v p cmp i n)).
Proof. exact vector_release. Qed.
Print Assumptions c72_vector.
Theorem c72_string :
  forall s : str,
    (forall ops, same_in_release (run_sops s ops)) /\
    (forall cap a g t, same_in_release (sinit_ex cap a g t)) /\
    (forall p cap, same_in_release (sinit_custom p cap)) /\
    (forall cap a g t, same_in_release (sduplicate_ex s cap a g t)) /\
    (forall p cap, same_in_release (sduplicate_custom s p cap)) /\
    (forall q cap a g t, same_in_release (sconcat_ex s q cap a g t)) /\
    (forall q p cap, same_in_release (sconcat_custom s q p cap)) /\
    same_in_release (sdestroy s) /\
    (forall i, same_in_release (sget_char s i)) /\
    (forall eqc q i n, same_in_release (slpos_ex eqc s q i n) /\ same_in_release (srpos_ex eqc s q i n)) /\
    (forall eqc q, same_in_release (scompare eqc s q)) /\
    (forall p, same_in_release (view_inside_buffer s p)) /\
    same_in_release (view_get_size s) /\ same_in_release (sget_size s) /\ same_in_release (sget_capacity s).
Proof. exact string_release. Qed.
Print Assumptions c72_string.
Theorem c72_format :
  forall s : str,
    (forall is64 ops, same_in_release (run_fops is64 s ops)) /\
    (forall f1 f2, same_in_release (sappend_format f1 f2 s)).
Proof. exact format_release. Qed.
Print Assumptions c72_format.
Theorem c72_bitset :
  forall b : bitset,
    (forall ops, same_in_release (run_bitops b ops)) /\
    (forall n a g s, same_in_release (with_zero (fun z => bs_init_ex z n a g s))) /\
    (forall n p cap, same_in_release (with_zero (fun z => bs_init_buffer z n p cap))) /\
    same_in_release (bs_destroy b) /\
    (forall c, same_in_release (bs_and b c) /\ same_in_release (bs_or b c) /\ same_in_release (bs_xor b c)) /\
    (forall i, same_in_release (bs_test b i)) /\
    same_in_release (bs_count b) /\ same_in_release (bs_all b) /\ same_in_release (bs_any b) /\ same_in_release (bs_none b).
Proof. exact bitset_release. Qed.
Print Assumptions c72_bitset.
Theorem c72_list :
  forall l : zlist,
    (forall ops, same_in_release (run_lops l ops)) /\
    (forall e d a, same_in_release (linit_ex e d a)) /\
    (forall e d p cap, same_in_release (linit_custom e d p cap)) /\
    same_in_release (ldestroy l) /\
    (forall p, same_in_release (lget_prev_node p) /\ same_in_release (lget_next_node p)) /\
    (forall p q, same_in_release (lset_node_data l p q)).
Proof. exact list_release. Qed.
Print Assumptions c72_list.
(** The parser: the texts and the parsed arguments live in two memories, both of the release build. *)
Theorem c72_argparse :
  forall tw cfg a (w : world acell) r w',
    argparse_ex tw cfg a w = Ok r w' -> argparse_ex (release tw) cfg a (release w) = Ok r (release w').
Proof. exact argparse_release. Qed.
Print Assumptions c72_argparse.
(** A release build has undefined behaviour only where the other build has a failing assertion or undefined behaviour. *)
Theorem c72_no_new_faults :
  (forall (C : Type) (v : vector C) ops, no_new_faults (run_ops v ops)) /\
  (forall s ops, no_new_faults (run_sops s ops)) /\
  (forall is64 s ops, no_new_faults (run_fops is64 s ops)) /\
  (forall b ops, no_new_faults (run_bitops b ops)) /\
  (forall l ops, no_new_faults (run_lops l ops)).
Proof. exact histories_no_new_faults. Qed.
Print Assumptions c72_no_new_faults.
(** A debug run that ends normally: the hypothesis can be met. *)
Example c72_hypothesis_met :
  exists (w : world N) v rs v' w',
    checked w = true /\ run_ops v [OPushBack [5]; OInsert 0 [7]; OPopBack; OClear] w = Ok (rs, v') w' /\
    checked (release w) = false /\ checked w' = true.
Proof.
  eexists (mkworld (fun b => if b =? 0 then Some [1; 2; 3] else None) 1 (fun _ => AOk (fun _ => 0)) 0 []),
    (mkvec false 1 0 0 3 1 None (Some (mkptr 0 0))), _, _, _.
  split; [reflexivity|]. split; [vm_compute; reflexivity|]. now split.
Qed.
(** The other direction does not hold: an assertion may fail where the release build goes on. *)
Example c72_assertion_only :
  exists (w : world N) s, sget_size s w = Fault AssertFailed /\ exists r, sget_size s (release w) = Ok r (release w).
Proof.
  exists (mkworld (fun _ => None) 0 (fun _ => AFail 0) 0 []), (mkstr 0 (mkvec false 1 0 0 3 1 None None)).
  split; [reflexivity|]. eexists. reflexivity.
Qed.

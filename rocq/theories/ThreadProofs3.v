(** Every exported call of the library is made of single steps. *)
From Coq Require Import ZifyBool ZifyNat ZifyN.
From Verif Require Import Base Status VectorModel VectorDriver StringModel StringSpec StringDriver FormatModel FormatSpec
  FormatDriver BitsetModel BitsetSpec BitsetDriver ListModel ListSpec ListDriver ArgModel ProgSpec ThreadSpec ThreadProofs ThreadCode
  ThreadCode2 ThreadExamples Mem.

Lemma steps_of {C A} (m : M C A) : coded m -> in_steps m.
Proof. intros [c H T]. exists c. auto. Qed.
Lemma reads_of {C A} (m : M C A) : ro m -> only_reads m.
Proof. intros [c H R]. exists c. split; [|exact R]. apply amounts_eq, H. Qed.
Lemma vector_calls :
  (forall (C : Type) e cap (d : option (list C -> list C)), in_steps (vinit e cap d)) /\
  (forall (C : Type) e cap (d : option (list C -> list C)) a g s, in_steps (vinit_ex e cap d a g s)) /\
  (forall (C : Type) e b cap (d : option (list C -> list C)), in_steps (vinit_custom e b cap d)) /\
  (forall (C : Type) (v : vector C), in_steps (vdestroy v)) /\
  (forall (C : Type) (v : vector C) cap, in_steps (vduplicate v cap)) /\
  (forall (C : Type) (v : vector C) cap a g s, in_steps (vduplicate_ex v cap a g s)) /\
  (forall (C : Type) (v : vector C) b cap, in_steps (vduplicate_custom v b cap)) /\
  (forall (C : Type) (v : vector C) i p, in_steps (vset v i p)) /\
  (forall (C : Type) (v : vector C) p, in_steps (vpush_back v p)) /\
  (forall (C : Type) (v : vector C) i p, in_steps (vinsert v i p)) /\
  (forall (C : Type) (v : vector C) i p n, in_steps (vinsert_range v i p n)) /\
  (forall (C : Type) (v : vector C) f, in_steps (vemplace v f)) /\
  (forall (C : Type) (v : vector C) i f, in_steps (vemplace_ex v i f)) /\
  (forall (C : Type) (v : vector C) i j, in_steps (vswap v i j)) /\
  (forall (C : Type) (v : vector C) i, in_steps (vdelete v i)) /\
  (forall (C : Type) (v : vector C) i n, in_steps (vdelete_range v i n)) /\
  (forall (C : Type) (v : vector C), in_steps (vpop_back v)) /\
  (forall (C : Type) (v : vector C), in_steps (vclear v)) /\
  (forall (C : Type) (v : vector C) n, in_steps (vresize v n)) /\
  (forall (C : Type) (v : vector C) n p, in_steps (vresize_ex v n p)) /\
  (forall (C : Type) (v : vector C) n, in_steps (vreserve v n)) /\
  (forall (C : Type) (v : vector C), in_steps (vshrink_to_fit v)).
Proof. split; [intros; apply steps_of, coded_vinit|]. split; [intros; apply steps_of, coded_vinit_ex|]. split; [intros; apply steps_of, coded_vinit_custom|]. split; [intros; apply steps_of, coded_vdestroy|]. split; [intros; apply steps_of, coded_vduplicate|]. split; [intros; apply steps_of, coded_vduplicate_ex|]. split; [intros; apply steps_of, coded_vduplicate_custom|]. split; [intros; apply steps_of, coded_vset|]. split; [intros; apply steps_of, coded_vpush_back|]. split; [intros; apply steps_of, coded_vinsert|]. split; [intros; apply steps_of, coded_vinsert_range|]. split; [intros; apply steps_of, coded_vemplace|]. split; [intros; apply steps_of, coded_vemplace_ex|]. split; [intros; apply steps_of, coded_vswap|]. split; [intros; apply steps_of, coded_vdelete|]. split; [intros; apply steps_of, coded_vdelete_range|]. split; [intros; apply steps_of, coded_vpop_back|]. split; [intros; apply steps_of, coded_vclear|]. split; [intros; apply steps_of, coded_vresize|]. split; [intros; apply steps_of, coded_vresize_ex|]. split; [intros; apply steps_of, coded_vreserve|]. intros; apply steps_of, coded_vshrink_to_fit. Qed.
Lemma vector_queries :
  (forall (C : Type) (v : vector C) i, only_reads (vget v i)) /\
  (forall (C : Type) (v : vector C) i, only_reads (vget_pointer v i)) /\
  (forall (C : Type) (v : vector C) p cmp, only_reads (vfind v p cmp)) /\
  (forall (C : Type) (v : vector C) p cmp i n, only_reads (vfind_ex v p cmp i n)) /\
  (forall (C : Type) (v : vector C) p cmp, only_reads (vbinary_search v p cmp)) /\
  (forall (C : Type) (v : vector C) p cmp i n, only_reads (vbinary_search_ex v p cmp i n)).
Proof. split; [intros; apply reads_of, ro_vget|]. split; [intros; apply reads_of, ro_vget_pointer|]. split; [intros; apply reads_of, ro_vfind|]. split; [intros; apply reads_of, ro_vfind_ex|]. split; [intros; apply reads_of, ro_vbinary_search|]. intros; apply reads_of, ro_vbinary_search_ex. Qed.
Lemma string_calls :
  (forall cap, in_steps (sinit cap)) /\
  (forall cap a g s, in_steps (sinit_ex cap a g s)) /\
  (forall b cap, in_steps (sinit_custom b cap)) /\
  (forall s, in_steps (sdestroy s)) /\
  (forall x cap, in_steps (sduplicate x cap)) /\
  (forall x cap a g s, in_steps (sduplicate_ex x cap a g s)) /\
  (forall x b cap, in_steps (sduplicate_custom x b cap)) /\
  (forall x y cap, in_steps (sconcat x y cap)) /\
  (forall x y cap a g s, in_steps (sconcat_ex x y cap a g s)) /\
  (forall x y b cap, in_steps (sconcat_custom x y b cap)) /\
  (forall s i p, in_steps (sset_char s i p)) /\
  (forall s x, in_steps (sappend s x)) /\
  (forall s, in_steps (sappend_self s)) /\
  (forall s x i n, in_steps (sappend_ex s x i n)) /\
  (forall s i x, in_steps (sinsert s i x)) /\
  (forall s i x j n, in_steps (sinsert_ex s i x j n)) /\
  (forall s i n, in_steps (sdelete s i n)) /\
  (forall s i, in_steps (struncate s i)) /\
  (forall s, in_steps (sclear s)) /\
  (forall f s, in_steps (scase f s)) /\
  (forall f s i n, in_steps (scase_ex f s i n)) /\
  (forall s n, in_steps (sresize s n)) /\
  (forall s n, in_steps (sreserve s n)) /\
  (forall s, in_steps (sshrink_to_fit s)) /\
  (forall b s v p, in_steps (sappend_decu b s v p)) /\
  (forall b s v p u, in_steps (sappend_hexu b s v p u)) /\
  (forall b x y s v p f q, in_steps (sappend_decs b x y s v p f q)) /\
  (forall b x y s v p u f q, in_steps (sappend_hexs b x y s v p u f q)) /\
  (forall f g s, in_steps (sappend_format f g s)).
Proof. split; [intros; apply steps_of, coded_sinit|]. split; [intros; apply steps_of, coded_sinit_ex|]. split; [intros; apply steps_of, coded_sinit_custom|]. split; [intros; apply steps_of, coded_sdestroy|]. split; [intros; apply steps_of, coded_sduplicate|]. split; [intros; apply steps_of, coded_sduplicate_ex|]. split; [intros; apply steps_of, coded_sduplicate_custom|]. split; [intros; apply steps_of, coded_sconcat|]. split; [intros; apply steps_of, coded_sconcat_ex|]. split; [intros; apply steps_of, coded_sconcat_custom|]. split; [intros; apply steps_of, coded_sset_char|]. split; [intros; apply steps_of, coded_sappend|]. split; [intros; apply steps_of, coded_sappend_self|]. split; [intros; apply steps_of, coded_sappend_ex|]. split; [intros; apply steps_of, coded_sinsert|]. split; [intros; apply steps_of, coded_sinsert_ex|]. split; [intros; apply steps_of, coded_sdelete|]. split; [intros; apply steps_of, coded_struncate|]. split; [intros; apply steps_of, coded_sclear|]. split; [intros; apply steps_of, coded_scase|]. split; [intros; apply steps_of, coded_scase_ex|]. split; [intros; apply steps_of, coded_sresize|]. split; [intros; apply steps_of, coded_sreserve|]. split; [intros; apply steps_of, coded_sshrink_to_fit|]. split; [intros; apply steps_of, coded_sappend_decu|]. split; [intros; apply steps_of, coded_sappend_hexu|]. split; [intros; apply steps_of, coded_sappend_decs|]. split; [intros; apply steps_of, coded_sappend_hexs|]. intros; apply steps_of, coded_sappend_format. Qed.
Lemma string_queries :
  (forall v p, only_reads (view_inside_buffer v p)) /\
  (forall v, only_reads (view_get_size v)) /\
  (forall s i, only_reads (sget_char s i)) /\
  (forall s i, only_reads (sget_char_mutable s i)) /\
  (forall eqc h x, only_reads (slpos eqc h x)) /\
  (forall eqc h x i n, only_reads (slpos_ex eqc h x i n)) /\
  (forall eqc h x, only_reads (srpos eqc h x)) /\
  (forall eqc h x i n, only_reads (srpos_ex eqc h x i n)) /\
  (forall eqc x y, only_reads (scompare eqc x y)) /\
  (forall s, only_reads (sget_capacity s)) /\
  (forall s, only_reads (sget_size s)).
Proof. split; [intros; apply reads_of, ro_view_inside_buffer|]. split; [intros; apply reads_of, ro_view_get_size|]. split; [intros; apply reads_of, ro_sget_char|]. split; [intros; apply reads_of, ro_sget_char_mutable|]. split; [intros; apply reads_of, ro_slpos|]. split; [intros; apply reads_of, ro_slpos_ex|]. split; [intros; apply reads_of, ro_srpos|]. split; [intros; apply reads_of, ro_srpos_ex|]. split; [intros; apply reads_of, ro_scompare|]. split; [intros; apply reads_of, ro_sget_capacity|]. intros; apply reads_of, ro_sget_size. Qed.
Lemma bitset_calls :
  (forall z n, in_steps (bs_init z n)) /\
  (forall z n a g s, in_steps (bs_init_ex z n a g s)) /\
  (forall z n b cap, in_steps (bs_init_buffer z n b cap)) /\
  (forall b, in_steps (bs_destroy b)) /\
  (forall d s, in_steps (bs_and d s)) /\
  (forall d s, in_steps (bs_or d s)) /\
  (forall d s, in_steps (bs_xor d s)) /\
  (forall b, in_steps (bs_flip b)) /\
  (forall b i, in_steps (bs_set b i)) /\
  (forall b i, in_steps (bs_reset b i)) /\
  (forall b i, in_steps (bs_toggle b i)) /\
  (forall b i v, in_steps (bs_assign b i v)) /\
  (forall b, in_steps (bs_set_all b)) /\
  (forall b, in_steps (bs_reset_all b)) /\
  (forall z b v, in_steps (bs_push z b v)) /\
  (forall b, in_steps (bs_pop b)) /\
  (forall b, in_steps (bs_clear b)) /\
  (forall b n, in_steps (bs_reserve b n)) /\
  (forall b, in_steps (bs_shrink_to_fit b)).
Proof. split; [intros; apply steps_of, coded_bs_init|]. split; [intros; apply steps_of, coded_bs_init_ex|]. split; [intros; apply steps_of, coded_bs_init_buffer|]. split; [intros; apply steps_of, coded_bs_destroy|]. split; [intros; apply steps_of, coded_bs_and|]. split; [intros; apply steps_of, coded_bs_or|]. split; [intros; apply steps_of, coded_bs_xor|]. split; [intros; apply steps_of, coded_bs_flip|]. split; [intros; apply steps_of, coded_bs_set|]. split; [intros; apply steps_of, coded_bs_reset|]. split; [intros; apply steps_of, coded_bs_toggle|]. split; [intros; apply steps_of, coded_bs_assign|]. split; [intros; apply steps_of, coded_bs_set_all|]. split; [intros; apply steps_of, coded_bs_reset_all|]. split; [intros; apply steps_of, coded_bs_push|]. split; [intros; apply steps_of, coded_bs_pop|]. split; [intros; apply steps_of, coded_bs_clear|]. split; [intros; apply steps_of, coded_bs_reserve|]. intros; apply steps_of, coded_bs_shrink_to_fit. Qed.
Lemma bitset_queries :
  (forall b i, only_reads (bs_test b i)) /\
  (forall b, only_reads (bs_test_msb b)) /\
  (forall b, only_reads (bs_test_lsb b)) /\
  (forall b, only_reads (bs_count b)) /\
  (forall b, only_reads (bs_all b)) /\
  (forall b, only_reads (bs_any b)) /\
  (forall b, only_reads (bs_none b)).
Proof. split; [intros; apply reads_of, ro_bs_test|]. split; [intros; apply reads_of, ro_bs_test_msb|]. split; [intros; apply reads_of, ro_bs_test_lsb|]. split; [intros; apply reads_of, ro_bs_count|]. split; [intros; apply reads_of, ro_bs_all|]. split; [intros; apply reads_of, ro_bs_any|]. intros; apply reads_of, ro_bs_none. Qed.
Lemma list_calls :
  (forall e d, in_steps (linit e d)) /\
  (forall e d a, in_steps (linit_ex e d a)) /\
  (forall e d b cap, in_steps (linit_custom e d b cap)) /\
  (forall l, in_steps (ldestroy l)) /\
  (forall l n p, in_steps (lset_node_data l n p)) /\
  (forall l p, in_steps (lpush_back l p)) /\
  (forall l p, in_steps (lpush_front l p)) /\
  (forall l f, in_steps (lemplace_back l f)) /\
  (forall l f, in_steps (lemplace_front l f)) /\
  (forall l, in_steps (lpop_back l)) /\
  (forall l, in_steps (lpop_front l)) /\
  (forall l n, in_steps (lremove l n)) /\
  (forall l p q, in_steps (lremove_range l p q)) /\
  (forall l, in_steps (lclear l)) /\
  (forall l n, in_steps (lresize l n)) /\
  (forall l n p, in_steps (lresize_ex l n p)).
Proof. split; [intros; apply steps_of, coded_linit|]. split; [intros; apply steps_of, coded_linit_ex|]. split; [intros; apply steps_of, coded_linit_custom|]. split; [intros; apply steps_of, coded_ldestroy|]. split; [intros; apply steps_of, coded_lset_node_data|]. split; [intros; apply steps_of, coded_lpush_back|]. split; [intros; apply steps_of, coded_lpush_front|]. split; [intros; apply steps_of, coded_lemplace_back|]. split; [intros; apply steps_of, coded_lemplace_front|]. split; [intros; apply steps_of, coded_lpop_back|]. split; [intros; apply steps_of, coded_lpop_front|]. split; [intros; apply steps_of, coded_lremove|]. split; [intros; apply steps_of, coded_lremove_range|]. split; [intros; apply steps_of, coded_lclear|]. split; [intros; apply steps_of, coded_lresize|]. intros; apply steps_of, coded_lresize_ex. Qed.
Lemma list_queries :
  (forall n, only_reads (lget_prev_node n)) /\
  (forall n, only_reads (lget_next_node n)).
Proof. split; [intros; apply reads_of, ro_lget_prev_node|]. intros; apply reads_of, ro_lget_next_node. Qed.
Lemma arg_calls :
  (forall tw cfg, in_steps (argparse tw cfg)) /\
  (forall tw cfg a, in_steps (argparse_ex tw cfg a)).
Proof. split; [intros; apply steps_of, coded_argparse|]. intros; apply steps_of, coded_argparse_ex. Qed.
Lemma driver_calls :
  (forall (C : Type) (v : vector C) o, in_steps (run_op v o)) /\
  (forall (C : Type) (v : vector C) ops, in_steps (run_ops v ops)) /\
  (forall s o, in_steps (run_sop s o)) /\
  (forall s ops, in_steps (run_sops s ops)) /\
  (forall b s o, in_steps (run_fop b s o)) /\
  (forall b s ops, in_steps (run_fops b s ops)) /\
  (forall b o, in_steps (run_bitop b o)) /\
  (forall b ops, in_steps (run_bitops b ops)) /\
  (forall os p, in_steps (run_step os p)) /\
  (forall os ps, in_steps (run_prog os ps)) /\
  (forall l o, in_steps (run_lop l o)) /\
  (forall l ops, in_steps (run_lops l ops)).
Proof. split; [intros; apply steps_of, coded_run_op|]. split; [intros; apply steps_of, coded_run_ops|]. split; [intros; apply steps_of, coded_run_sop|]. split; [intros; apply steps_of, coded_run_sops|]. split; [intros; apply steps_of, coded_run_fop|]. split; [intros; apply steps_of, coded_run_fops|]. split; [intros; apply steps_of, coded_run_bitop|]. split; [intros; apply steps_of, coded_run_bitops|]. split; [intros; apply steps_of, coded_run_step|]. split; [intros; apply steps_of, coded_run_prog|]. split; [intros; apply steps_of, coded_run_lop|]. intros; apply steps_of, coded_run_lops. Qed.

Definition shared_coded (t : N) : coded (reader_and_destroyer t).
Proof. unfold reader_and_destroyer. code. Defined.
Lemma shared_object :
  exists (ms : N -> M N (option (list N))) (cs : N -> code N (option (list N))) (w : world N),
    (forall t, amounts_to (cs t) (ms t) /\ tidy (cs t)) /\
    (forall t, exists r w', ms t w = Ok r w') /\
    (exists schedule m, play schedule (start (heap w) cs (fun _ => w)) = Some m /\
       todo (threads m 0) = Done (Some [7; 8]) /\ todo (threads m 1) = Done None) /\
    (exists schedule, play schedule (start (heap w) cs (fun _ => w)) = None).
Proof.
  exists reader_and_destroyer, (fun t => tree (shared_coded t)), shared_world.
  split; [intros t; split; [apply tree_ok|apply tree_tidy]|]. split.
  - intros t.
    assert (H : match reader_and_destroyer t shared_world with Ok _ _ => True | Fault _ => False end).
    { unfold reader_and_destroyer. destruct (t =? 0); vm_compute; exact I. }
    destruct (reader_and_destroyer t shared_world); [eauto|contradiction].
  - split; [|exists (repeat 1 9 ++ repeat 0 9); vm_compute; reflexivity].
    exists (repeat 0 9 ++ repeat 1 9).
    assert (H : option_map (fun m => (todo (threads m 0), todo (threads m 1)))
                  (play (repeat 0 9 ++ repeat 1 9) (start (heap shared_world) (fun t => tree (shared_coded t)) (fun _ => shared_world)))
                = Some (Done (Some [7; 8]), Done None)) by (vm_compute; reflexivity).
    destruct (play _ _) as [m|]; [|discriminate]. injection H as H0 H1. exists m. auto.
Qed.

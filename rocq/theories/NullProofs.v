(** Proofs about calls with NULL arguments. *)
From Verif Require Import Base Status Mem VectorModel StringModel FormatModel BitsetModel ListModel NullModel NullSpec.

Ltac err := eexists; split; [|reflexivity]; reflexivity.
Lemma vector_null (C : Type) :
  (forall e cap d al g s, refused (@n_vinit_ex C None e cap d al g s) None) /\
  (forall e cap d, refused (@n_vinit C None e cap d) None) /\
  (forall e p cap d, refused (@n_vinit_custom C None e p cap d) None) /\
  (forall v e cap d, refused (@n_vinit_custom C v e None cap d) v) /\
  (forall v e cap d g s, refused (@n_vinit_ex C v e cap d false g s) v) /\
  refused (@n_vdestroy C None) None /\
  (forall d cap al g s, refused (@n_vduplicate_ex C d None cap al g s) d) /\
  (forall s cap al g t, refused (@n_vduplicate_ex C None s cap al g t) None) /\
  (forall d s cap g t, refused (@n_vduplicate_ex C d s cap false g t) d) /\
  (forall d cap, refused (@n_vduplicate C d None cap) d) /\
  (forall s cap, refused (@n_vduplicate C None s cap) None) /\
  (forall d p cap, refused (@n_vduplicate_custom C d None p cap) d) /\
  (forall s p cap, an_error (@n_vduplicate_custom C None s p cap) None) /\
  (forall d s cap, an_error (@n_vduplicate_custom C d s None cap) d) /\
  (forall i w, @n_vget C None i w = Ok (NPtr None, None, NoOut) w) /\
  (forall i out, refused (@n_vget_pointer C None i out) None) /\
  (forall v i, refused (@n_vget_pointer C v i false) v) /\
  (forall i p, refused (@n_vset C None i p) None) /\
  (forall v i, refused (@n_vset C v i None) v) /\
  (forall p, refused (@n_vpush_back C None p) None) /\
  (forall v, refused (@n_vpush_back C v None) v) /\
  (forall i p, refused (@n_vinsert C None i p) None) /\
  (forall v i, refused (@n_vinsert C v i None) v) /\
  (forall i p n, refused (@n_vinsert_range C None i p n) None) /\
  (forall v i n, refused (@n_vinsert_range C v i None n) v) /\
  (forall out f, refused (@n_vemplace C None out f) None) /\
  (forall i out f, refused (@n_vemplace_ex C None i out f) None) /\
  (forall i j, refused (@n_vswap C None i j) None) /\
  (forall i, refused (@n_vdelete C None i) None) /\
  (forall i n, refused (@n_vdelete_range C None i n) None) /\
  refused (@n_vpop_back C None) None /\
  refused (@n_vclear C None) None /\
  (forall p out cmp, refused (@n_vfind C None p out cmp) None) /\
  (forall p out cmp i n, refused (@n_vfind_ex C None p out cmp i n) None) /\
  (forall p out cmp, refused (@n_vbinary_search C None p out cmp) None) /\
  (forall p out cmp i n, refused (@n_vbinary_search_ex C None p out cmp i n) None) /\
  (forall n, refused (@n_vresize C None n) None) /\
  (forall n p, refused (@n_vresize_ex C None n p) None) /\
  (forall n, refused (@n_vreserve C None n) None) /\
  refused (@n_vshrink_to_fit C None) None /\
  (forall out, refused (@n_vget_capacity C None out) None) /\
  (forall out, refused (@n_vget_size C None out) None).
Proof.
  repeat match goal with |- _ /\ _ => split end; repeat intro; try reflexivity;
    repeat match goal with v : option (vector C) |- _ => destruct v end; try reflexivity.
  { unfold n_vinit_custom, checked_object, creates, vinit_custom. cbn [nonnull negb]. rewrite orb_true_r. reflexivity. }
  { unfold n_vinit_ex, checked_object, creates, vinit_ex. cbn [negb]. rewrite orb_true_r. reflexivity. }
  { unfold n_vduplicate_ex, checked_object, creates, vduplicate_ex, vinit_ex. cbn [negb]. rewrite orb_true_r. reflexivity. }
  all: unfold n_vduplicate_custom, checked_object, creates, vduplicate_custom, vinit_custom; cbn [nonnull negb];
    rewrite ?orb_true_r; try (destruct (cap <? v_size v)); err.
Qed.

Lemma sinit_ex_false cap g t w : sinit_ex cap false g t w = Ok (ST_INVALID_ARGUMENT, None) w.
Proof. reflexivity. Qed.
Lemma sinit_custom_null cap w : sinit_custom None cap w = Ok (ST_INVALID_ARGUMENT, None) w.
Proof. unfold sinit_custom. destruct (cap =? 0); reflexivity. Qed.
Lemma string_null (eqc : byte -> byte -> bool) (step : byte -> option byte) :
  (forall cap al g t, refused (n_sinit_ex None cap al g t) None) /\
  (forall s cap g t, refused (n_sinit_ex s cap false g t) s) /\
  (forall cap, refused (n_sinit None cap) None) /\
  (forall p cap, refused (n_sinit_custom None p cap) None) /\
  (forall s cap, refused (n_sinit_custom s None cap) s) /\
  refused (n_sdestroy None) None /\
  (forall d cap al g t, refused (n_sduplicate_ex d None cap al g t) d) /\
  (forall s cap al g t, refused (n_sduplicate_ex None s cap al g t) None) /\
  (forall d s cap g t, refused (n_sduplicate_ex d s cap false g t) d) /\
  (forall d cap, refused (n_sduplicate d None cap) d) /\
  (forall s cap, refused (n_sduplicate None s cap) None) /\
  (forall d p cap, refused (n_sduplicate_custom d None p cap) d) /\
  (forall s p cap, an_error (n_sduplicate_custom None s p cap) None) /\
  (forall d s cap, an_error (n_sduplicate_custom d s None cap) d) /\
  (forall d s2 cap al g t, refused (n_sconcat_ex d None s2 cap al g t) d) /\
  (forall d s1 cap al g t, refused (n_sconcat_ex d s1 None cap al g t) d) /\
  (forall s1 s2 cap al g t, refused (n_sconcat_ex None s1 s2 cap al g t) None) /\
  (forall d s1 s2 cap g t, refused (n_sconcat_ex d s1 s2 cap false g t) d) /\
  (forall d s2 cap, refused (n_sconcat d None s2 cap) d) /\
  (forall d s1 cap, refused (n_sconcat d s1 None cap) d) /\
  (forall s1 s2 cap, refused (n_sconcat None s1 s2 cap) None) /\
  (forall d s2 p cap, refused (n_sconcat_custom d None s2 p cap) d) /\
  (forall d s1 p cap, refused (n_sconcat_custom d s1 None p cap) d) /\
  (forall s1 s2 p cap, an_error (n_sconcat_custom None s1 s2 p cap) None) /\
  (forall d s1 s2 cap, an_error (n_sconcat_custom d s1 s2 None cap) d) /\
  (forall s, refused (n_view_inside_view None s) None) /\
  (forall v, refused (n_view_inside_view v None) v) /\
  (forall s i n, refused (n_view_inside_view_ex None s i n) None) /\
  (forall v i n, refused (n_view_inside_view_ex v None i n) v) /\
  (forall p, refused (n_view_inside_buffer None p) None) /\
  (forall v, refused (n_view_inside_buffer v None) v) /\
  (forall p n, refused (n_view_inside_buffer_ex None p n) None) /\
  (forall v n, refused (n_view_inside_buffer_ex v None n) v) /\
  (forall out, refused (n_view_get_size None out) None) /\
  (forall v, refused (n_view_get_size v false) v) /\
  (forall out, refused (n_view_get_data None out) None) /\
  (forall v, refused (n_view_get_data v false) v) /\
  (forall i out, refused (n_sget_char None i out) None) /\
  (forall s i, refused (n_sget_char s i false) s) /\
  (forall i out, refused (n_sget_char_mutable None i out) None) /\
  (forall s i, an_error (n_sget_char_mutable s i false) s) /\
  (forall i p, refused (n_sset_char None i p) None) /\
  (forall i s, refused (n_sinsert None i s) None) /\
  (forall d i, refused (n_sinsert d i None) d) /\
  (forall i s j n, refused (n_sinsert_ex None i s j n) None) /\
  (forall d i j n, refused (n_sinsert_ex d i None j n) d) /\
  (forall s, refused (n_sappend None s) None) /\
  (forall d, refused (n_sappend d None) d) /\
  (forall s j n, refused (n_sappend_ex None s j n) None) /\
  (forall d j n, refused (n_sappend_ex d None j n) d) /\
  (forall i n, refused (n_sdelete None i n) None) /\
  (forall i, refused (n_struncate None i) None) /\
  refused (n_sclear None) None /\
  (forall n out, refused (n_slpos eqc None n out) None) /\
  (forall h out, refused (n_slpos eqc h None out) h) /\
  (forall h n, refused (n_slpos eqc h n false) h) /\
  (forall n out i k, refused (n_slpos_ex eqc None n out i k) None) /\
  (forall h out i k, refused (n_slpos_ex eqc h None out i k) h) /\
  (forall h n i k, refused (n_slpos_ex eqc h n false i k) h) /\
  (forall n out, refused (n_srpos eqc None n out) None) /\
  (forall h out, refused (n_srpos eqc h None out) h) /\
  (forall h n, refused (n_srpos eqc h n false) h) /\
  (forall n out i k, refused (n_srpos_ex eqc None n out i k) None) /\
  (forall h out i k, refused (n_srpos_ex eqc h None out i k) h) /\
  (forall h n i k, refused (n_srpos_ex eqc h n false i k) h) /\
  (forall s2 out, refused (n_scompare eqc None s2 out) None) /\
  (forall s1 out, refused (n_scompare eqc s1 None out) s1) /\
  refused (n_scase step None) None /\
  (forall i n, refused (n_scase_ex step None i n) None) /\
  (forall n, refused (n_sresize None n) None) /\
  (forall n, refused (n_sreserve None n) None) /\
  refused (n_sshrink_to_fit None) None /\
  (forall out, refused (n_sget_capacity None out) None) /\
  (forall out, refused (n_sget_size None out) None) /\
  (forall out, refused (n_sget_data None out) None).
Proof.
  repeat match goal with |- _ /\ _ => split end; repeat intro; try reflexivity;
    repeat match goal with v : option str |- _ => destruct v end; try reflexivity;
    unfold n_sinit_ex, n_sinit_custom, n_sduplicate, n_sduplicate_ex, n_sduplicate_custom, n_sconcat, n_sconcat_ex, n_sconcat_custom,
      n_sget_char_mutable, checked_object, creates, sduplicate_ex, sduplicate_custom, sconcat_ex, sconcat_custom;
    unfold bind; rewrite ?sinit_ex_false, ?sinit_custom_null; cbn [negb]; try reflexivity;
    repeat match goal with
      | |- context [if ?b then _ else _] => destruct b; unfold bind; rewrite ?sinit_ex_false, ?sinit_custom_null
      end; try reflexivity; try err.
Qed.
Lemma format_null :
  (forall is64 value pad, refused (n_sappend_decu is64 None value pad) None) /\
  (forall is64 value pad up, refused (n_sappend_hexu is64 None value pad up) None) /\
  (forall is64 sub add value pad force prefix, refused (n_sappend_decs is64 sub add None value pad force prefix) None) /\
  (forall is64 sub add value pad up force prefix, refused (n_sappend_hexs is64 sub add None value pad up force prefix) None) /\
  (forall fmt f1 f2, refused (n_sappend_format fmt f1 f2 None) None) /\
  (forall f1 f2 s, refused (n_sappend_format false f1 f2 s) s).
Proof.
  repeat match goal with |- _ /\ _ => split end; repeat intro; try reflexivity.
  1, 2: unfold n_sappend_decs, n_sappend_hexs, n_sappend_signed; destruct (value <? 0)%Z, force, prefix; reflexivity.
  destruct s; reflexivity.
Qed.
Lemma bitset_null :
  (forall z n al g s, refused (n_bs_init_ex z None n al g s) None) /\
  (forall z b n g s, refused (n_bs_init_ex z b n false g s) b) /\
  (forall z n, refused (n_bs_init z None n) None) /\
  (forall z n p cap, refused (n_bs_init_buffer z None n p cap) None) /\
  (forall z b n cap, an_error (n_bs_init_buffer z b n None cap) b) /\
  refused (n_bs_destroy None) None /\
  (forall op s, refused (n_bs_byte_op op None s) None) /\
  (forall op d, refused (n_bs_byte_op op d None) d) /\
  (forall d s, refused (n_bs_byte_op None d s) d) /\
  (forall s, refused (n_bs_and None s) None /\ refused (n_bs_or None s) None /\ refused (n_bs_xor None s) None) /\
  (forall d, refused (n_bs_and d None) d /\ refused (n_bs_or d None) d /\ refused (n_bs_xor d None) d) /\
  refused (n_bs_flip None) None /\
  (forall i, refused (n_bs_set None i) None) /\
  (forall i, refused (n_bs_reset None i) None) /\
  (forall i x, refused (n_bs_assign None i x) None) /\
  (forall i, refused (n_bs_toggle None i) None) /\
  (forall i, refused (n_bs_test None i) None) /\
  refused (n_bs_test_msb None) None /\
  refused (n_bs_test_lsb None) None /\
  refused (n_bs_set_all None) None /\
  refused (n_bs_reset_all None) None /\
  (forall z x, refused (n_bs_push z None x) None) /\
  refused (n_bs_pop None) None /\
  refused (n_bs_clear None) None /\
  (forall out, refused (n_bs_get_size None out) None) /\
  (forall out, refused (n_bs_get_size_bytes None out) None) /\
  (forall out, refused (n_bs_get_capacity None out) None) /\
  (forall out, refused (n_bs_get_capacity_bytes None out) None) /\
  (forall out, refused (n_bs_count None out) None) /\
  (forall b, refused (n_bs_count b false) b) /\
  refused (n_bs_all None) None /\
  refused (n_bs_any None) None /\
  refused (n_bs_none None) None.
Proof.
  repeat match goal with |- _ /\ _ => split end; repeat intro; try reflexivity;
    repeat match goal with v : option bitset |- _ => destruct v end; try reflexivity.
  all: try (eexists; split; [|reflexivity]; reflexivity).
  all: unfold n_bs_init_buffer, checked_object, creates, bs_init_buffer; unfold bind.
  all: try match goal with |- context [?x <? ?y] => destruct (x <? y) end; try reflexivity; try err.
  all: try (destruct x; reflexivity).
  all: repeat split.
Qed.
Lemma list_null :
  (forall e d al, refused (n_linit_ex None e d al) None) /\
  (forall l e d, refused (n_linit_ex l e d false) l) /\
  (forall e d, refused (n_linit None e d) None) /\
  (forall e d p cap, refused (n_linit_custom None e d p cap) None) /\
  (forall l e d cap, refused (n_linit_custom l e d None cap) l) /\
  refused (n_ldestroy None) None /\
  (forall out, refused (n_lget_head None out) None) /\
  (forall out, refused (n_lget_tail None out) None) /\
  (forall w, n_lget_prev_node None w = Ok (NStatus ST_INVALID_ARGUMENT, NoOut) w) /\
  (forall w, n_lget_prev_node (Some None) w = Ok (NStatus ST_INVALID_ARGUMENT, OutPtr None) w) /\
  (forall w, n_lget_next_node None w = Ok (NStatus ST_INVALID_ARGUMENT, NoOut) w) /\
  (forall w, n_lget_next_node (Some None) w = Ok (NStatus ST_INVALID_ARGUMENT, OutPtr None) w) /\
  (forall out w, n_lget_node_data_ex None out w = Ok (NStatus ST_INVALID_ARGUMENT, NoOut) w) /\
  (forall node p, refused (n_lset_node_data None node p) None) /\
  (forall l p, refused (n_lset_node_data l None p) l) /\
  (forall l node, refused (n_lset_node_data l node None) l) /\
  (forall p, refused (n_lpush_back None p) None) /\
  (forall l, refused (n_lpush_back l None) l) /\
  (forall p, refused (n_lpush_front None p) None) /\
  (forall l, refused (n_lpush_front l None) l) /\
  (forall out f, refused (n_lemplace_back None out f) None) /\
  (forall l f, refused (n_lemplace_back l false f) l) /\
  (forall out f, refused (n_lemplace_front None out f) None) /\
  (forall l f, refused (n_lemplace_front l false f) l) /\
  refused (n_lpop_back None) None /\
  refused (n_lpop_front None) None /\
  refused (n_lclear None) None /\
  (forall n, refused (n_lresize None n) None) /\
  (forall n p, refused (n_lresize_ex None n p) None) /\
  (forall out, refused (n_lget_size None out) None).
Proof.
  repeat match goal with |- _ /\ _ => split end; repeat intro; try reflexivity;
    repeat match goal with v : option zlist |- _ => destruct v end; try reflexivity.
  all: unfold n_linit_ex, n_linit_custom, n_lset_node_data, checked_object, creates, answers, linit_ex, linit_custom, lset_node_data;
    cbn [nonnull negb]; rewrite ?orb_true_r; try reflexivity.
Qed.

(** Pointers that are not checked. *)
Lemma vector_unchecked {C} (v : vector C) :
  crashes (n_vget_capacity (Some v) false) /\ crashes (n_vget_size (Some v) false) /\
  (forall i f, no_success (n_vemplace_ex (Some v) i false f)) /\
  (forall f, no_success (n_vemplace (Some v) false f)) /\
  (forall p cmp i n, no_success (n_vfind_ex (Some v) p false cmp i n)) /\
  (forall p cmp, no_success (n_vfind (Some v) p false cmp)) /\
  (forall p cmp i n, no_success (n_vbinary_search_ex (Some v) p false cmp i n)) /\
  (forall p cmp, no_success (n_vbinary_search (Some v) p false cmp)).
Proof.
  assert (E : forall i f, no_success (n_vemplace_ex (Some v) i false f)).
  { intros i f w st o x w' H. unfold n_vemplace_ex, checked_object, bind in H.
    destruct (vemplace_ex v i None w) as [[[st1 v1] p1] w1|]; [|discriminate].
    destruct (st_success st1) eqn:E; [discriminate|]. injection H as <- <- <- <-. exact E. }
  assert (F : forall p cmp i n, no_success (n_vfind_ex (Some v) p false cmp i n)).
  { intros p cmp i n w st o x w' H. unfold n_vfind_ex, checked_object in H.
    destruct ((v_size v <? wadd i n) || (i =? v_size v)). { injection H as <- <- <- <-. reflexivity. }
    destruct (n =? 0); [discriminate|]. destruct cmp as [cmp|]; [|discriminate]. unfold bind in H.
    destruct (vfind_ex v p cmp i n w) as [[st1 x1] w1|]; discriminate. }
  assert (B : forall p cmp i n, no_success (n_vbinary_search_ex (Some v) p false cmp i n)).
  { intros p cmp i n w st o x w' H. unfold n_vbinary_search_ex, checked_object in H.
    destruct (((v_size v <=? i) && (0 <? n)) || (v_size v <? wadd i n)). { injection H as <- <- <- <-. reflexivity. }
    destruct (n =? 0); [discriminate|]. destruct cmp as [cmp|]; [|discriminate]. unfold bind in H.
    destruct (vbinary_search_ex v p cmp i n w) as [[st1 x1] w1|]; discriminate. }
  repeat match goal with |- _ /\ _ => split end; try assumption.
  - intro w. exists NullDeref. reflexivity.
  - intro w. exists NullDeref. reflexivity.
  - intros f. exact (E (v_size v) f).
  - intros p cmp. exact (F p cmp 0 (v_size v)).
  - intros p cmp. exact (B p cmp 0 (v_size v)).
Qed.
(** A missing comparison function is found out when the first element is compared. *)
Lemma vector_no_comparison {C} (v : vector C) p found i n :
  0 < n -> i + n <= v_size v -> v_size v < W64 ->
  crashes (n_vfind_ex (Some v) p found None i n) /\ crashes (n_vbinary_search_ex (Some v) p found None i n).
Proof.
  intros Hn Hi Hv. unfold n_vfind_ex, n_vbinary_search_ex, checked_object.
  assert (Hw : wadd i n = i + n) by (unfold wadd; rewrite N.mod_small; lia).
  rewrite Hw. replace (v_size v <? i + n) with false by (symmetry; apply N.ltb_ge; lia).
  replace (i =? v_size v) with false by (symmetry; apply N.eqb_neq; lia).
  replace (v_size v <=? i) with false by (symmetry; apply N.leb_gt; lia).
  replace (n =? 0) with false by (symmetry; apply N.eqb_neq; lia).
  cbn [orb andb]. split; intro w; exists NullDeref; reflexivity.
Qed.
Lemma bind_crash {C A B} (m : Mem.M C A) (k : A -> Mem.M C B) : (forall a, crashes (k a)) -> crashes (bind m k).
Proof. intros H w. unfold bind. destruct (m w) as [a w1|f]; [apply H|exists f; reflexivity]. Qed.
Lemma stores_crash {C O} (o : O) st x : crashes (C := C) (stores false o st x).
Proof. intro w. exists NullDeref. reflexivity. Qed.
Lemma string_unchecked (s : str) :
  crashes (n_sget_capacity (Some s) false) /\ crashes (n_sget_size (Some s) false) /\ crashes (n_sget_data (Some s) false) /\
  (forall eqc t, crashes (n_scompare eqc (Some s) (Some t) false)).
Proof.
  unfold n_sget_capacity, n_sget_size, n_sget_data, n_scompare, checked_object.
  split; [|split; [|split]].
  - apply bind_crash. intros []. apply stores_crash.
  - apply bind_crash. intros []. apply stores_crash.
  - apply stores_crash.
  - intros eqc t. apply bind_crash. intros []. apply stores_crash.
Qed.
Lemma bitset_unchecked (b : bitset) :
  crashes (n_bs_get_size (Some b) false) /\ crashes (n_bs_get_size_bytes (Some b) false) /\
  crashes (n_bs_get_capacity (Some b) false) /\ crashes (n_bs_get_capacity_bytes (Some b) false) /\
  (forall n, crashes (n_bs_reserve None n)) /\ crashes (n_bs_shrink_to_fit None).
Proof. repeat split; repeat intro; exists NullDeref; reflexivity. Qed.
Lemma list_unchecked (l : zlist) :
  crashes (n_lget_head (Some l) false) /\ crashes (n_lget_tail (Some l) false) /\ crashes (n_lget_size (Some l) false) /\
  (forall p, crashes (n_lget_node_data_ex (Some p) false)) /\
  (forall w, n_lremove None None w = Ok (NStatus ST_SUCCESS, None, NoOut) w) /\
  (forall w, n_lremove_range None None None w = Ok (NStatus ST_SUCCESS, None, NoOut) w).
Proof. repeat split; repeat intro; try (exists NullDeref; reflexivity). Qed.

Lemma vector_given {C} (v : vector C) :
  (forall (s : vector C) e cap d al g t, same (n_vinit_ex (Some s) e cap d al g t) (creates (Some s) (vinit_ex e cap d al g t))) /\
  (forall (s : vector C) p cap e d, same (n_vinit_custom (Some s) e p cap d) (creates (Some s) (vinit_custom e p cap d))) /\
  (forall d cap al g t, same (n_vduplicate_ex (Some d) (Some v) cap al g t) (creates (Some d) (vduplicate_ex v cap al g t))) /\
  (forall d p cap, same (n_vduplicate_custom (Some d) (Some v) p cap) (creates (Some d) (vduplicate_custom v p cap))) /\
  same (n_vdestroy (Some v)) (updates (vdestroy v)) /\
  (forall i p, same (n_vset (Some v) i p) (updates (vset v i p))) /\
  (forall p, same (n_vpush_back (Some v) p) (updates (vpush_back v p))) /\
  (forall i p, same (n_vinsert (Some v) i p) (updates (vinsert v i p))) /\
  (forall i p n, same (n_vinsert_range (Some v) i p n) (updates (vinsert_range v i p n))) /\
  (forall i f, same (n_vemplace_ex (Some v) i true f)
                    (let* (st, v, p) := vemplace_ex v i f in ret (NStatus st, Some v, OutPtr p))) /\
  (forall f, same (n_vemplace (Some v) true f) (let* (st, v, p) := vemplace v f in ret (NStatus st, Some v, OutPtr p))) /\
  (forall i j, same (n_vswap (Some v) i j) (updates (vswap v i j))) /\
  (forall i, same (n_vdelete (Some v) i) (updates (vdelete v i))) /\
  (forall i n, same (n_vdelete_range (Some v) i n) (updates (vdelete_range v i n))) /\
  same (n_vpop_back (Some v)) (updates (vpop_back v)) /\
  same (n_vclear (Some v)) (updates (vclear v)) /\
  (forall n, same (n_vresize (Some v) n) (updates (vresize v n))) /\
  (forall n p, same (n_vresize_ex (Some v) n p) (updates (vresize_ex v n p))) /\
  (forall n, same (n_vreserve (Some v) n) (updates (vreserve v n))) /\
  same (n_vshrink_to_fit (Some v)) (updates (vshrink_to_fit v)).
Proof.
  repeat match goal with |- _ /\ _ => split end; repeat intro; try reflexivity.
  unfold n_vduplicate_custom, checked_object, creates, vduplicate_custom. destruct (cap <? v_size v); reflexivity.
Qed.
Lemma updates_eval {C O} (m : Mem.M C (status * O)) w :
  updates m w = match m w with Ok (st, o) w => Ok (NStatus st, Some o, NoOut) w | Fault f => Fault f end.
Proof. unfold updates, bind. destruct (m w) as [[? ?] ?|]; reflexivity. Qed.
Lemma signed_given sub add s z force prefix digits ndigits :
  (forall s x, same (ndigits (Some s) x) (updates (digits s x))) ->
  same (n_sappend_signed sub add (Some s) z force prefix ndigits) (updates (sappend_signed sub add s z force prefix digits)).
Proof.
  intros D w. unfold n_sappend_signed, sappend_signed.
  set (sg := if (z <? 0)%Z then Some sub else if force then Some add else None).
  assert (P : forall s (q : option view) w,
    match q with Some q => n_sappend (Some s) (Some q) | None => ret (NStatus ST_SUCCESS, Some s, NoOut) end w =
    match match q with Some q => sappend s q | None => ret (ST_SUCCESS, s) end w with
    | Ok (st, s) w => Ok (NStatus st, Some s, NoOut) w
    | Fault f => Fault f
    end).
  { intros s' [q|] w'; [|reflexivity]. unfold n_sappend, checked_object, updates, bind.
    destruct (sappend s' q w') as [[? ?] ?|]; reflexivity. }
  rewrite updates_eval. unfold bind. rewrite P.
  destruct (match sg with Some q => sappend s q | None => ret (ST_SUCCESS, s) end w) as [[st1 s1] w1|]; [|reflexivity].
  destruct (negb (st_success st1)); [reflexivity|]. rewrite P.
  destruct (match prefix with Some q => sappend s1 q | None => ret (ST_SUCCESS, s1) end w1) as [[st2 s2] w2|]; [|reflexivity].
  destruct (negb (st_success st2)); [reflexivity|]. rewrite D, updates_eval. reflexivity.
Qed.
Lemma string_given (s : str) :
  (forall o cap al g t, same (n_sinit_ex (Some o) cap al g t) (creates (Some o) (sinit_ex cap al g t))) /\
  (forall o p cap, same (n_sinit_custom (Some o) p cap) (creates (Some o) (sinit_custom p cap))) /\
  (forall o cap al g t, same (n_sduplicate_ex (Some o) (Some s) cap al g t) (creates (Some o) (sduplicate_ex s cap al g t))) /\
  (forall o p cap, same (n_sduplicate_custom (Some o) (Some s) p cap) (creates (Some o) (sduplicate_custom s p cap))) /\
  (forall o r cap al g t, same (n_sconcat_ex (Some o) (Some s) (Some r) cap al g t) (creates (Some o) (sconcat_ex s r cap al g t))) /\
  (forall o r p cap, same (n_sconcat_custom (Some o) (Some s) (Some r) p cap) (creates (Some o) (sconcat_custom s r p cap))) /\
  same (n_sdestroy (Some s)) (updates (sdestroy s)) /\
  (forall i p, same (n_sset_char (Some s) i p) (updates (sset_char s i p))) /\
  (forall i q, same (n_sinsert (Some s) i (Some q)) (updates (sinsert s i q))) /\
  (forall i q j n, same (n_sinsert_ex (Some s) i (Some q) j n) (updates (sinsert_ex s i q j n))) /\
  (forall q, same (n_sappend (Some s) (Some q)) (updates (sappend s q))) /\
  (forall q j n, same (n_sappend_ex (Some s) (Some q) j n) (updates (sappend_ex s q j n))) /\
  (forall i n, same (n_sdelete (Some s) i n) (updates (sdelete s i n))) /\
  (forall i, same (n_struncate (Some s) i) (updates (struncate s i))) /\
  same (n_sclear (Some s)) (updates (sclear s)) /\
  (forall step, same (n_scase step (Some s)) (updates (scase step s))) /\
  (forall step i n, same (n_scase_ex step (Some s) i n) (updates (scase_ex step s i n))) /\
  (forall n, same (n_sresize (Some s) n) (updates (sresize s n))) /\
  (forall n, same (n_sreserve (Some s) n) (updates (sreserve s n))) /\
  same (n_sshrink_to_fit (Some s)) (updates (sshrink_to_fit s)) /\
  (forall is64 x pad, same (n_sappend_decu is64 (Some s) x pad) (updates (sappend_decu is64 s x pad))) /\
  (forall is64 x pad up, same (n_sappend_hexu is64 (Some s) x pad up) (updates (sappend_hexu is64 s x pad up))) /\
  (forall is64 sub add z pad force prefix, same (n_sappend_decs is64 sub add (Some s) z pad force prefix)
                                                (updates (sappend_decs is64 sub add s z pad force prefix))) /\
  (forall is64 sub add z pad up force prefix, same (n_sappend_hexs is64 sub add (Some s) z pad up force prefix)
                                                (updates (sappend_hexs is64 sub add s z pad up force prefix))) /\
  (forall f1 f2, same (n_sappend_format true f1 f2 (Some s)) (updates (sappend_format f1 f2 s))).
Proof.
  repeat match goal with |- _ /\ _ => split end; repeat intro; try reflexivity;
    unfold n_sduplicate_ex, n_sduplicate_custom, n_sconcat_ex, n_sconcat_custom, checked_object, creates, sduplicate_ex,
      sduplicate_custom, sconcat_ex, sconcat_custom;
    repeat match goal with |- context [if ?b then _ else _] => lazymatch b with negb _ => fail | _ => destruct b end end;
    try reflexivity.
  - apply signed_given. intros; intro; reflexivity.
  - apply signed_given. intros; intro; reflexivity.
Qed.

Lemma queries_given {C} (v : vector C) :
  (forall i w, n_vget (Some v) i w = (let* p := vget v i in ret (NPtr p, Some v, NoOut)) w) /\
  (forall i w, n_vget_pointer (Some v) i true w =
    (let* (st, p) := vget_pointer v i in ret (NStatus st, Some v, if st_success st then OutPtr p else NoOut)) w) /\
  (forall p cmp i n w, n_vfind_ex (Some v) p true (Some cmp) i n w =
    (let* (st, x) := vfind_ex v p cmp i n in ret (NStatus st, Some v, if st_success st then OutIndex x else NoOut)) w) /\
  (forall p cmp w, n_vfind (Some v) p true (Some cmp) w =
    (let* (st, x) := vfind v p cmp in ret (NStatus st, Some v, if st_success st then OutIndex x else NoOut)) w) /\
  (forall p cmp i n w, n_vbinary_search_ex (Some v) p true (Some cmp) i n w =
    (let* (st, x) := vbinary_search_ex v p cmp i n in
     ret (NStatus st, Some v, match x with Some _ => OutIndex x | None => NoOut end)) w) /\
  (forall p cmp w, n_vbinary_search (Some v) p true (Some cmp) w =
    (let* (st, x) := vbinary_search v p cmp in
     ret (NStatus st, Some v, match x with Some _ => OutIndex x | None => NoOut end)) w) /\
  (forall w, n_vget_capacity (Some v) true w =
    Ok (NStatus (fst (vget_capacity v)), Some v, OutNum (snd (vget_capacity v))) w) /\
  (forall w, n_vget_size (Some v) true w = Ok (NStatus (fst (vget_size v)), Some v, OutNum (snd (vget_size v))) w).
Proof.
  assert (F : forall p cmp i n w, n_vfind_ex (Some v) p true (Some cmp) i n w =
    (let* (st, x) := vfind_ex v p cmp i n in ret (NStatus st, Some v, if st_success st then OutIndex x else NoOut)) w).
  { intros p cmp i n w. unfold n_vfind_ex, checked_object, vfind_ex.
    destruct ((v_size v <? wadd i n) || (i =? v_size v)); [reflexivity|].
    destruct (n =? 0); [reflexivity|]. unfold bind, stores.
    destruct (assert_valid v w) as [[] w1|]; [|reflexivity].
    destruct (find_loop v p cmp i _ w1) as [[x|] w2|]; reflexivity. }
  assert (B : forall p cmp i n w, n_vbinary_search_ex (Some v) p true (Some cmp) i n w =
    (let* (st, x) := vbinary_search_ex v p cmp i n in
     ret (NStatus st, Some v, match x with Some _ => OutIndex x | None => NoOut end)) w).
  { intros p cmp i n w. unfold n_vbinary_search_ex, checked_object, vbinary_search_ex.
    destruct (((v_size v <=? i) && (0 <? n)) || (v_size v <? wadd i n)); [reflexivity|].
    destruct (n =? 0); [reflexivity|]. unfold bind, stores.
    destruct (assert_valid v w) as [[] w1|]; [|reflexivity].
    destruct (VectorModel.bs_loop v p cmp _ _ _ _ w1) as [[st x] w2|]; reflexivity. }
  repeat match goal with |- _ /\ _ => split end; try assumption; repeat intro; try reflexivity.
  - apply F.
  - apply B.
Qed.
Lemma string_queries_given (s : str) :
  (forall q w, n_view_inside_view (Some s) (Some q) w = updates (ret (view_inside_view s q)) w) /\
  (forall q i n w, n_view_inside_view_ex (Some s) (Some q) i n w = updates (ret (view_inside_view_ex s q i n)) w) /\
  (forall p w, n_view_inside_buffer (Some s) p w = updates (view_inside_buffer s p) w) /\
  (forall p n w, n_view_inside_buffer_ex (Some s) p n w = updates (ret (view_inside_buffer_ex s p n)) w) /\
  (forall w, n_view_get_size (Some s) true w = (let* (st, n) := view_get_size s in ret (NStatus st, Some s, OutNum n)) w) /\
  (forall w, n_view_get_data (Some s) true w = Ok (NStatus (fst (view_get_data s)), Some s, OutPtr (snd (view_get_data s))) w) /\
  (forall i w, n_sget_char (Some s) i true w =
    (let* (st, c) := sget_char s i in ret (NStatus st, Some s, match c with Some c => OutNum c | None => NoOut end)) w) /\
  (forall i w, n_sget_char_mutable (Some s) i true w =
    (let* (st, p) := sget_char_mutable s i in ret (NStatus st, Some s, if st_success st then OutPtr p else NoOut)) w) /\
  (forall eqc q i k w, n_slpos_ex eqc (Some s) (Some q) true i k w =
    (let* (st, r) := slpos_ex eqc s q i k in ret (NStatus st, Some s, if st_success st then OutIndex r else NoOut)) w) /\
  (forall eqc q w, n_slpos eqc (Some s) (Some q) true w =
    (let* (st, r) := slpos eqc s q in ret (NStatus st, Some s, if st_success st then OutIndex r else NoOut)) w) /\
  (forall eqc q i k w, n_srpos_ex eqc (Some s) (Some q) true i k w =
    (let* (st, r) := srpos_ex eqc s q i k in ret (NStatus st, Some s, if st_success st then OutIndex r else NoOut)) w) /\
  (forall eqc q w, n_srpos eqc (Some s) (Some q) true w =
    (let* (st, r) := srpos eqc s q in ret (NStatus st, Some s, if st_success st then OutIndex r else NoOut)) w) /\
  (forall eqc q w, n_scompare eqc (Some s) (Some q) true w =
    (let* (st, z) := scompare eqc s q in ret (NStatus st, Some s, OutInt z)) w) /\
  (forall w, n_sget_capacity (Some s) true w = (let* (st, n) := sget_capacity s in ret (NStatus st, Some s, OutNum n)) w) /\
  (forall w, n_sget_size (Some s) true w = (let* (st, n) := sget_size s in ret (NStatus st, Some s, OutNum n)) w) /\
  (forall w, n_sget_data (Some s) true w = Ok (NStatus (fst (sget_data s)), Some s, OutPtr (snd (sget_data s))) w).
Proof.
  repeat match goal with |- _ /\ _ => split end; repeat intro; try reflexivity.
  - unfold n_sget_char_mutable, sget_char_mutable, checked_object.
    destruct (ssize s <=? wadd i 1); reflexivity.
Qed.
Lemma bitset_given (b : bitset) :
  (forall o z n al g t, same (n_bs_init_ex z (Some o) n al g t) (creates (Some o) (bs_init_ex z n al g t))) /\
  (forall o z n p cap, same (n_bs_init_buffer z (Some o) n p cap) (creates (Some o) (bs_init_buffer z n p cap))) /\
  same (n_bs_destroy (Some b)) (updates (bs_destroy b)) /\
  (forall op s, same (n_bs_byte_op (Some op) (Some b) (Some s)) (answers b (bs_byte_op op b s))) /\
  (forall s, same (n_bs_and (Some b) (Some s)) (answers b (bs_and b s))) /\
  (forall s, same (n_bs_or (Some b) (Some s)) (answers b (bs_or b s))) /\
  (forall s, same (n_bs_xor (Some b) (Some s)) (answers b (bs_xor b s))) /\
  same (n_bs_flip (Some b)) (answers b (bs_flip b)) /\
  (forall i, same (n_bs_set (Some b) i) (answers b (bs_set b i))) /\
  (forall i, same (n_bs_reset (Some b) i) (answers b (bs_reset b i))) /\
  (forall i x, same (n_bs_assign (Some b) i x) (answers b (bs_assign b i x))) /\
  (forall i, same (n_bs_toggle (Some b) i) (answers b (bs_toggle b i))) /\
  (forall i, same (n_bs_test (Some b) i) (answers b (bs_test b i))) /\
  same (n_bs_test_msb (Some b)) (answers b (bs_test_msb b)) /\
  same (n_bs_test_lsb (Some b)) (answers b (bs_test_lsb b)) /\
  same (n_bs_set_all (Some b)) (answers b (bs_set_all b)) /\
  same (n_bs_reset_all (Some b)) (answers b (bs_reset_all b)) /\
  (forall z x, same (n_bs_push z (Some b) x) (updates (bs_push z b x))) /\
  same (n_bs_pop (Some b)) (updates (bs_pop b)) /\
  same (n_bs_clear (Some b)) (updates (bs_clear b)) /\
  (forall n, same (n_bs_reserve (Some b) n) (updates (bs_reserve b n))) /\
  same (n_bs_shrink_to_fit (Some b)) (updates (bs_shrink_to_fit b)) /\
  same (n_bs_get_size (Some b) true) (ret (NStatus (fst (bs_get_size b)), Some b, OutNum (snd (bs_get_size b)))) /\
  same (n_bs_get_size_bytes (Some b) true) (ret (NStatus (fst (bs_get_size_bytes b)), Some b, OutNum (snd (bs_get_size_bytes b)))) /\
  same (n_bs_get_capacity (Some b) true) (ret (NStatus (fst (bs_get_capacity b)), Some b, OutNum (snd (bs_get_capacity b)))) /\
  same (n_bs_get_capacity_bytes (Some b) true)
       (ret (NStatus (fst (bs_get_capacity_bytes b)), Some b, OutNum (snd (bs_get_capacity_bytes b)))) /\
  same (n_bs_count (Some b) true) (let* (st, n) := bs_count b in ret (NStatus st, Some b, OutNum n)) /\
  same (n_bs_all (Some b)) (answers b (bs_all b)) /\
  same (n_bs_any (Some b)) (answers b (bs_any b)) /\
  same (n_bs_none (Some b)) (answers b (bs_none b)).
Proof.
  repeat match goal with |- _ /\ _ => split end; repeat intro; try reflexivity.
  destruct x; reflexivity.
Qed.
Lemma list_given (l : zlist) :
  (forall o e d al, same (n_linit_ex (Some o) e d al) (creates (Some o) (linit_ex e d al))) /\
  (forall o e d p cap, same (n_linit_custom (Some o) e d p cap) (creates (Some o) (linit_custom e d p cap))) /\
  same (n_ldestroy (Some l)) (updates (ldestroy l)) /\
  same (n_lget_head (Some l) true) (ret (NStatus (fst (lget_head l)), Some l, OutPtr (snd (lget_head l)))) /\
  same (n_lget_tail (Some l) true) (ret (NStatus (fst (lget_tail l)), Some l, OutPtr (snd (lget_tail l)))) /\
  (forall p, same (n_lget_prev_node (Some p)) (let* (st, q) := lget_prev_node p in ret (NStatus st, OutPtr q))) /\
  (forall p, same (n_lget_next_node (Some p)) (let* (st, q) := lget_next_node p in ret (NStatus st, OutPtr q))) /\
  (forall p, same (n_lget_node_data_ex (Some p) true)
                  (ret (NStatus (fst (lget_node_data_ex (Some p))), OutPtr (snd (lget_node_data_ex (Some p)))))) /\
  (forall node p, same (n_lset_node_data (Some l) node p) (answers l (lset_node_data l node p))) /\
  (forall p, same (n_lpush_back (Some l) p) (updates (lpush_back l p))) /\
  (forall p, same (n_lpush_front (Some l) p) (updates (lpush_front l p))) /\
  (forall f, same (n_lemplace_back (Some l) true f)
    (let* (st, l, p) := lemplace_back l f in ret (NStatus st, Some l, if st_success st then OutPtr p else NoOut))) /\
  (forall f, same (n_lemplace_front (Some l) true f)
    (let* (st, l, p) := lemplace_front l f in ret (NStatus st, Some l, if st_success st then OutPtr p else NoOut))) /\
  same (n_lpop_back (Some l)) (updates (lpop_back l)) /\
  same (n_lpop_front (Some l)) (updates (lpop_front l)) /\
  (forall node, same (n_lremove (Some l) node) (updates (lremove l node))) /\
  (forall node last, same (n_lremove_range (Some l) node last) (updates (lremove_range l node last))) /\
  same (n_lclear (Some l)) (updates (lclear l)) /\
  (forall n, same (n_lresize (Some l) n) (updates (lresize l n))) /\
  (forall n p, same (n_lresize_ex (Some l) n p) (updates (lresize_ex l n p))) /\
  same (n_lget_size (Some l) true) (ret (NStatus (fst (lget_size l)), Some l, OutNum (snd (lget_size l)))).
Proof. repeat match goal with |- _ /\ _ => split end; repeat intro; try reflexivity. Qed.
Lemma defaults_given :
  (forall (C : Type) (o : vector C) e cap d, same (n_vinit (Some o) e cap d) (creates (Some o) (vinit e cap d))) /\
  (forall (C : Type) (o v : vector C) cap, same (n_vduplicate (Some o) (Some v) cap) (creates (Some o) (vduplicate v cap))) /\
  (forall o cap, same (n_sinit (Some o) cap) (creates (Some o) (sinit cap))) /\
  (forall o s cap, same (n_sduplicate (Some o) (Some s) cap) (creates (Some o) (sduplicate s cap))) /\
  (forall o s r cap, same (n_sconcat (Some o) (Some s) (Some r) cap) (creates (Some o) (sconcat s r cap))) /\
  (forall z b n, same (n_bs_init z (Some b) n) (creates (Some b) (bs_init z n))) /\
  (forall l e d, same (n_linit (Some l) e d) (creates (Some l) (linit e d))).
Proof.
  split; [intros; intro; reflexivity|]. split; [intros; apply vector_given|]. split; [intros; intro; reflexivity|].
  split; [intros; apply string_given|]. split; [intros; apply string_given|]. split; intros; intro; reflexivity.
Qed.

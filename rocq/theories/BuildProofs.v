(** Runs that trip no assertion are the same in a build without assertions. *)
From Coq Require Import ZifyBool ZifyNat ZifyN.
From Verif Require Import Base Status Mem VectorModel VectorSpec VectorDriver StringModel StringSpec StringDriver
  FormatModel FormatSpec FormatDriver BitsetModel BitsetSpec BitsetDriver ListModel ListSpec ListDriver
  ArgModel ArgSpec ArgDriver.

(** Whenever [m] ends normally, [m'] does so in the release build, with the same answer and the same memory. *)
Definition steady {C A} (m m' : Mem.M C A) : Prop :=
  forall w a w', m w = Ok a w' -> m' (release w) = Ok a (release w').

Section Basic.
  Context {C : Type}.
  Lemma st_ret {A} (a : A) : steady (@ret C A a) (ret a).
  Proof. intros w x w' H. now injection H as <- <-. Qed.
  Lemma st_fail {A} f (m : Mem.M C A) : steady (fail f) m.
  Proof. intros w x w' H. discriminate H. Qed.
  Lemma st_bind {A B} (m m' : Mem.M C A) (k k' : A -> Mem.M C B) :
    steady m m' -> (forall a, steady (k a) (k' a)) -> steady (bind m k) (bind m' k').
  Proof.
    intros H K w b w2 E. unfold bind in *. destruct (m w) as [a w1|] eqn:F; [|discriminate E].
    rewrite (H _ _ _ F). now apply K.
  Qed.
  Lemma st_assert b : steady (@assert C b) (assert b).
  Proof.
    intros w a w' H. unfold assert in *. destruct b; [now apply st_ret|].
    destruct (checked w); [discriminate H|]. injection H as <- <-. reflexivity.
  Qed.
  Lemma st_mread p n : steady (@mread C p n) (mread p n).
  Proof.
    intros w a w' H. unfold mread in *. destruct p as [p|]; [|discriminate H]. cbn [heap release].
    destruct (heap w (pb p)) as [buf|]; [|discriminate H]. destruct (_ <=? _); [|discriminate H].
    now injection H as <- <-.
  Qed.
  Lemma st_mwrite p x : steady (@mwrite C p x) (mwrite p x).
  Proof.
    intros w a w' H. unfold mwrite in *. destruct p as [p|]; [|discriminate H]. cbn [heap release].
    destruct (heap w (pb p)) as [buf|]; [|discriminate H]. destruct (_ <=? _); [|discriminate H].
    now injection H as <- <-.
  Qed.
  Lemma st_memmove d s n : steady (@memmove C d s n) (memmove d s n).
  Proof. apply st_bind; [apply st_mread|intros x; apply st_mwrite]. Qed.
  Lemma st_memcpy d s n : steady (@memcpy C d s n) (memcpy d s n).
  Proof. unfold memcpy. destruct (overlap d s n); [apply st_fail|apply st_memmove]. Qed.
  Lemma st_alloc e n : steady (@alloc C e n) (alloc e n).
  Proof.
    intros w a w' H. unfold alloc in *. cbn [checked release orc tick]. rewrite andb_false_r.
    destruct (_ && _); [discriminate H|]. destruct (orc w (tick w)); injection H as <- <-; reflexivity.
  Qed.
  Lemma st_realloc p e n : steady (@realloc C p e n) (realloc p e n).
  Proof.
    intros w a w' H. unfold realloc in *. cbn [checked release orc tick heap]. rewrite andb_false_r.
    destruct (_ && _); [discriminate H|]. destruct p as [q|]; [|discriminate H].
    destruct (heap w (pb q)); [|discriminate H]. destruct (negb _); [discriminate H|].
    destruct (orc w (tick w)); injection H as <- <-; reflexivity.
  Qed.
  Lemma st_dealloc p e n : steady (@dealloc C p e n) (dealloc p e n).
  Proof.
    intros w a w' H. unfold dealloc in *. cbn [checked release heap]. rewrite andb_false_r.
    destruct (_ && _); [discriminate H|]. destruct p as [q|].
    - destruct (heap w (pb q)); [|discriminate H]. destruct (negb _); [discriminate H|].
      injection H as <- <-; reflexivity.
    - destruct (checked w); [discriminate H|]. injection H as <- <-; reflexivity.
  Qed.
  Lemma st_call_dtor f p e : steady (@call_dtor C f p e) (call_dtor f p e).
  Proof.
    intros w a w' H. unfold call_dtor in *. destruct (mread p e w) as [x w1|] eqn:R; [|discriminate H].
    rewrite (st_mread _ _ _ _ _ R). now apply st_mwrite in H.
  Qed.
  Lemma st_with_arg {A} x (k k' : option ptr -> Mem.M C A) :
    (forall p, steady (k p) (k' p)) -> steady (with_arg x k) (with_arg x k').
  Proof.
    intros K w a w' H. unfold with_arg in *. cbn [heap nextb orc tick dlog checked release].
    match type of H with match k ?p ?w1 with _ => _ end = _ =>
      destruct (k p w1) as [b w2|] eqn:F; [|discriminate H]; apply K in F end.
    unfold release at 1 in F. cbn [heap nextb orc tick dlog] in F. rewrite F. now injection H as <- <-.
  Qed.
End Basic.

Create HintDb steady discriminated.
#[export] Hint Resolve st_ret st_fail st_assert st_mread st_mwrite st_memmove st_memcpy st_alloc st_realloc st_dealloc
  st_call_dtor : steady.
Ltac st :=
  lazymatch goal with
  | |- steady (bind _ _) _ => apply st_bind; [st | intros; st]
  | |- steady (with_arg _ _) _ => apply st_with_arg; intros; st
  | |- steady (let x := _ in _) _ => cbv zeta; st
  | |- steady (match ?x with _ => _ end) _ => destruct x; st
  | |- _ => solve [eauto 3 with steady]
  end.
(** Unfold a function's definition, then go through its body. *)
Tactic Notation "go" reference(f) := intros; unfold f; st.


Section Vectors.
  Context {C : Type}.
  Notation vec := (vector C).
  Lemma st_assert_valid (v : vec) : steady (assert_valid v) (assert_valid v).
  Proof. go assert_valid. Qed.
  Hint Resolve st_assert_valid : steady.
  Lemma st_vreallocate_to (v : vec) c : steady (vreallocate_to v c) (vreallocate_to v c).
  Proof. go vreallocate_to. Qed.
  Hint Resolve st_vreallocate_to : steady.
  Lemma st_vreallocate (v : vec) c : steady (vreallocate v c) (vreallocate v c).
  Proof. go vreallocate. Qed.
  Hint Resolve st_vreallocate : steady.
  Lemma st_vshift_left (v : vec) i n : steady (vshift_left v i n) (vshift_left v i n).
  Proof. go vshift_left. Qed.
  Lemma st_vshift_right (v : vec) i n : steady (vshift_right v i n) (vshift_right v i n).
  Proof. go vshift_right. Qed.
  Lemma st_vinit_ex e c (d : option (list C -> list C)) a g s : steady (vinit_ex e c d a g s) (vinit_ex e c d a g s).
  Proof. go vinit_ex. Qed.
  Lemma st_vinit_custom e b c (d : option (list C -> list C)) : steady (vinit_custom e b c d) (vinit_custom e b c d).
  Proof. go vinit_custom. Qed.
  Lemma st_dtor_loop f (v : vec) n : forall i, steady (dtor_loop f v i n) (dtor_loop f v i n).
  Proof. induction n; intros; cbn [dtor_loop]; st. Qed.
  Hint Resolve st_vshift_left st_vshift_right st_vinit_ex st_vinit_custom st_dtor_loop : steady.
  Lemma st_destroy_range (v : vec) i j : steady (destroy_range v i j) (destroy_range v i j).
  Proof. go destroy_range. Qed.
  Hint Resolve st_destroy_range : steady.
  Lemma st_vdestroy (v : vec) : steady (vdestroy v) (vdestroy v).
  Proof. go vdestroy. Qed.
  Lemma st_vduplicate_ex (v : vec) c a g s : steady (vduplicate_ex v c a g s) (vduplicate_ex v c a g s).
  Proof. go vduplicate_ex. Qed.
  Lemma st_vduplicate_custom (v : vec) p c : steady (vduplicate_custom v p c) (vduplicate_custom v p c).
  Proof. go vduplicate_custom. Qed.
  Lemma st_vget (v : vec) i : steady (vget v i) (vget v i).
  Proof. go vget. Qed.
  Lemma st_vget_pointer (v : vec) i : steady (vget_pointer v i) (vget_pointer v i).
  Proof. go vget_pointer. Qed.
  Lemma st_vset (v : vec) i p : steady (vset v i p) (vset v i p).
  Proof. go vset. Qed.
  Lemma st_vgrow (v : vec) n : steady (vgrow v n) (vgrow v n).
  Proof. go vgrow. Qed.
  Hint Resolve st_vget st_vgrow : steady.
  Lemma st_vpush_back (v : vec) p : steady (vpush_back v p) (vpush_back v p).
  Proof. go vpush_back. Qed.
  Lemma st_vinsert_range (v : vec) i p n : steady (vinsert_range v i p n) (vinsert_range v i p n).
  Proof. go vinsert_range. Qed.
  Lemma st_vemplace_ex (v : vec) i f : steady (vemplace_ex v i f) (vemplace_ex v i f).
  Proof. go vemplace_ex. Qed.
  Lemma st_vswap (v : vec) i j : steady (vswap v i j) (vswap v i j).
  Proof. go vswap. Qed.
  Lemma st_vmaybe_shrink (v : vec) : steady (vmaybe_shrink v) (vmaybe_shrink v).
  Proof. go vmaybe_shrink. Qed.
  Hint Resolve st_vmaybe_shrink : steady.
  Lemma st_vdelete_range (v : vec) i n : steady (vdelete_range v i n) (vdelete_range v i n).
  Proof. go vdelete_range. Qed.
  Lemma st_vpop_back (v : vec) : steady (vpop_back v) (vpop_back v).
  Proof. go vpop_back. Qed.
  Lemma st_init_loop (v : vec) p n : forall i, steady (init_loop v i p n) (init_loop v i p n).
  Proof. induction n; intros; cbn [init_loop]; st. Qed.
  Hint Resolve st_init_loop : steady.
  Lemma st_vresize_ex (v : vec) n p : steady (vresize_ex v n p) (vresize_ex v n p).
  Proof. go vresize_ex. Qed.
  Hint Resolve st_vresize_ex : steady.
  Lemma st_vresize (v : vec) n : steady (vresize v n) (vresize v n).
  Proof. go vresize. Qed.
  Lemma st_vclear (v : vec) : steady (vclear v) (vclear v).
  Proof. go vclear. Qed.
  Lemma st_vreserve (v : vec) n : steady (vreserve v n) (vreserve v n).
  Proof. go vreserve. Qed.
  Lemma st_vshrink_to_fit (v : vec) : steady (vshrink_to_fit v) (vshrink_to_fit v).
  Proof. go vshrink_to_fit. Qed.
  Lemma st_find_loop (v : vec) p cmp n : forall i, steady (find_loop v p cmp i n) (find_loop v p cmp i n).
  Proof. induction n; intros; cbn [find_loop]; st. Qed.
  Hint Resolve st_find_loop : steady.
  Lemma st_vfind_ex (v : vec) p cmp i n : steady (vfind_ex v p cmp i n) (vfind_ex v p cmp i n).
  Proof. go vfind_ex. Qed.
  Lemma st_bs_loop (v : vec) p cmp n : forall l h s, steady (bs_loop v p cmp l h s n) (bs_loop v p cmp l h s n).
  Proof. induction n; intros; cbn [bs_loop]; st. Qed.
  Hint Resolve st_bs_loop : steady.
  Lemma st_vbinary_search_ex (v : vec) p cmp i n : steady (vbinary_search_ex v p cmp i n) (vbinary_search_ex v p cmp i n).
  Proof. go vbinary_search_ex. Qed.
  Lemma st_read_elem (v : vec) i : steady (read_elem v i) (read_elem v i).
  Proof. go read_elem. Qed.
  Hint Resolve st_vget_pointer st_vset st_vpush_back st_vinsert_range st_vemplace_ex st_vswap st_vdelete_range
    st_vpop_back st_vresize st_vclear st_vreserve st_vshrink_to_fit : steady.
  Lemma st_run_op (v : vec) o : steady (run_op v o) (run_op v o).
  Proof. destruct o; cbn [run_op]; unfold vinsert, vemplace, vdelete; st. Qed.
  Hint Resolve st_run_op : steady.
  Lemma st_run_ops ops : forall v : vec, steady (run_ops v ops) (run_ops v ops).
  Proof. induction ops; intros; cbn [run_ops]; st. Qed.
End Vectors.
#[export] Hint Resolve st_vinit_ex st_vinit_custom st_vdestroy st_vduplicate_ex st_vduplicate_custom st_vget st_vget_pointer st_vset
  st_vpush_back st_vinsert_range st_vemplace_ex st_vswap st_vdelete_range st_vpop_back st_vresize_ex st_vresize st_vclear st_vreserve
  st_vshrink_to_fit st_vfind_ex st_vbinary_search_ex st_read_elem st_run_ops : steady.

(** ** Strings *)
Lemma st_nullterminate s : steady (nullterminate s) (nullterminate s).
Proof. go nullterminate. Qed.
Lemma st_assert_nullterminated s : steady (assert_nullterminated s) (assert_nullterminated s).
Proof.
  intros w a w' H. unfold assert_nullterminated in *. cbn [checked release]. destruct (checked w).
  - unfold bind, assert in H. destruct (mread _ _ w) as [x w1|] eqn:R; [|discriminate H].
    assert (w1 = w) as ->.
    { unfold mread in R. destruct (padd _ _) as [p|]; [|discriminate R]. destruct (heap w (pb p)); [|discriminate R].
      destruct (_ <=? _); [|discriminate R]. now injection R. }
    destruct (match x with [c] => c =? 0 | _ => false end); [now injection H as <- <-|].
    destruct (checked w); [discriminate H|now injection H as <- <-].
  - now injection H as <- <-.
Qed.
Lemma st_mstrlen p : steady (mstrlen p) (mstrlen p).
Proof.
  intros w a w' H. unfold mstrlen in *. destruct p as [p|]; [|discriminate H]. cbn [heap release].
  destruct (heap w (pb p)); [|discriminate H]. destruct (index_of_nul _); [|discriminate H]. now injection H as <- <-.
Qed.
Lemma st_mread1 p : steady (mread1 p) (mread1 p).
Proof. go mread1. Qed.
#[export] Hint Resolve st_nullterminate st_assert_nullterminated st_mstrlen st_mread1 : steady.
Lemma st_sinit_ex c a g t : steady (sinit_ex c a g t) (sinit_ex c a g t).
Proof. go sinit_ex. Qed.
Lemma st_sinit_custom p c : steady (sinit_custom p c) (sinit_custom p c).
Proof. go sinit_custom. Qed.
Lemma st_sdestroy s : steady (sdestroy s) (sdestroy s).
Proof. go sdestroy. Qed.
Lemma st_sduplicate_into n q r : steady (sduplicate_into n q r) (sduplicate_into n q r).
Proof. go sduplicate_into. Qed.
Lemma st_sconcat_into n q1 q2 r : steady (sconcat_into n q1 q2 r) (sconcat_into n q1 q2 r).
Proof. go sconcat_into. Qed.
#[export] Hint Resolve st_sinit_ex st_sinit_custom st_sdestroy st_sduplicate_into st_sconcat_into : steady.
Lemma st_sduplicate_ex q c a g t : steady (sduplicate_ex q c a g t) (sduplicate_ex q c a g t).
Proof. go sduplicate_ex. Qed.
Lemma st_sduplicate_custom q p c : steady (sduplicate_custom q p c) (sduplicate_custom q p c).
Proof. go sduplicate_custom. Qed.
Lemma st_sconcat_ex q1 q2 c a g t : steady (sconcat_ex q1 q2 c a g t) (sconcat_ex q1 q2 c a g t).
Proof. go sconcat_ex. Qed.
Lemma st_sconcat_custom q1 q2 p c : steady (sconcat_custom q1 q2 p c) (sconcat_custom q1 q2 p c).
Proof. go sconcat_custom. Qed.
Lemma st_view_inside_buffer q p : steady (view_inside_buffer q p) (view_inside_buffer q p).
Proof. go view_inside_buffer. Qed.
Lemma st_view_get_size q : steady (view_get_size q) (view_get_size q).
Proof. go view_get_size. Qed.
Lemma st_sget_char s i : steady (sget_char s i) (sget_char s i).
Proof. go sget_char. Qed.
Lemma st_sset_char s i p : steady (sset_char s i p) (sset_char s i p).
Proof. go sset_char. Qed.
Lemma st_sappend s q : steady (sappend s q) (sappend s q).
Proof. go sappend. Qed.
Lemma st_sappend_ex s q i n : steady (sappend_ex s q i n) (sappend_ex s q i n).
Proof. go sappend_ex. Qed.
#[export] Hint Resolve st_sset_char st_sappend st_sappend_ex : steady.
Lemma st_sinsert s i q : steady (sinsert s i q) (sinsert s i q).
Proof. go sinsert. Qed.
Lemma st_sinsert_ex s i q j n : steady (sinsert_ex s i q j n) (sinsert_ex s i q j n).
Proof. go sinsert_ex. Qed.
Lemma st_sdelete s i n : steady (sdelete s i n) (sdelete s i n).
Proof. go sdelete. Qed.
Lemma st_struncate s i : steady (struncate s i) (struncate s i).
Proof. go struncate. Qed.
Lemma st_sclear s : steady (sclear s) (sclear s).
Proof. go sclear. Qed.
Lemma st_lpos_inner eqc h n l k : forall a b, steady (lpos_inner eqc h n l a b k) (lpos_inner eqc h n l a b k).
Proof. induction k; intros; cbn [lpos_inner]; st. Qed.
#[export] Hint Resolve st_sinsert st_sinsert_ex st_sdelete st_struncate st_sclear st_lpos_inner : steady.
Lemma st_lpos_outer eqc h n l k : forall i, steady (lpos_outer eqc h n l i k) (lpos_outer eqc h n l i k).
Proof. induction k; intros; cbn [lpos_outer]; st. Qed.
#[export] Hint Resolve st_lpos_outer : steady.
Lemma st_slpos_ex eqc h n i k : steady (slpos_ex eqc h n i k) (slpos_ex eqc h n i k).
Proof. go slpos_ex. Qed.
Lemma st_rpos_inner eqc h n l k : forall a b, steady (rpos_inner eqc h n l a b k) (rpos_inner eqc h n l a b k).
Proof. induction k; intros; cbn [rpos_inner]; st. Qed.
#[export] Hint Resolve st_rpos_inner : steady.
Lemma st_rpos_outer eqc h n l k : forall i, steady (rpos_outer eqc h n l i k) (rpos_outer eqc h n l i k).
Proof. induction k; intros; cbn [rpos_outer]; st. Qed.
#[export] Hint Resolve st_rpos_outer : steady.
Lemma st_srpos_ex eqc h n i k : steady (srpos_ex eqc h n i k) (srpos_ex eqc h n i k).
Proof. go srpos_ex. Qed.
Lemma st_compare_loop eqc s1 s2 k : forall i, steady (compare_loop eqc s1 s2 i k) (compare_loop eqc s1 s2 i k).
Proof. induction k; intros; cbn [compare_loop]; st. Qed.
#[export] Hint Resolve st_compare_loop : steady.
Lemma st_scompare eqc s1 s2 : steady (scompare eqc s1 s2) (scompare eqc s1 s2).
Proof. go scompare. Qed.
Lemma st_case_loop f s n : forall i, steady (case_loop f s i n) (case_loop f s i n).
Proof. induction n; intros; cbn [case_loop]; st. Qed.
#[export] Hint Resolve st_case_loop : steady.
Lemma st_scase_ex f s i n : steady (scase_ex f s i n) (scase_ex f s i n).
Proof. go scase_ex. Qed.
Lemma st_sresize s n : steady (sresize s n) (sresize s n).
Proof. go sresize. Qed.
Lemma st_sreserve s n : steady (sreserve s n) (sreserve s n).
Proof. go sreserve. Qed.
Lemma st_sshrink_to_fit s : steady (sshrink_to_fit s) (sshrink_to_fit s).
Proof. go sshrink_to_fit. Qed.
Lemma st_sget_capacity s : steady (sget_capacity s) (sget_capacity s).
Proof. go sget_capacity. Qed.
Lemma st_sget_size s : steady (sget_size s) (sget_size s).
Proof. go sget_size. Qed.
#[export] Hint Resolve st_scase_ex st_sresize st_sreserve st_sshrink_to_fit : steady.
Lemma st_with_view {A} x (k : view -> Mem.M N A) : (forall q, steady (k q) (k q)) -> steady (with_view x k) (with_view x k).
Proof. intros H. apply st_with_arg. intros p. apply H. Qed.
Ltac st ::=
  lazymatch goal with
  | |- steady (bind _ _) _ => apply st_bind; [st | intros; st]
  | |- steady (with_arg _ _) _ => apply st_with_arg; intros; st
  | |- steady (with_view _ _) _ => apply st_with_view; intros; st
  | |- steady (let x := _ in _) _ => cbv zeta; st
  | |- steady (match ?x with _ => _ end) _ => destruct x; st
  | |- _ => solve [eauto 3 with steady]
  end.
Lemma st_run_sop s o : steady (run_sop s o) (run_sop s o).
Proof. destruct o; cbn [run_sop]; unfold scase; st. Qed.
#[export] Hint Resolve st_run_sop : steady.
Lemma st_run_sops ops : forall s, steady (run_sops s ops) (run_sops s ops).
Proof. induction ops; intros; cbn [run_sops]; st. Qed.

(** ** Number formatting *)
Lemma st_dec_push m d buf : steady (dec_push m d buf) (dec_push m d buf).
Proof. go dec_push. Qed.
#[export] Hint Resolve st_dec_push : steady.
Lemma st_dec_loop k m : forall v buf, steady (dec_loop k m v buf) (dec_loop k m v buf).
Proof. induction k; intros; cbn [dec_loop]; st. Qed.
#[export] Hint Resolve st_dec_loop : steady.
Lemma st_sappend_dec m s v n : steady (sappend_dec m s v n) (sappend_dec m s v n).
Proof. go sappend_dec. Qed.
Lemma st_hex_char u v : steady (hex_char u v) (hex_char u v).
Proof. go hex_char. Qed.
#[export] Hint Resolve st_sappend_dec st_hex_char : steady.
Lemma st_hex_loop k v p u l r : forall s n b, steady (hex_loop k v p u l r s n b) (hex_loop k v p u l r s n b).
Proof. induction k; intros; cbn [hex_loop]; st. Qed.
#[export] Hint Resolve st_hex_loop : steady.
Lemma st_sappend_hex k s v p u : steady (sappend_hex k s v p u) (sappend_hex k s v p u).
Proof. go sappend_hex. Qed.
#[export] Hint Resolve st_sappend_hex : steady.
Lemma st_sappend_decu b s v p : steady (sappend_decu b s v p) (sappend_decu b s v p).
Proof. go sappend_decu. Qed.
Lemma st_sappend_hexu b s v p u : steady (sappend_hexu b s v p u) (sappend_hexu b s v p u).
Proof. intros; unfold sappend_hexu, sappend_hex64; st. Qed.
#[export] Hint Resolve st_sappend_decu st_sappend_hexu : steady.
Lemma st_sappend_signed q1 q2 s v f p k : (forall s n, steady (k s n) (k s n)) ->
  steady (sappend_signed q1 q2 s v f p k) (sappend_signed q1 q2 s v f p k).
Proof. go sappend_signed. Qed.
Lemma st_sappend_decs b q1 q2 s v n f p : steady (sappend_decs b q1 q2 s v n f p) (sappend_decs b q1 q2 s v n f p).
Proof. apply st_sappend_signed. intros. st. Qed.
Lemma st_sappend_hexs b q1 q2 s v n u f p : steady (sappend_hexs b q1 q2 s v n u f p) (sappend_hexs b q1 q2 s v n u f p).
Proof. apply st_sappend_signed. intros. st. Qed.
#[export] Hint Resolve st_sappend_decs st_sappend_hexs : steady.
Lemma st_run_fop b s o : steady (run_fop b s o) (run_fop b s o).
Proof. destruct o; cbn [run_fop]; unfold with_signs, with_prefix; st. Qed.
#[export] Hint Resolve st_run_fop : steady.
Lemma st_run_fops b ops : forall s, steady (run_fops b s ops) (run_fops b s ops).
Proof. induction ops; intros; cbn [run_fops]; st. Qed.
Lemma st_vsnprintf f p n : steady (vsnprintf f p n) (vsnprintf f p n).
Proof. go vsnprintf. Qed.
#[export] Hint Resolve st_vsnprintf : steady.
Lemma st_sappend_format f1 f2 s : steady (sappend_format f1 f2 s) (sappend_format f1 f2 s).
Proof. go sappend_format. Qed.

(** ** Bitsets *)
Lemma st_init_elements z n : forall v, steady (init_elements v z n) (init_elements v z n).
Proof. induction n; intros; cbn [init_elements]; st. Qed.
#[export] Hint Resolve st_init_elements : steady.
Lemma st_bs_init_ex z n a g s : steady (bs_init_ex z n a g s) (bs_init_ex z n a g s).
Proof. go bs_init_ex. Qed.
Lemma st_bs_init_buffer z n p c : steady (bs_init_buffer z n p c) (bs_init_buffer z n p c).
Proof. go bs_init_buffer. Qed.
Lemma st_bs_destroy b : steady (bs_destroy b) (bs_destroy b).
Proof. go bs_destroy. Qed.
Lemma st_byte_op_loop op d s n : forall i, steady (byte_op_loop op d s i n) (byte_op_loop op d s i n).
Proof. induction n; intros; cbn [byte_op_loop]; st. Qed.
Lemma st_each_byte f b n : forall i, steady (each_byte f b i n) (each_byte f b i n).
Proof. induction n; intros; cbn [each_byte]; st. Qed.
Lemma st_bs_change f b i : steady (bs_change f b i) (bs_change f b i).
Proof. go bs_change. Qed.
Lemma st_bs_test b i : steady (bs_test b i) (bs_test b i).
Proof. go bs_test. Qed.
#[export] Hint Resolve st_bs_change st_each_byte st_byte_op_loop : steady.
Lemma st_bs_assign b i v : steady (bs_assign b i v) (bs_assign b i v).
Proof. unfold bs_assign, bs_set, bs_reset. st. Qed.
#[export] Hint Resolve st_bs_assign : steady.
Lemma st_bs_push z b v : steady (bs_push z b v) (bs_push z b v).
Proof. go bs_push. Qed.
Lemma st_bs_pop b : steady (bs_pop b) (bs_pop b).
Proof. go bs_pop. Qed.
Lemma st_bs_clear b : steady (bs_clear b) (bs_clear b).
Proof. go bs_clear. Qed.
Lemma st_bs_reserve b n : steady (bs_reserve b n) (bs_reserve b n).
Proof. go bs_reserve. Qed.
Lemma st_bs_shrink_to_fit b : steady (bs_shrink_to_fit b) (bs_shrink_to_fit b).
Proof. go bs_shrink_to_fit. Qed.
#[export] Hint Resolve st_bs_push st_bs_pop st_bs_clear st_bs_reserve st_bs_shrink_to_fit : steady.
Lemma st_count_loop b n : forall i c, steady (count_loop b i c n) (count_loop b i c n).
Proof. induction n; intros; cbn [count_loop]; st. Qed.
Lemma st_scan_loop h y x b n : forall i, steady (scan_loop h y x b i n) (scan_loop h y x b i n).
Proof. induction n; intros; cbn [scan_loop]; st. Qed.
#[export] Hint Resolve st_count_loop st_scan_loop : steady.
Lemma st_bs_count b : steady (bs_count b) (bs_count b).
Proof. go bs_count. Qed.
Lemma st_run_bitop b o : steady (run_bitop b o) (run_bitop b o).
Proof.
  destruct o; cbn [run_bitop]; unfold keep, with_zero, bs_set, bs_reset, bs_toggle, bs_set_all, bs_reset_all, bs_flip, bs_each; st.
Qed.
#[export] Hint Resolve st_run_bitop : steady.
Lemma st_run_bitops ops : forall b, steady (run_bitops b ops) (run_bitops b ops).
Proof. induction ops; intros; cbn [run_bitops]; st. Qed.

(** ** Lists *)
Lemma st_load_ptr p : steady (load_ptr p) (load_ptr p).
Proof. go load_ptr. Qed.
Lemma st_store_ptr p q : steady (store_ptr p q) (store_ptr p q).
Proof. go store_ptr. Qed.
#[export] Hint Resolve st_load_ptr st_store_ptr : steady.
Lemma st_get_prev p : steady (get_prev p) (get_prev p).
Proof. go get_prev. Qed.
Lemma st_get_next p : steady (get_next p) (get_next p).
Proof. go get_next. Qed.
Lemma st_set_prev p q : steady (set_prev p q) (set_prev p q).
Proof. go set_prev. Qed.
Lemma st_set_next p q : steady (set_next p q) (set_next p q).
Proof. go set_next. Qed.
#[export] Hint Resolve st_get_prev st_get_next st_set_prev st_set_next : steady.
Lemma st_lalloc_node l : steady (lalloc_node l) (lalloc_node l).
Proof. go lalloc_node. Qed.
Lemma st_ldealloc_node l p : steady (ldealloc_node l p) (ldealloc_node l p).
Proof. go ldealloc_node. Qed.
Lemma st_destroy_node l p : steady (destroy_node l p) (destroy_node l p).
Proof. go destroy_node. Qed.
#[export] Hint Resolve st_lalloc_node st_ldealloc_node st_destroy_node : steady.
Lemma st_linit_ex e d a : steady (linit_ex e d a) (linit_ex e d a).
Proof. go linit_ex. Qed.
Lemma st_linit_custom e d p c : steady (linit_custom e d p c) (linit_custom e d p c).
Proof. go linit_custom. Qed.
Lemma st_destroy_loop l k : forall p, steady (destroy_loop l p k) (destroy_loop l p k).
Proof. induction k; intros p; destruct p; cbn [destroy_loop]; st. Qed.
#[export] Hint Resolve st_destroy_loop : steady.
Lemma st_destroy_all l : steady (destroy_all l) (destroy_all l).
Proof. unfold destroy_all. apply st_destroy_loop. Qed.
#[export] Hint Resolve st_destroy_all : steady.
Lemma st_ldestroy l : steady (ldestroy l) (ldestroy l).
Proof. go ldestroy. Qed.
Lemma st_lget_prev_node p : steady (lget_prev_node p) (lget_prev_node p).
Proof. go lget_prev_node. Qed.
Lemma st_lget_next_node p : steady (lget_next_node p) (lget_next_node p).
Proof. go lget_next_node. Qed.
Lemma st_lset_node_data l p q : steady (lset_node_data l p q) (lset_node_data l p q).
Proof. go lset_node_data. Qed.
Lemma st_link_back l p : steady (link_back l p) (link_back l p).
Proof. go link_back. Qed.
Lemma st_link_front l p : steady (link_front l p) (link_front l p).
Proof. go link_front. Qed.
Lemma st_call_ctor f p e : steady (call_ctor f p e) (call_ctor f p e).
Proof. go call_ctor. Qed.
#[export] Hint Resolve st_lget_prev_node st_lget_next_node st_lset_node_data st_link_back st_link_front st_call_ctor : steady.
Lemma st_lpush_back l p : steady (lpush_back l p) (lpush_back l p).
Proof. go lpush_back. Qed.
Lemma st_lpush_front l p : steady (lpush_front l p) (lpush_front l p).
Proof. go lpush_front. Qed.
Lemma st_lemplace_back l f : steady (lemplace_back l f) (lemplace_back l f).
Proof. go lemplace_back. Qed.
Lemma st_lemplace_front l f : steady (lemplace_front l f) (lemplace_front l f).
Proof. go lemplace_front. Qed.
Lemma st_lpop_back l : steady (lpop_back l) (lpop_back l).
Proof. go lpop_back. Qed.
Lemma st_lpop_front l : steady (lpop_front l) (lpop_front l).
Proof. go lpop_front. Qed.
Lemma st_grow_loop p n : forall l, steady (grow_loop l p n) (grow_loop l p n).
Proof. induction n; intros; cbn [grow_loop]; st. Qed.
Lemma st_shrink_loop n : forall l, steady (shrink_loop l n) (shrink_loop l n).
Proof. induction n; intros; cbn [shrink_loop]; st. Qed.
#[export] Hint Resolve st_grow_loop st_shrink_loop : steady.
Lemma st_lresize_ex l n p : steady (lresize_ex l n p) (lresize_ex l n p).
Proof. go lresize_ex. Qed.
#[export] Hint Resolve st_lpush_back st_lpush_front st_lemplace_back st_lemplace_front st_lpop_back st_lpop_front st_lresize_ex : steady.
Lemma st_walk n : forall p, steady (walk p n) (walk p n).
Proof. induction n; intros; cbn [walk]; st. Qed.
#[export] Hint Resolve st_walk : steady.
Lemma st_run_lop l o : steady (run_lop l o) (run_lop l o).
Proof. destruct o; cbn [run_lop]; unfold after_emplace, store_item, lclear, with_opt, nth_node; st. Qed.
#[export] Hint Resolve st_run_lop : steady.
Lemma st_run_lops ops : forall l, steady (run_lops l ops) (run_lops l ops).
Proof. induction ops; intros; cbn [run_lops]; st. Qed.

(** ** The argument parser: both memories belong to the release build. *)
Lemma st_load_word p : steady (load_word p) (load_word p).
Proof. go load_word. Qed.
Lemma st_load_byte p : steady (load_byte p) (load_byte p).
Proof. go load_byte. Qed.
#[export] Hint Resolve st_load_word st_load_byte : steady.
Lemma st_load_def p : steady (load_def p) (load_def p).
Proof. go load_def. Qed.
#[export] Hint Resolve st_load_def : steady.
Section Arg.
  Variables (tw : world N) (cfg : aconfig).
  Lemma st_text {A} (m m' : Mem.M N A) : steady m m' -> steady (text tw m) (text (release tw) m').
  Proof.
    intros H w a w' E. unfold text in *. destruct (m tw) as [x tw'|] eqn:F; [|discriminate E].
    rewrite (H _ _ _ F). now injection E as <- <-.
  Qed.
  Lemma st_char_at p i : steady (char_at tw p i) (char_at (release tw) p i).
  Proof. apply st_text. st. Qed.
  Lemma st_astrlen p : steady (astrlen tw p) (astrlen (release tw) p).
  Proof. apply st_text. st. Qed.
  Lemma st_astreq p q : steady (astreq tw p q) (astreq (release tw) p q).
  Proof. apply st_text. unfold cstring. st. Qed.
  Hint Resolve st_char_at st_astrlen st_astreq : steady.
  Lemma st_aview q p : steady (aview_inside_buffer tw q p) (aview_inside_buffer (release tw) q p).
  Proof. unfold aview_inside_buffer, store_word. st. Qed.
  Hint Resolve st_aview : steady.
  Lemma st_check_defs ds : steady (check_defs tw ds) (check_defs (release tw) ds).
  Proof. induction ds; cbn [check_defs]; st. Qed.
  Lemma st_find_long ds p : forall k, steady (find_long tw ds k p) (find_long (release tw) ds k p).
  Proof. induction ds; intros; cbn [find_long]; st. Qed.
  Lemma st_find_short ds c : forall k, steady (find_short tw ds k c) (find_short (release tw) ds k c).
  Proof. induction ds; intros; cbn [find_short]; st. Qed.
  Lemma st_new_arg v : steady (new_arg v) (new_arg v).
  Proof. unfold new_arg, vemplace. st. Qed.
  Lemma st_put_def p f : steady (put_def p f) (put_def p f).
  Proof. unfold put_def, store_def, store_word. st. Qed.
  Lemma st_is_boolean d : steady (is_boolean cfg d) (is_boolean cfg d).
  Proof. go is_boolean. Qed.
  Lemma st_put_value p q : steady (put_value tw p q) (put_value (release tw) p q).
  Proof. unfold put_value, store_has_value. st. Qed.
  Lemma st_argv_at i : steady (argv_at cfg i) (argv_at cfg i).
  Proof. go argv_at. Qed.
  Hint Resolve st_check_defs st_find_long st_find_short st_new_arg st_put_def st_is_boolean st_put_value st_argv_at : steady.
  Lemma st_next_value i v u c p : steady (next_value tw cfg i v u c p) (next_value (release tw) cfg i v u c p).
  Proof. go next_value. Qed.
  Hint Resolve st_next_value : steady.
  Lemma st_long_arg i v u c : steady (long_arg tw cfg i v u c) (long_arg (release tw) cfg i v u c).
  Proof. go long_arg. Qed.
  Lemma st_short_loop i u c k : forall v r, steady (short_loop tw cfg i v u c r k) (short_loop (release tw) cfg i v u c r k).
  Proof. induction k; intros; cbn [short_loop]; st. Qed.
  Lemma st_unnamed_arg i v a u c : steady (unnamed_arg tw cfg i v a u c) (unnamed_arg (release tw) cfg i v a u c).
  Proof. go unnamed_arg. Qed.
  Lemma st_text_read p n : steady (text tw (mread p n)) (text (release tw) (mread p n)).
  Proof. apply st_text. st. Qed.
  Hint Resolve st_long_arg st_short_loop st_unnamed_arg st_text_read : steady.
  Lemma st_main_step i v a u : steady (main_step tw cfg i v a u) (main_step (release tw) cfg i v a u).
  Proof. go main_step. Qed.
  Hint Resolve st_main_step : steady.
  Lemma st_main_loop k : forall i v a u, steady (main_loop tw cfg i v a u k) (main_loop (release tw) cfg i v a u k).
  Proof. induction k; intros; cbn [main_loop]; st. Qed.
  Lemma st_find_parsed v d n : forall i, steady (find_parsed v d i n) (find_parsed v d i n).
  Proof. induction n; intros; cbn [find_parsed]; st. Qed.
  Hint Resolve st_main_loop st_find_parsed : steady.
  Lemma st_check_required v ds : forall k, steady (check_required v ds k) (check_required v ds k).
  Proof. induction ds; intros; cbn [check_required]; st. Qed.
  Hint Resolve st_check_required : steady.
  Lemma st_failure e t v : steady (failure e t v) (failure e t v).
  Proof. go failure. Qed.
  Hint Resolve st_failure : steady.
  Lemma st_leave_by s : steady (leave_by s) (leave_by s).
  Proof. go leave_by. Qed.
  Hint Resolve st_leave_by : steady.
  Lemma st_argparse_ex a : steady (argparse_ex tw cfg a) (argparse_ex (release tw) cfg a).
  Proof. go argparse_ex. Qed.
End Arg.

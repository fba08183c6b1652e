(** What a call does depends only on the allocator's answers to the requests it makes. *)
From Coq Require Import ZifyBool ZifyNat ZifyN.
From Verif Require Import Base Status Mem VectorModel VectorSpec VectorDriver StringModel StringSpec StringDriver
  FormatModel FormatSpec FormatDriver BitsetModel BitsetSpec BitsetDriver ListModel ListSpec ListDriver
  ArgModel ArgSpec ArgDriver.

(** Whenever [m] ends normally, [m'] does the same with every allocator that answers the requests made in between alike. *)
Definition local {C A} (m m' : Mem.M C A) : Prop :=
  forall w a w', m w = Ok a w' ->
    orc w' = orc w /\ tick w <= tick w' /\
    forall o, (forall t, tick w <= t < tick w' -> o t = orc w t) -> m' (with_oracle w o) = Ok a (with_oracle w' o).

Section Basic.
  Context {C : Type}.
  Lemma lo_same {A} (m : Mem.M C A) :
    (forall w a w', m w = Ok a w' -> orc w' = orc w /\ tick w' = tick w) ->
    (forall w a w' o, m w = Ok a w' -> m (with_oracle w o) = Ok a (with_oracle w' o)) -> local m m.
  Proof. intros H1 H2 w a w' E. destruct (H1 _ _ _ E) as [O T]. repeat split; auto. lia. Qed.
  Lemma lo_ret {A} (a : A) : local (@ret C A a) (ret a).
  Proof. apply lo_same; intros w x w'; [|intros o]; intros H; now injection H as <- <-. Qed.
  Lemma lo_fail {A} f (m : Mem.M C A) : local (fail f) m.
  Proof. intros w x w' H. discriminate H. Qed.
  Lemma lo_bind {A B} (m m' : Mem.M C A) (k k' : A -> Mem.M C B) :
    local m m' -> (forall a, local (k a) (k' a)) -> local (bind m k) (bind m' k').
  Proof.
    intros H K w b w2 E. unfold bind in *. destruct (m w) as [a w1|] eqn:F; [|discriminate E].
    destruct (H _ _ _ F) as (O1 & T1 & L1). destruct (K _ _ _ _ E) as (O2 & T2 & L2).
    split; [congruence|]. split; [lia|]. intros o AG. rewrite L1 by (intros; apply AG; lia).
    apply L2. intros t L. rewrite O1. apply AG. lia.
  Qed.
  Lemma lo_assert b : local (@assert C b) (assert b).
  Proof.
    unfold assert. destruct b; [apply lo_ret|].
    apply lo_same; intros w x w'; [|intros o]; cbn [checked with_oracle]; (destruct (checked w); [discriminate|]);
      intros H; now injection H as <- <-.
  Qed.
  Lemma lo_mread p n : local (@mread C p n) (mread p n).
  Proof.
    apply lo_same; intros w x w'; [|intros o]; unfold mread; (destruct p as [p|]; [|discriminate]); cbn [heap with_oracle];
      (destruct (heap w (pb p)) as [buf|]; [|discriminate]); (destruct (_ <=? _); [|discriminate]);
      intros H; now injection H as <- <-.
  Qed.
  Lemma lo_mwrite p x : local (@mwrite C p x) (mwrite p x).
  Proof.
    apply lo_same; intros w y w'; [|intros o]; unfold mwrite; (destruct p as [p|]; [|discriminate]); cbn [heap with_oracle];
      (destruct (heap w (pb p)) as [buf|]; [|discriminate]); (destruct (_ <=? _); [|discriminate]);
      intros H; now injection H as <- <-.
  Qed.
  Lemma lo_memmove d s n : local (@memmove C d s n) (memmove d s n).
  Proof. apply lo_bind; [apply lo_mread|intros x; apply lo_mwrite]. Qed.
  Lemma lo_memcpy d s n : local (@memcpy C d s n) (memcpy d s n).
  Proof. unfold memcpy. destruct (overlap d s n); [apply lo_fail|apply lo_memmove]. Qed.
  Lemma lo_alloc e n : local (@alloc C e n) (alloc e n).
  Proof.
    intros w a w' H. unfold alloc in *. destruct (_ && _) eqn:B; [discriminate H|].
    destruct (orc w (tick w)) eqn:O; injection H as <- <-; (split; [reflexivity|split; [cbn; lia|]]); intros o AG;
      cbn [checked with_oracle orc tick] in *; rewrite B, (AG (tick w)), O by lia; reflexivity.
  Qed.
  Lemma lo_realloc p e n : local (@realloc C p e n) (realloc p e n).
  Proof.
    intros w a w' H. unfold realloc in *. destruct (_ && _) eqn:B; [discriminate H|].
    destruct p as [q|]; [|discriminate H].
    destruct (heap w (pb q)) eqn:HQ; [|discriminate H]. destruct (negb (po q =? 0)); [discriminate H|].
    destruct (orc w (tick w)) eqn:O; injection H as <- <-; (split; [reflexivity|split; [cbn; lia|]]); intros o AG;
      cbn [checked with_oracle orc tick heap] in *; rewrite B, HQ, (AG (tick w)), O by lia; reflexivity.
  Qed.
  Lemma lo_dealloc p e n : local (@dealloc C p e n) (dealloc p e n).
  Proof.
    apply lo_same; intros w y w'; [|intros o]; unfold dealloc; cbn [checked with_oracle heap];
    (destruct (_ && _); [discriminate|]); (destruct p as [q|];
    [destruct (heap w (pb q)); [|discriminate]; destruct (negb _); [discriminate|] | destruct (checked w); [discriminate|]]);
      intros H; now injection H as <- <-.
  Qed.
  Lemma lo_call_dtor f p e : local (@call_dtor C f p e) (call_dtor f p e).
  Proof.
    intros w a w' H. unfold call_dtor in *. destruct (mread p e w) as [x w1|] eqn:R; [|discriminate H].
    destruct (lo_mread _ _ _ _ _ R) as (O1 & T1 & L1). destruct (lo_mwrite _ _ _ _ _ H) as (O2 & T2 & L2).
    cbn [orc tick] in *. split; [congruence|]. split; [lia|]. intros o AG. rewrite L1 by (intros; apply AG; lia).
    apply (L2 o). intros t L. rewrite O1. apply AG. lia.
  Qed.
  Lemma lo_with_arg {A} x (k k' : option ptr -> Mem.M C A) :
    (forall p, local (k p) (k' p)) -> local (with_arg x k) (with_arg x k').
  Proof.
    intros K w a w' H. unfold with_arg in *.
    match type of H with match k ?p ?w1 with _ => _ end = _ =>
      destruct (k p w1) as [b w2|] eqn:F; [|discriminate H]; apply K in F end.
    injection H as <- <-. cbn [orc tick] in F. destruct F as (O & T & L). split; [exact O|]. split; [exact T|].
    intros o AG. specialize (L o AG). unfold with_oracle at 1 in L. cbn [heap nextb orc tick dlog checked] in L.
    cbn [heap nextb orc tick dlog checked with_oracle]. rewrite L. reflexivity.
  Qed.
End Basic.

Create HintDb local discriminated.
#[export] Hint Resolve lo_ret lo_fail lo_assert lo_mread lo_mwrite lo_memmove lo_memcpy lo_alloc lo_realloc lo_dealloc
  lo_call_dtor : local.
Ltac lo :=
  lazymatch goal with
  | |- local (bind _ _) _ => apply lo_bind; [lo | intros; lo]
  | |- local (with_arg _ _) _ => apply lo_with_arg; intros; lo
  | |- local (let x := _ in _) _ => cbv zeta; lo
  | |- local (match ?x with _ => _ end) _ => destruct x; lo
  | |- _ => solve [eauto 3 with local]
  end.
(** Unfold a function's definition, then go through its body. *)
Tactic Notation "go" reference(f) := intros; unfold f; lo.


Section Vectors.
  Context {C : Type}.
  Notation vec := (vector C).
  Lemma lo_assert_valid (v : vec) : local (assert_valid v) (assert_valid v).
  Proof. go assert_valid. Qed.
  Hint Resolve lo_assert_valid : local.
  Lemma lo_vreallocate_to (v : vec) c : local (vreallocate_to v c) (vreallocate_to v c).
  Proof. go vreallocate_to. Qed.
  Hint Resolve lo_vreallocate_to : local.
  Lemma lo_vreallocate (v : vec) c : local (vreallocate v c) (vreallocate v c).
  Proof. go vreallocate. Qed.
  Hint Resolve lo_vreallocate : local.
  Lemma lo_vshift_left (v : vec) i n : local (vshift_left v i n) (vshift_left v i n).
  Proof. go vshift_left. Qed.
  Lemma lo_vshift_right (v : vec) i n : local (vshift_right v i n) (vshift_right v i n).
  Proof. go vshift_right. Qed.
  Lemma lo_vinit_ex e c (d : option (list C -> list C)) a g s : local (vinit_ex e c d a g s) (vinit_ex e c d a g s).
  Proof. go vinit_ex. Qed.
  Lemma lo_vinit_custom e b c (d : option (list C -> list C)) : local (vinit_custom e b c d) (vinit_custom e b c d).
  Proof. go vinit_custom. Qed.
  Lemma lo_dtor_loop f (v : vec) n : forall i, local (dtor_loop f v i n) (dtor_loop f v i n).
  Proof. induction n; intros; cbn [dtor_loop]; lo. Qed.
  Hint Resolve lo_vshift_left lo_vshift_right lo_vinit_ex lo_vinit_custom lo_dtor_loop : local.
  Lemma lo_destroy_range (v : vec) i j : local (destroy_range v i j) (destroy_range v i j).
  Proof. go destroy_range. Qed.
  Hint Resolve lo_destroy_range : local.
  Lemma lo_vdestroy (v : vec) : local (vdestroy v) (vdestroy v).
  Proof. go vdestroy. Qed.
  Lemma lo_vduplicate_ex (v : vec) c a g s : local (vduplicate_ex v c a g s) (vduplicate_ex v c a g s).
  Proof. go vduplicate_ex. Qed.
  Lemma lo_vduplicate_custom (v : vec) p c : local (vduplicate_custom v p c) (vduplicate_custom v p c).
  Proof. go vduplicate_custom. Qed.
  Lemma lo_vget (v : vec) i : local (vget v i) (vget v i).
  Proof. go vget. Qed.
  Lemma lo_vget_pointer (v : vec) i : local (vget_pointer v i) (vget_pointer v i).
  Proof. go vget_pointer. Qed.
  Lemma lo_vset (v : vec) i p : local (vset v i p) (vset v i p).
  Proof. go vset. Qed.
  Lemma lo_vgrow (v : vec) n : local (vgrow v n) (vgrow v n).
  Proof. go vgrow. Qed.
  Hint Resolve lo_vget lo_vgrow : local.
  Lemma lo_vpush_back (v : vec) p : local (vpush_back v p) (vpush_back v p).
  Proof. go vpush_back. Qed.
  Lemma lo_vinsert_range (v : vec) i p n : local (vinsert_range v i p n) (vinsert_range v i p n).
  Proof. go vinsert_range. Qed.
  Lemma lo_vemplace_ex (v : vec) i f : local (vemplace_ex v i f) (vemplace_ex v i f).
  Proof. go vemplace_ex. Qed.
  Lemma lo_vswap (v : vec) i j : local (vswap v i j) (vswap v i j).
  Proof. go vswap. Qed.
  Lemma lo_vmaybe_shrink (v : vec) : local (vmaybe_shrink v) (vmaybe_shrink v).
  Proof. go vmaybe_shrink. Qed.
  Hint Resolve lo_vmaybe_shrink : local.
  Lemma lo_vdelete_range (v : vec) i n : local (vdelete_range v i n) (vdelete_range v i n).
  Proof. go vdelete_range. Qed.
  Lemma lo_vpop_back (v : vec) : local (vpop_back v) (vpop_back v).
  Proof. go vpop_back. Qed.
  Lemma lo_init_loop (v : vec) p n : forall i, local (init_loop v i p n) (init_loop v i p n).
  Proof. induction n; intros; cbn [init_loop]; lo. Qed.
  Hint Resolve lo_init_loop : local.
  Lemma lo_vresize_ex (v : vec) n p : local (vresize_ex v n p) (vresize_ex v n p).
  Proof. go vresize_ex. Qed.
  Hint Resolve lo_vresize_ex : local.
  Lemma lo_vresize (v : vec) n : local (vresize v n) (vresize v n).
  Proof. go vresize. Qed.
  Lemma lo_vclear (v : vec) : local (vclear v) (vclear v).
  Proof. go vclear. Qed.
  Lemma lo_vreserve (v : vec) n : local (vreserve v n) (vreserve v n).
  Proof. go vreserve. Qed.
  Lemma lo_vshrink_to_fit (v : vec) : local (vshrink_to_fit v) (vshrink_to_fit v).
  Proof. go vshrink_to_fit. Qed.
  Lemma lo_find_loop (v : vec) p cmp n : forall i, local (find_loop v p cmp i n) (find_loop v p cmp i n).
  Proof. induction n; intros; cbn [find_loop]; lo. Qed.
  Hint Resolve lo_find_loop : local.
  Lemma lo_vfind_ex (v : vec) p cmp i n : local (vfind_ex v p cmp i n) (vfind_ex v p cmp i n).
  Proof. go vfind_ex. Qed.
  Lemma lo_bs_loop (v : vec) p cmp n : forall l h s, local (bs_loop v p cmp l h s n) (bs_loop v p cmp l h s n).
  Proof. induction n; intros; cbn [bs_loop]; lo. Qed.
  Hint Resolve lo_bs_loop : local.
  Lemma lo_vbinary_search_ex (v : vec) p cmp i n : local (vbinary_search_ex v p cmp i n) (vbinary_search_ex v p cmp i n).
  Proof. go vbinary_search_ex. Qed.
  Lemma lo_read_elem (v : vec) i : local (read_elem v i) (read_elem v i).
  Proof. go read_elem. Qed.
  Hint Resolve lo_vget_pointer lo_vset lo_vpush_back lo_vinsert_range lo_vemplace_ex lo_vswap lo_vdelete_range
    lo_vpop_back lo_vresize lo_vclear lo_vreserve lo_vshrink_to_fit : local.
  Lemma lo_run_op (v : vec) o : local (run_op v o) (run_op v o).
  Proof. destruct o; cbn [run_op]; unfold vinsert, vemplace, vdelete; lo. Qed.
  Hint Resolve lo_run_op : local.
  Lemma lo_run_ops ops : forall v : vec, local (run_ops v ops) (run_ops v ops).
  Proof. induction ops; intros; cbn [run_ops]; lo. Qed.
End Vectors.
#[export] Hint Resolve lo_vinit_ex lo_vinit_custom lo_vdestroy lo_vduplicate_ex lo_vduplicate_custom lo_vget lo_vget_pointer lo_vset
  lo_vpush_back lo_vinsert_range lo_vemplace_ex lo_vswap lo_vdelete_range lo_vpop_back lo_vresize_ex lo_vresize lo_vclear lo_vreserve
  lo_vshrink_to_fit lo_vfind_ex lo_vbinary_search_ex lo_read_elem lo_run_ops : local.

(** ** Strings *)
Lemma lo_nullterminate s : local (nullterminate s) (nullterminate s).
Proof. go nullterminate. Qed.
Lemma lo_assert_nullterminated s : local (assert_nullterminated s) (assert_nullterminated s).
Proof.
  intros w a w' H. unfold assert_nullterminated in *. cbn [checked with_oracle]. destruct (checked w).
  - revert H. apply lo_bind; [apply lo_mread|intros x; apply lo_assert].
  - revert H. apply (lo_ret tt).
Qed.
Lemma lo_mstrlen p : local (mstrlen p) (mstrlen p).
Proof.
  apply lo_same; intros w x w'; [|intros o]; unfold mstrlen; (destruct p as [p|]; [|discriminate]); cbn [heap with_oracle];
    (destruct (heap w (pb p)) as [buf|]; [|discriminate]); (destruct (index_of_nul _); [|discriminate]);
    intros H; now injection H as <- <-.
Qed.
Lemma lo_mread1 p : local (mread1 p) (mread1 p).
Proof. go mread1. Qed.
#[export] Hint Resolve lo_nullterminate lo_assert_nullterminated lo_mstrlen lo_mread1 : local.
Lemma lo_sinit_ex c a g t : local (sinit_ex c a g t) (sinit_ex c a g t).
Proof. go sinit_ex. Qed.
Lemma lo_sinit_custom p c : local (sinit_custom p c) (sinit_custom p c).
Proof. go sinit_custom. Qed.
Lemma lo_sdestroy s : local (sdestroy s) (sdestroy s).
Proof. go sdestroy. Qed.
Lemma lo_sduplicate_into n q r : local (sduplicate_into n q r) (sduplicate_into n q r).
Proof. go sduplicate_into. Qed.
Lemma lo_sconcat_into n q1 q2 r : local (sconcat_into n q1 q2 r) (sconcat_into n q1 q2 r).
Proof. go sconcat_into. Qed.
#[export] Hint Resolve lo_sinit_ex lo_sinit_custom lo_sdestroy lo_sduplicate_into lo_sconcat_into : local.
Lemma lo_sduplicate_ex q c a g t : local (sduplicate_ex q c a g t) (sduplicate_ex q c a g t).
Proof. go sduplicate_ex. Qed.
Lemma lo_sduplicate_custom q p c : local (sduplicate_custom q p c) (sduplicate_custom q p c).
Proof. go sduplicate_custom. Qed.
Lemma lo_sconcat_ex q1 q2 c a g t : local (sconcat_ex q1 q2 c a g t) (sconcat_ex q1 q2 c a g t).
Proof. go sconcat_ex. Qed.
Lemma lo_sconcat_custom q1 q2 p c : local (sconcat_custom q1 q2 p c) (sconcat_custom q1 q2 p c).
Proof. go sconcat_custom. Qed.
Lemma lo_view_inside_buffer q p : local (view_inside_buffer q p) (view_inside_buffer q p).
Proof. go view_inside_buffer. Qed.
Lemma lo_view_get_size q : local (view_get_size q) (view_get_size q).
Proof. go view_get_size. Qed.
Lemma lo_sget_char s i : local (sget_char s i) (sget_char s i).
Proof. go sget_char. Qed.
Lemma lo_sset_char s i p : local (sset_char s i p) (sset_char s i p).
Proof. go sset_char. Qed.
Lemma lo_sappend s q : local (sappend s q) (sappend s q).
Proof. go sappend. Qed.
Lemma lo_sappend_ex s q i n : local (sappend_ex s q i n) (sappend_ex s q i n).
Proof. go sappend_ex. Qed.
#[export] Hint Resolve lo_sset_char lo_sappend lo_sappend_ex : local.
Lemma lo_sinsert s i q : local (sinsert s i q) (sinsert s i q).
Proof. go sinsert. Qed.
Lemma lo_sinsert_ex s i q j n : local (sinsert_ex s i q j n) (sinsert_ex s i q j n).
Proof. go sinsert_ex. Qed.
Lemma lo_sdelete s i n : local (sdelete s i n) (sdelete s i n).
Proof. go sdelete. Qed.
Lemma lo_struncate s i : local (struncate s i) (struncate s i).
Proof. go struncate. Qed.
Lemma lo_sclear s : local (sclear s) (sclear s).
Proof. go sclear. Qed.
Lemma lo_lpos_inner eqc h n l k : forall a b, local (lpos_inner eqc h n l a b k) (lpos_inner eqc h n l a b k).
Proof. induction k; intros; cbn [lpos_inner]; lo. Qed.
#[export] Hint Resolve lo_sinsert lo_sinsert_ex lo_sdelete lo_struncate lo_sclear lo_lpos_inner : local.
Lemma lo_lpos_outer eqc h n l k : forall i, local (lpos_outer eqc h n l i k) (lpos_outer eqc h n l i k).
Proof. induction k; intros; cbn [lpos_outer]; lo. Qed.
#[export] Hint Resolve lo_lpos_outer : local.
Lemma lo_slpos_ex eqc h n i k : local (slpos_ex eqc h n i k) (slpos_ex eqc h n i k).
Proof. go slpos_ex. Qed.
Lemma lo_rpos_inner eqc h n l k : forall a b, local (rpos_inner eqc h n l a b k) (rpos_inner eqc h n l a b k).
Proof. induction k; intros; cbn [rpos_inner]; lo. Qed.
#[export] Hint Resolve lo_rpos_inner : local.
Lemma lo_rpos_outer eqc h n l k : forall i, local (rpos_outer eqc h n l i k) (rpos_outer eqc h n l i k).
Proof. induction k; intros; cbn [rpos_outer]; lo. Qed.
#[export] Hint Resolve lo_rpos_outer : local.
Lemma lo_srpos_ex eqc h n i k : local (srpos_ex eqc h n i k) (srpos_ex eqc h n i k).
Proof. go srpos_ex. Qed.
Lemma lo_compare_loop eqc s1 s2 k : forall i, local (compare_loop eqc s1 s2 i k) (compare_loop eqc s1 s2 i k).
Proof. induction k; intros; cbn [compare_loop]; lo. Qed.
#[export] Hint Resolve lo_compare_loop : local.
Lemma lo_scompare eqc s1 s2 : local (scompare eqc s1 s2) (scompare eqc s1 s2).
Proof. go scompare. Qed.
Lemma lo_case_loop f s n : forall i, local (case_loop f s i n) (case_loop f s i n).
Proof. induction n; intros; cbn [case_loop]; lo. Qed.
#[export] Hint Resolve lo_case_loop : local.
Lemma lo_scase_ex f s i n : local (scase_ex f s i n) (scase_ex f s i n).
Proof. go scase_ex. Qed.
Lemma lo_sresize s n : local (sresize s n) (sresize s n).
Proof. go sresize. Qed.
Lemma lo_sreserve s n : local (sreserve s n) (sreserve s n).
Proof. go sreserve. Qed.
Lemma lo_sshrink_to_fit s : local (sshrink_to_fit s) (sshrink_to_fit s).
Proof. go sshrink_to_fit. Qed.
Lemma lo_sget_capacity s : local (sget_capacity s) (sget_capacity s).
Proof. go sget_capacity. Qed.
Lemma lo_sget_size s : local (sget_size s) (sget_size s).
Proof. go sget_size. Qed.
#[export] Hint Resolve lo_scase_ex lo_sresize lo_sreserve lo_sshrink_to_fit : local.
Lemma lo_with_view {A} x (k : view -> Mem.M N A) : (forall q, local (k q) (k q)) -> local (with_view x k) (with_view x k).
Proof. intros H. apply lo_with_arg. intros p. apply H. Qed.
Ltac lo ::=
  lazymatch goal with
  | |- local (bind _ _) _ => apply lo_bind; [lo | intros; lo]
  | |- local (with_arg _ _) _ => apply lo_with_arg; intros; lo
  | |- local (with_view _ _) _ => apply lo_with_view; intros; lo
  | |- local (let x := _ in _) _ => cbv zeta; lo
  | |- local (match ?x with _ => _ end) _ => destruct x; lo
  | |- _ => solve [eauto 3 with local]
  end.
Lemma lo_run_sop s o : local (run_sop s o) (run_sop s o).
Proof. destruct o; cbn [run_sop]; unfold scase; lo. Qed.
#[export] Hint Resolve lo_run_sop : local.
Lemma lo_run_sops ops : forall s, local (run_sops s ops) (run_sops s ops).
Proof. induction ops; intros; cbn [run_sops]; lo. Qed.

(** ** Number formatting *)
Lemma lo_dec_push m d buf : local (dec_push m d buf) (dec_push m d buf).
Proof. go dec_push. Qed.
#[export] Hint Resolve lo_dec_push : local.
Lemma lo_dec_loop k m : forall v buf, local (dec_loop k m v buf) (dec_loop k m v buf).
Proof. induction k; intros; cbn [dec_loop]; lo. Qed.
#[export] Hint Resolve lo_dec_loop : local.
Lemma lo_sappend_dec m s v n : local (sappend_dec m s v n) (sappend_dec m s v n).
Proof. go sappend_dec. Qed.
Lemma lo_hex_char u v : local (hex_char u v) (hex_char u v).
Proof. go hex_char. Qed.
#[export] Hint Resolve lo_sappend_dec lo_hex_char : local.
Lemma lo_hex_loop k v p u l r : forall s n b, local (hex_loop k v p u l r s n b) (hex_loop k v p u l r s n b).
Proof. induction k; intros; cbn [hex_loop]; lo. Qed.
#[export] Hint Resolve lo_hex_loop : local.
Lemma lo_sappend_hex k s v p u : local (sappend_hex k s v p u) (sappend_hex k s v p u).
Proof. go sappend_hex. Qed.
#[export] Hint Resolve lo_sappend_hex : local.
Lemma lo_sappend_decu b s v p : local (sappend_decu b s v p) (sappend_decu b s v p).
Proof. go sappend_decu. Qed.
Lemma lo_sappend_hexu b s v p u : local (sappend_hexu b s v p u) (sappend_hexu b s v p u).
Proof. intros; unfold sappend_hexu, sappend_hex64; lo. Qed.
#[export] Hint Resolve lo_sappend_decu lo_sappend_hexu : local.
Lemma lo_sappend_signed q1 q2 s v f p k : (forall s n, local (k s n) (k s n)) ->
  local (sappend_signed q1 q2 s v f p k) (sappend_signed q1 q2 s v f p k).
Proof. go sappend_signed. Qed.
Lemma lo_sappend_decs b q1 q2 s v n f p : local (sappend_decs b q1 q2 s v n f p) (sappend_decs b q1 q2 s v n f p).
Proof. apply lo_sappend_signed. intros. lo. Qed.
Lemma lo_sappend_hexs b q1 q2 s v n u f p : local (sappend_hexs b q1 q2 s v n u f p) (sappend_hexs b q1 q2 s v n u f p).
Proof. apply lo_sappend_signed. intros. lo. Qed.
#[export] Hint Resolve lo_sappend_decs lo_sappend_hexs : local.
Lemma lo_run_fop b s o : local (run_fop b s o) (run_fop b s o).
Proof. destruct o; cbn [run_fop]; unfold with_signs, with_prefix; lo. Qed.
#[export] Hint Resolve lo_run_fop : local.
Lemma lo_run_fops b ops : forall s, local (run_fops b s ops) (run_fops b s ops).
Proof. induction ops; intros; cbn [run_fops]; lo. Qed.
Lemma lo_vsnprintf f p n : local (vsnprintf f p n) (vsnprintf f p n).
Proof. go vsnprintf. Qed.
#[export] Hint Resolve lo_vsnprintf : local.
Lemma lo_sappend_format f1 f2 s : local (sappend_format f1 f2 s) (sappend_format f1 f2 s).
Proof. go sappend_format. Qed.

(** ** Bitsets *)
Lemma lo_init_elements z n : forall v, local (init_elements v z n) (init_elements v z n).
Proof. induction n; intros; cbn [init_elements]; lo. Qed.
#[export] Hint Resolve lo_init_elements : local.
Lemma lo_bs_init_ex z n a g s : local (bs_init_ex z n a g s) (bs_init_ex z n a g s).
Proof. go bs_init_ex. Qed.
Lemma lo_bs_init_buffer z n p c : local (bs_init_buffer z n p c) (bs_init_buffer z n p c).
Proof. go bs_init_buffer. Qed.
Lemma lo_bs_destroy b : local (bs_destroy b) (bs_destroy b).
Proof. go bs_destroy. Qed.
Lemma lo_byte_op_loop op d s n : forall i, local (byte_op_loop op d s i n) (byte_op_loop op d s i n).
Proof. induction n; intros; cbn [byte_op_loop]; lo. Qed.
Lemma lo_each_byte f b n : forall i, local (each_byte f b i n) (each_byte f b i n).
Proof. induction n; intros; cbn [each_byte]; lo. Qed.
Lemma lo_bs_change f b i : local (bs_change f b i) (bs_change f b i).
Proof. go bs_change. Qed.
Lemma lo_bs_test b i : local (bs_test b i) (bs_test b i).
Proof. go bs_test. Qed.
#[export] Hint Resolve lo_bs_change lo_each_byte lo_byte_op_loop : local.
Lemma lo_bs_assign b i v : local (bs_assign b i v) (bs_assign b i v).
Proof. unfold bs_assign, bs_set, bs_reset. lo. Qed.
#[export] Hint Resolve lo_bs_assign : local.
Lemma lo_bs_push z b v : local (bs_push z b v) (bs_push z b v).
Proof. go bs_push. Qed.
Lemma lo_bs_pop b : local (bs_pop b) (bs_pop b).
Proof. go bs_pop. Qed.
Lemma lo_bs_clear b : local (bs_clear b) (bs_clear b).
Proof. go bs_clear. Qed.
Lemma lo_bs_reserve b n : local (bs_reserve b n) (bs_reserve b n).
Proof. go bs_reserve. Qed.
Lemma lo_bs_shrink_to_fit b : local (bs_shrink_to_fit b) (bs_shrink_to_fit b).
Proof. go bs_shrink_to_fit. Qed.
#[export] Hint Resolve lo_bs_push lo_bs_pop lo_bs_clear lo_bs_reserve lo_bs_shrink_to_fit : local.
Lemma lo_count_loop b n : forall i c, local (count_loop b i c n) (count_loop b i c n).
Proof. induction n; intros; cbn [count_loop]; lo. Qed.
Lemma lo_scan_loop h y x b n : forall i, local (scan_loop h y x b i n) (scan_loop h y x b i n).
Proof. induction n; intros; cbn [scan_loop]; lo. Qed.
#[export] Hint Resolve lo_count_loop lo_scan_loop : local.
Lemma lo_bs_count b : local (bs_count b) (bs_count b).
Proof. go bs_count. Qed.
Lemma lo_run_bitop b o : local (run_bitop b o) (run_bitop b o).
Proof.
  destruct o; cbn [run_bitop]; unfold keep, with_zero, bs_set, bs_reset, bs_toggle, bs_set_all, bs_reset_all, bs_flip, bs_each; lo.
Qed.
#[export] Hint Resolve lo_run_bitop : local.
Lemma lo_run_bitops ops : forall b, local (run_bitops b ops) (run_bitops b ops).
Proof. induction ops; intros; cbn [run_bitops]; lo. Qed.

(** ** Lists *)
Lemma lo_load_ptr p : local (load_ptr p) (load_ptr p).
Proof. go load_ptr. Qed.
Lemma lo_store_ptr p q : local (store_ptr p q) (store_ptr p q).
Proof. go store_ptr. Qed.
#[export] Hint Resolve lo_load_ptr lo_store_ptr : local.
Lemma lo_get_prev p : local (get_prev p) (get_prev p).
Proof. go get_prev. Qed.
Lemma lo_get_next p : local (get_next p) (get_next p).
Proof. go get_next. Qed.
Lemma lo_set_prev p q : local (set_prev p q) (set_prev p q).
Proof. go set_prev. Qed.
Lemma lo_set_next p q : local (set_next p q) (set_next p q).
Proof. go set_next. Qed.
#[export] Hint Resolve lo_get_prev lo_get_next lo_set_prev lo_set_next : local.
Lemma lo_lalloc_node l : local (lalloc_node l) (lalloc_node l).
Proof. go lalloc_node. Qed.
Lemma lo_ldealloc_node l p : local (ldealloc_node l p) (ldealloc_node l p).
Proof. go ldealloc_node. Qed.
Lemma lo_destroy_node l p : local (destroy_node l p) (destroy_node l p).
Proof. go destroy_node. Qed.
#[export] Hint Resolve lo_lalloc_node lo_ldealloc_node lo_destroy_node : local.
Lemma lo_linit_ex e d a : local (linit_ex e d a) (linit_ex e d a).
Proof. go linit_ex. Qed.
Lemma lo_linit_custom e d p c : local (linit_custom e d p c) (linit_custom e d p c).
Proof. go linit_custom. Qed.
Lemma lo_destroy_loop l k : forall p, local (destroy_loop l p k) (destroy_loop l p k).
Proof. induction k; intros p; destruct p; cbn [destroy_loop]; lo. Qed.
#[export] Hint Resolve lo_destroy_loop : local.
Lemma lo_destroy_all l : local (destroy_all l) (destroy_all l).
Proof. unfold destroy_all. apply lo_destroy_loop. Qed.
#[export] Hint Resolve lo_destroy_all : local.
Lemma lo_ldestroy l : local (ldestroy l) (ldestroy l).
Proof. go ldestroy. Qed.
Lemma lo_lget_prev_node p : local (lget_prev_node p) (lget_prev_node p).
Proof. go lget_prev_node. Qed.
Lemma lo_lget_next_node p : local (lget_next_node p) (lget_next_node p).
Proof. go lget_next_node. Qed.
Lemma lo_lset_node_data l p q : local (lset_node_data l p q) (lset_node_data l p q).
Proof. go lset_node_data. Qed.
Lemma lo_link_back l p : local (link_back l p) (link_back l p).
Proof. go link_back. Qed.
Lemma lo_link_front l p : local (link_front l p) (link_front l p).
Proof. go link_front. Qed.
Lemma lo_call_ctor f p e : local (call_ctor f p e) (call_ctor f p e).
Proof. go call_ctor. Qed.
#[export] Hint Resolve lo_lget_prev_node lo_lget_next_node lo_lset_node_data lo_link_back lo_link_front lo_call_ctor : local.
Lemma lo_lpush_back l p : local (lpush_back l p) (lpush_back l p).
Proof. go lpush_back. Qed.
Lemma lo_lpush_front l p : local (lpush_front l p) (lpush_front l p).
Proof. go lpush_front. Qed.
Lemma lo_lemplace_back l f : local (lemplace_back l f) (lemplace_back l f).
Proof. go lemplace_back. Qed.
Lemma lo_lemplace_front l f : local (lemplace_front l f) (lemplace_front l f).
Proof. go lemplace_front. Qed.
Lemma lo_lpop_back l : local (lpop_back l) (lpop_back l).
Proof. go lpop_back. Qed.
Lemma lo_lpop_front l : local (lpop_front l) (lpop_front l).
Proof. go lpop_front. Qed.
Lemma lo_grow_loop p n : forall l, local (grow_loop l p n) (grow_loop l p n).
Proof. induction n; intros; cbn [grow_loop]; lo. Qed.
Lemma lo_shrink_loop n : forall l, local (shrink_loop l n) (shrink_loop l n).
Proof. induction n; intros; cbn [shrink_loop]; lo. Qed.
#[export] Hint Resolve lo_grow_loop lo_shrink_loop : local.
Lemma lo_lresize_ex l n p : local (lresize_ex l n p) (lresize_ex l n p).
Proof. go lresize_ex. Qed.
#[export] Hint Resolve lo_lpush_back lo_lpush_front lo_lemplace_back lo_lemplace_front lo_lpop_back lo_lpop_front lo_lresize_ex : local.
Lemma lo_walk n : forall p, local (walk p n) (walk p n).
Proof. induction n; intros; cbn [walk]; lo. Qed.
#[export] Hint Resolve lo_walk : local.
Lemma lo_run_lop l o : local (run_lop l o) (run_lop l o).
Proof. destruct o; cbn [run_lop]; unfold after_emplace, store_item, lclear, with_opt, nth_node; lo. Qed.
#[export] Hint Resolve lo_run_lop : local.
Lemma lo_run_lops ops : forall l, local (run_lops l ops) (run_lops l ops).
Proof. induction ops; intros; cbn [run_lops]; lo. Qed.

(** ** The argument parser *)
Lemma lo_load_word p : local (load_word p) (load_word p).
Proof. go load_word. Qed.
Lemma lo_load_byte p : local (load_byte p) (load_byte p).
Proof. go load_byte. Qed.
#[export] Hint Resolve lo_load_word lo_load_byte : local.
Lemma lo_load_def p : local (load_def p) (load_def p).
Proof. go load_def. Qed.
#[export] Hint Resolve lo_load_def : local.
Section Arg.
  Variables (tw : world N) (cfg : aconfig).
  Lemma lo_text {A} (m : Mem.M N A) : local (text tw m) (text tw m).
  Proof.
    apply lo_same; intros w x w'; [|intros o]; unfold text; (destruct (m tw); [|discriminate]);
      intros H; now injection H as <- <-.
  Qed.
  Lemma lo_char_at p i : local (char_at tw p i) (char_at tw p i).
  Proof. apply lo_text. Qed.
  Lemma lo_astrlen p : local (astrlen tw p) (astrlen tw p).
  Proof. apply lo_text. Qed.
  Lemma lo_astreq p q : local (astreq tw p q) (astreq tw p q).
  Proof. apply lo_text. Qed.
  Hint Resolve lo_char_at lo_astrlen lo_astreq : local.
  Lemma lo_aview q p : local (aview_inside_buffer tw q p) (aview_inside_buffer tw q p).
  Proof. unfold aview_inside_buffer, store_word. lo. Qed.
  Hint Resolve lo_aview : local.
  Lemma lo_check_defs ds : local (check_defs tw ds) (check_defs tw ds).
  Proof. induction ds; cbn [check_defs]; lo. Qed.
  Lemma lo_find_long ds p : forall k, local (find_long tw ds k p) (find_long tw ds k p).
  Proof. induction ds; intros; cbn [find_long]; lo. Qed.
  Lemma lo_find_short ds c : forall k, local (find_short tw ds k c) (find_short tw ds k c).
  Proof. induction ds; intros; cbn [find_short]; lo. Qed.
  Lemma lo_new_arg v : local (new_arg v) (new_arg v).
  Proof. unfold new_arg, vemplace. lo. Qed.
  Lemma lo_put_def p f : local (put_def p f) (put_def p f).
  Proof. unfold put_def, store_def, store_word. lo. Qed.
  Lemma lo_is_boolean d : local (is_boolean cfg d) (is_boolean cfg d).
  Proof. go is_boolean. Qed.
  Lemma lo_put_value p q : local (put_value tw p q) (put_value tw p q).
  Proof. unfold put_value, store_has_value. lo. Qed.
  Lemma lo_argv_at i : local (argv_at cfg i) (argv_at cfg i).
  Proof. go argv_at. Qed.
  Hint Resolve lo_check_defs lo_find_long lo_find_short lo_new_arg lo_put_def lo_is_boolean lo_put_value lo_argv_at : local.
  Lemma lo_next_value i v u c p : local (next_value tw cfg i v u c p) (next_value tw cfg i v u c p).
  Proof. go next_value. Qed.
  Hint Resolve lo_next_value : local.
  Lemma lo_long_arg i v u c : local (long_arg tw cfg i v u c) (long_arg tw cfg i v u c).
  Proof. go long_arg. Qed.
  Lemma lo_short_loop i u c k : forall v r, local (short_loop tw cfg i v u c r k) (short_loop tw cfg i v u c r k).
  Proof. induction k; intros; cbn [short_loop]; lo. Qed.
  Lemma lo_unnamed_arg i v a u c : local (unnamed_arg tw cfg i v a u c) (unnamed_arg tw cfg i v a u c).
  Proof. go unnamed_arg. Qed.
  Lemma lo_text_read p n : local (text tw (mread p n)) (text tw (mread p n)).
  Proof. apply lo_text. Qed.
  Hint Resolve lo_long_arg lo_short_loop lo_unnamed_arg lo_text_read : local.
  Lemma lo_main_step i v a u : local (main_step tw cfg i v a u) (main_step tw cfg i v a u).
  Proof. go main_step. Qed.
  Hint Resolve lo_main_step : local.
  Lemma lo_main_loop k : forall i v a u, local (main_loop tw cfg i v a u k) (main_loop tw cfg i v a u k).
  Proof. induction k; intros; cbn [main_loop]; lo. Qed.
  Lemma lo_find_parsed v d n : forall i, local (find_parsed v d i n) (find_parsed v d i n).
  Proof. induction n; intros; cbn [find_parsed]; lo. Qed.
  Hint Resolve lo_main_loop lo_find_parsed : local.
  Lemma lo_check_required v ds : forall k, local (check_required v ds k) (check_required v ds k).
  Proof. induction ds; intros; cbn [check_required]; lo. Qed.
  Hint Resolve lo_check_required : local.
  Lemma lo_failure e t v : local (failure e t v) (failure e t v).
  Proof. go failure. Qed.
  Hint Resolve lo_failure : local.
  Lemma lo_leave_by s : local (leave_by s) (leave_by s).
  Proof. go leave_by. Qed.
  Hint Resolve lo_leave_by : local.
  Lemma lo_argparse_ex a : local (argparse_ex tw cfg a) (argparse_ex tw cfg a).
  Proof. go argparse_ex. Qed.
End Arg.

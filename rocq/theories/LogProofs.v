(** Strings and bitsets never call a destructor. *)
From Coq Require Import ZifyBool ZifyNat ZifyN.
From Verif Require Import Base Status Mem VectorModel VectorSpec VectorDriver StringModel StringSpec StringDriver
  BitsetModel BitsetSpec BitsetDriver.

(** The value mentions no vector with a destructor. *)
Class Bare (A : Type) := bare : A -> Prop.
#[export] Instance bare_vec : Bare (vector N) := fun v => v_dtor v = None.
#[export] Instance bare_str : Bare str := fun s => v_dtor (s_vec s) = None.
#[export] Instance bare_bitset : Bare bitset := fun b => v_dtor (bs_bits b) = None.
#[export] Instance bare_pair {A B} {a : Bare A} {b : Bare B} : Bare (A * B) := fun p => bare (fst p) /\ bare (snd p).
#[export] Instance bare_option {A} {a : Bare A} : Bare (option A) := fun o => match o with Some x => bare x | None => True end.
#[export] Instance bare_unit : Bare unit := fun _ => True.
#[export] Instance bare_N : Bare N := fun _ => True.
#[export] Instance bare_bool : Bare bool := fun _ => True.
#[export] Instance bare_ptr : Bare ptr := fun _ => True.
#[export] Instance bare_optptr : Bare (option ptr) := fun _ => True.
#[export] Instance bare_list : Bare (list N) := fun _ => True.

(** [m] makes no destructor call. *)
Definition silent {A} {b : Bare A} (m : Mem.M N A) : Prop :=
  forall w a w', m w = Ok a w' -> dlog w' = dlog w /\ bare a.

Ltac bare :=
  repeat match goal with o : option (vector N) |- _ => destruct o end;
  cbv [bare bare_vec bare_str bare_bitset bare_pair bare_option bare_unit bare_N bare_bool bare_ptr bare_optptr bare_list] in *;
  cbn in *; intuition (assumption || congruence).

Lemma si_ret {A} {b : Bare A} (a : A) : bare a -> silent (ret a).
Proof. intros B w x w' H. injection H as <- <-. now split. Qed.
Lemma si_fail {A} {b : Bare A} f : silent (fail f : Mem.M N A).
Proof. intros w x w' H. discriminate H. Qed.
Lemma si_bind {A B} {a : Bare A} {b : Bare B} (m : Mem.M N A) (k : A -> Mem.M N B) :
  silent m -> (forall x, bare x -> silent (k x)) -> silent (bind m k).
Proof.
  intros H K w y w2 E. unfold bind in E. destruct (m w) as [x w1|] eqn:F; [|discriminate E].
  destruct (H _ _ _ F) as (D1 & B1). destruct (K _ B1 _ _ _ E) as (D2 & B2). split; [congruence|exact B2].
Qed.
Lemma si_assert x : silent (@assert N x).
Proof.
  unfold assert. destruct x; [now apply si_ret|]. intros w a w' H. destruct (checked w); [discriminate H|].
  injection H as <- <-. now split.
Qed.
Lemma si_mread p n : silent (@mread N p n).
Proof.
  intros w a w' H. unfold mread in H. destruct p as [p|]; [|discriminate H].
  destruct (heap w (pb p)); [|discriminate H]. destruct (_ <=? _); [|discriminate H]. injection H as <- <-. now split.
Qed.
Lemma si_mwrite p x : silent (@mwrite N p x).
Proof.
  intros w a w' H. unfold mwrite in H. destruct p as [p|]; [|discriminate H].
  destruct (heap w (pb p)); [|discriminate H]. destruct (_ <=? _); [|discriminate H]. injection H as <- <-. now split.
Qed.
Lemma si_memmove d s n : silent (@memmove N d s n).
Proof. apply si_bind; [apply si_mread|intros; apply si_mwrite]. Qed.
Lemma si_memcpy d s n : silent (@memcpy N d s n).
Proof. unfold memcpy. destruct (overlap d s n); [apply si_fail|apply si_memmove]. Qed.
Lemma si_alloc e n : silent (@alloc N e n).
Proof.
  intros w a w' H. unfold alloc in H. destruct (_ && _); [discriminate H|].
  destruct (orc w (tick w)); injection H as <- <-; now repeat split.
Qed.
Lemma si_realloc p e n : silent (@realloc N p e n).
Proof.
  intros w a w' H. unfold realloc in H. destruct (_ && _); [discriminate H|]. destruct p as [q|]; [|discriminate H].
  destruct (heap w (pb q)); [|discriminate H]. destruct (negb _); [discriminate H|].
  destruct (orc w (tick w)); injection H as <- <-; now repeat split.
Qed.
Lemma si_dealloc p e n : silent (@dealloc N p e n).
Proof.
  intros w a w' H. unfold dealloc in H. destruct (_ && _); [discriminate H|]. destruct p as [q|].
  - destruct (heap w (pb q)); [|discriminate H]. destruct (negb _); [discriminate H|]. injection H as <- <-. now split.
  - destruct (checked w); [discriminate H|]. injection H as <- <-. now split.
Qed.
Lemma si_with_arg {A} {b : Bare A} x (k : option ptr -> Mem.M N A) : (forall p, silent (k p)) -> silent (with_arg x k).
Proof.
  intros K w a w' H. unfold with_arg in H.
  match type of H with match k ?p ?w1 with _ => _ end = _ => destruct (k p w1) as [y w2|] eqn:F; [|discriminate H]; apply K in F end.
  injection H as <- <-. exact F.
Qed.

Create HintDb silent discriminated.
#[export] Hint Resolve si_fail si_assert si_mread si_mwrite si_memmove si_memcpy si_alloc si_realloc si_dealloc : silent.
#[export] Hint Extern 1 (bare _) => solve [bare] : silent.
Ltac si :=
  lazymatch goal with
  | |- silent (bind _ _) => eapply si_bind; [si | intros ? ?; si]
  | |- silent (with_arg _ _) => apply si_with_arg; intros; si
  | |- silent (let x := _ in _) => cbv zeta; si
  | |- silent (match v_dtor ?v with _ => _ end) =>
      let H := fresh in assert (H : v_dtor v = None) by (solve [bare]); rewrite H; si
  | |- silent (match ?x with _ => _ end) => destruct x; si
  | |- silent (ret _) => apply si_ret; solve [bare]
  | |- _ => solve [eauto 3 with silent]
  end.
Tactic Notation "go" reference(f) := intros; unfold f; si.

Notation vec := (vector N).
Lemma si_assert_valid (v : vec) : silent (assert_valid v).
Proof. go assert_valid. Qed.
#[export] Hint Resolve si_assert_valid : silent.
Lemma si_vreallocate_to (v : vec) c : bare v -> silent (vreallocate_to v c).
Proof. go vreallocate_to. Qed.
#[export] Hint Resolve si_vreallocate_to : silent.
Lemma si_vreallocate (v : vec) c : bare v -> silent (vreallocate v c).
Proof. go vreallocate. Qed.
#[export] Hint Resolve si_vreallocate : silent.
Lemma si_vshift_left (v : vec) i n : silent (vshift_left v i n).
Proof. go vshift_left. Qed.
Lemma si_vshift_right (v : vec) i n : silent (vshift_right v i n).
Proof. go vshift_right. Qed.
Lemma si_vinit_ex e c a g s : silent (@vinit_ex N e c None a g s).
Proof. go vinit_ex. Qed.
#[export] Hint Resolve si_vshift_left si_vshift_right si_vinit_ex : silent.
Lemma si_destroy_range (v : vec) i j : bare v -> silent (destroy_range v i j).
Proof. go destroy_range. Qed.
#[export] Hint Resolve si_destroy_range : silent.
Lemma si_vdestroy (v : vec) : bare v -> silent (vdestroy v).
Proof. go vdestroy. Qed.
Lemma si_vget_pointer (v : vec) i : silent (vget_pointer v i).
Proof. go vget_pointer. Qed.
Lemma si_vset (v : vec) i p : bare v -> silent (vset v i p).
Proof. go vset. Qed.
Lemma si_vgrow (v : vec) n : bare v -> silent (vgrow v n).
Proof. go vgrow. Qed.
#[export] Hint Resolve si_vdestroy si_vget_pointer si_vset si_vgrow : silent.
Lemma si_vpush_back (v : vec) p : bare v -> silent (vpush_back v p).
Proof. go vpush_back. Qed.
Lemma si_vinsert_range (v : vec) i p n : bare v -> silent (vinsert_range v i p n).
Proof. go vinsert_range. Qed.
Lemma si_vmaybe_shrink (v : vec) : bare v -> silent (vmaybe_shrink v).
Proof. go vmaybe_shrink. Qed.
#[export] Hint Resolve si_vpush_back si_vinsert_range si_vmaybe_shrink : silent.
Lemma si_vdelete_range (v : vec) i n : bare v -> silent (vdelete_range v i n).
Proof. go vdelete_range. Qed.
Lemma si_vpop_back (v : vec) : bare v -> silent (vpop_back v).
Proof. go vpop_back. Qed.
Lemma si_init_loop (v : vec) p n : forall i, silent (init_loop v i p n).
Proof. induction n; intros; cbn [init_loop]; si. Qed.
#[export] Hint Resolve si_vdelete_range si_vpop_back si_init_loop : silent.
Lemma si_vresize_ex (v : vec) n p : bare v -> silent (vresize_ex v n p).
Proof. go vresize_ex. Qed.
#[export] Hint Resolve si_vresize_ex : silent.
Lemma si_vresize (v : vec) n : bare v -> silent (vresize v n).
Proof. go vresize. Qed.
Lemma si_vclear (v : vec) : bare v -> silent (vclear v).
Proof. go vclear. Qed.
Lemma si_vreserve (v : vec) n : bare v -> silent (vreserve v n).
Proof. go vreserve. Qed.
Lemma si_vshrink_to_fit (v : vec) : bare v -> silent (vshrink_to_fit v).
Proof. go vshrink_to_fit. Qed.
#[export] Hint Resolve si_vresize si_vclear si_vreserve si_vshrink_to_fit : silent.

(** ** Strings *)
Lemma si_nullterminate s : silent (nullterminate s).
Proof. go nullterminate. Qed.
Lemma si_assert_nullterminated s : silent (assert_nullterminated s).
Proof.
  intros w a w' H. unfold assert_nullterminated in H. destruct (checked w).
  - revert H. apply (si_bind (mread _ 1) (fun x => assert _)); [apply si_mread|intros; apply si_assert].
  - injection H as <- <-. now split.
Qed.
Lemma si_mread1 p : silent (mread1 p).
Proof. go mread1. Qed.
#[export] Hint Resolve si_nullterminate si_assert_nullterminated si_mread1 : silent.
Lemma si_sinit_ex c a g t : silent (sinit_ex c a g t).
Proof. go sinit_ex. Qed.
Lemma si_sdestroy s : bare s -> silent (sdestroy s).
Proof. go sdestroy. Qed.
Lemma si_sset_char s i p : bare s -> silent (sset_char s i p).
Proof. go sset_char. Qed.
Lemma si_sappend s q : bare s -> silent (sappend s q).
Proof. go sappend. Qed.
Lemma si_sappend_ex s q i n : bare s -> silent (sappend_ex s q i n).
Proof. go sappend_ex. Qed.
#[export] Hint Resolve si_sset_char si_sappend si_sappend_ex : silent.
Lemma si_sinsert s i q : bare s -> silent (sinsert s i q).
Proof. go sinsert. Qed.
Lemma si_sinsert_ex s i q j n : bare s -> silent (sinsert_ex s i q j n).
Proof. go sinsert_ex. Qed.
Lemma si_sdelete s i n : bare s -> silent (sdelete s i n).
Proof. go sdelete. Qed.
Lemma si_struncate s i : bare s -> silent (struncate s i).
Proof. go struncate. Qed.
Lemma si_sclear s : bare s -> silent (sclear s).
Proof. go sclear. Qed.
Lemma si_case_loop f s n : forall i, silent (case_loop f s i n).
Proof. induction n; intros; cbn [case_loop]; si. Qed.
#[export] Hint Resolve si_sinsert si_sinsert_ex si_sdelete si_struncate si_sclear si_case_loop : silent.
Lemma si_scase_ex f s i n : bare s -> silent (scase_ex f s i n).
Proof. go scase_ex. Qed.
Lemma si_sresize s n : bare s -> silent (sresize s n).
Proof. go sresize. Qed.
Lemma si_sreserve s n : bare s -> silent (sreserve s n).
Proof. go sreserve. Qed.
Lemma si_sshrink_to_fit s : bare s -> silent (sshrink_to_fit s).
Proof. go sshrink_to_fit. Qed.
#[export] Hint Resolve si_scase_ex si_sresize si_sreserve si_sshrink_to_fit : silent.
Lemma si_run_sop s o : bare s -> silent (run_sop s o).
Proof. intros B. destruct o; cbn [run_sop]; unfold with_view, scase; si. Qed.

(** ** Bitsets *)
Lemma si_init_elements z n : forall v, bare v -> silent (init_elements v z n).
Proof. induction n; intros; cbn [init_elements]; si. Qed.
#[export] Hint Resolve si_init_elements : silent.
Lemma si_bs_init_ex z n a g s : silent (bs_init_ex z n a g s).
Proof. go bs_init_ex. Qed.
Lemma si_bs_destroy b : bare b -> silent (bs_destroy b).
Proof. go bs_destroy. Qed.
Lemma si_byte_op_loop op d s n : forall i, silent (byte_op_loop op d s i n).
Proof. induction n; intros; cbn [byte_op_loop]; si. Qed.
Lemma si_each_byte f b n : forall i, silent (each_byte f b i n).
Proof. induction n; intros; cbn [each_byte]; si. Qed.
Lemma si_bs_change f b i : silent (bs_change f b i).
Proof. go bs_change. Qed.
#[export] Hint Resolve si_bs_change si_each_byte si_byte_op_loop : silent.
Lemma si_bs_assign b i v : silent (bs_assign b i v).
Proof. unfold bs_assign, bs_set, bs_reset. si. Qed.
#[export] Hint Resolve si_bs_assign : silent.
Lemma si_bs_push z b v : bare b -> silent (bs_push z b v).
Proof. go bs_push. Qed.
Lemma si_bs_pop b : bare b -> silent (bs_pop b).
Proof. go bs_pop. Qed.
Lemma si_bs_clear b : bare b -> silent (bs_clear b).
Proof. go bs_clear. Qed.
Lemma si_bs_reserve b n : bare b -> silent (bs_reserve b n).
Proof. go bs_reserve. Qed.
Lemma si_bs_shrink_to_fit b : bare b -> silent (bs_shrink_to_fit b).
Proof. go bs_shrink_to_fit. Qed.
#[export] Hint Resolve si_bs_push si_bs_pop si_bs_clear si_bs_reserve si_bs_shrink_to_fit : silent.
Lemma si_run_bitop b o : bare b -> silent (run_bitop b o).
Proof.
  intros B. destruct o; cbn [run_bitop];
    unfold with_zero, keep, bs_set, bs_reset, bs_toggle, bs_set_all, bs_reset_all, bs_flip, bs_each; si.
Qed.

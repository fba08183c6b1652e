(** The calls of a client whose elements own memory do not change the shrink threshold. *)
From Verif Require Import Base Status Mem VectorModel VectorSpec VectorDriver OwnModel OwnDriver.
From Coq Require Import ZifyBool ZifyNat ZifyN.

Section OwnKeep.
  Context {C : Type}.
  Notation vec := (vector C).
  Notation M := (M C).
  Definition ans {A} (P : A -> Prop) (m : M A) : Prop := forall w a w', m w = Ok a w' -> P a.
  Lemma ans_ret {A} (P : A -> Prop) a : P a -> ans P (ret a).
  Proof. intros H w b w' E. unfold ret in E. injection E as <- <-. exact H. Qed.
  Lemma ans_bind {A B} (Q : A -> Prop) (P : B -> Prop) m k : ans Q m -> (forall a, Q a -> ans P (k a)) -> ans P (bind m k).
  Proof.
    intros HM HK w b w' E. unfold bind in E. destruct (m w) as [a w1|f] eqn:EM; [|discriminate E]. exact (HK a (HM _ _ _ EM) _ _ _ E).
  Qed.
  Lemma ans_any {A} (m : M A) : ans (fun _ => True) m.
  Proof. now intros w a w' _. Qed.
  Lemma ans_seq {A B} (P : B -> Prop) (m : M A) k : (forall a, ans P (k a)) -> ans P (bind m k).
  Proof. intros H. apply (ans_bind (fun _ => True)); [apply ans_any|auto]. Qed.

  Variable s : N.
  Definition kept (rv : status * vec) : Prop := v_shrink (snd rv) = s.
  Notation keeps := (ans kept).
  Lemma keeps_ret r v : v_shrink v = s -> keeps (ret (r, v)).
  Proof. intros H. now apply ans_ret. Qed.
  Lemma keeps_then {A} (P : A -> Prop) m k : keeps m -> (forall r v, v_shrink v = s -> ans P (k (r, v))) -> ans P (bind m k).
  Proof. intros H K. apply (ans_bind kept); [exact H|]. intros [r v] Q. now apply K. Qed.

  Ltac go := repeat first
    [ assumption | apply keeps_ret; assumption
    | match goal with |- ans _ (if ?b then _ else _) => destruct b end ].
  Lemma k_realloc_to v n : v_shrink v = s -> keeps (vreallocate_to v n).
  Proof. intros H. unfold vreallocate_to. apply ans_seq. intros [st p]. now apply keeps_ret. Qed.
  Lemma k_realloc v n : v_shrink v = s -> keeps (vreallocate v n).
  Proof. intros H. unfold vreallocate. do 2 (apply ans_seq; intros _). go; now apply k_realloc_to. Qed.
  Lemma k_grow v n : v_shrink v = s -> keeps (vgrow v n).
  Proof. intros H. unfold vgrow. go. now apply k_realloc. Qed.
  Lemma k_maybe v : v_shrink v = s -> keeps (vmaybe_shrink v).
  Proof. intros H. unfold vmaybe_shrink. go. now apply k_realloc. Qed.
  Lemma k_push v p : v_shrink v = s -> keeps (vpush_back v p).
  Proof.
    intros H. unfold vpush_back. go. apply ans_seq. intros _. apply keeps_then; [now apply k_grow|]. intros r v1 H1. go.
    apply ans_seq. intros _. now apply keeps_ret.
  Qed.
  Lemma k_insert v i p : v_shrink v = s -> keeps (vinsert v i p).
  Proof.
    intros H. unfold vinsert, vinsert_range. go. apply ans_seq. intros _. apply keeps_then; [now apply k_grow|]. intros r v1 H1. go;
      apply ans_seq; intros st; go; apply ans_seq; intros _; now apply keeps_ret.
  Qed.
  Lemma k_emplace v i f : v_shrink v = s -> ans (fun x => v_shrink (snd (fst x)) = s) (vemplace_ex v i f).
  Proof.
    intros H. unfold vemplace_ex. destruct (_ <? _); [now apply ans_ret|]. apply ans_seq. intros _. apply keeps_then; [now apply k_grow|].
    intros r v1 H1. destruct (negb _); [now apply ans_ret|]. apply ans_seq. intros st. destruct (negb _); [now apply ans_ret|].
    cbv zeta. apply ans_seq. intros st'. destruct (negb _); now apply ans_ret.
  Qed.
  Lemma k_arg x k : (forall p, keeps (k p)) -> keeps (with_arg x k).
  Proof.
    intros H w a w' E. unfold with_arg in E.
    match type of E with match ?m with _ => _ end = _ => destruct m as [b w1|f] eqn:EM; [|discriminate E] end.
    injection E as <- <-. exact (H _ _ _ _ EM).
  Qed.
  Lemma k_unless b rv : kept rv -> keeps (unless_taken b rv).
  Proof. intros H. unfold unless_taken. destruct (st_success _); [now apply ans_ret|]. apply ans_seq. intros _. now apply ans_ret. Qed.

  Variables (e : N) (name : N -> list C) (own : list C -> N).
  Lemma k_resize v n : v_shrink v = s -> keeps (oresize (release e own) v n).
  Proof.
    intros H. unfold oresize. destruct (n =? v_size v); [now apply keeps_ret|]. apply ans_seq. intros _. apply keeps_then.
    - destruct (_ || _); [|now apply keeps_ret]. apply ans_seq. intros _. now apply k_realloc.
    - intros r v1 H1. destruct (negb _); now apply keeps_ret.
  Qed.
  Lemma run_wop_keeps v o : v_shrink v = s -> keeps (run_wop e name own v o).
  Proof.
    intros H. destruct o; cbn [run_wop run_op].
    - apply ans_seq. intros b. apply (ans_bind kept); [apply k_arg; intros p; now apply k_push|apply k_unless].
    - apply ans_seq. intros b. apply (ans_bind kept); [apply k_arg; intros p; now apply k_insert|apply k_unless].
    - apply ans_seq. intros b. apply (ans_bind kept); [|apply k_unless]. apply (ans_bind (fun x => v_shrink (snd (fst x)) = s)); [now apply k_emplace|].
      intros [[r v1] q] Q. now apply keeps_ret.
    - apply keeps_then.
      + unfold vreserve. destruct (_ <? _); [now apply k_realloc|now apply keeps_ret].
      + intros r v1 H1. destruct (st_success r); [|now apply keeps_ret]. unfold vswap. go. repeat (apply ans_seq; intros _). now apply keeps_ret.
    - apply ans_seq. intros b. apply (ans_bind kept); [|apply k_unless]. apply k_arg. intros p. unfold oset. go.
      repeat (apply ans_seq; intros _). now apply keeps_ret.
    - unfold odelete_range. go. apply ans_seq. intros _. apply ans_seq. intros st. go. now apply k_maybe.
    - unfold opop_back. go. apply ans_seq. intros _. now apply k_maybe.
    - now apply k_resize.
    - now apply k_resize.
    - unfold vreserve. destruct (_ <? _); [now apply k_realloc|now apply keeps_ret].
    - now apply k_realloc.
  Qed.
  Lemma run_wops_keeps : forall ops v, v_shrink v = s -> ans (fun x => v_shrink (snd x) = s) (run_wops e name own v ops).
  Proof.
    induction ops as [|o ops IH]; intros v H; cbn [run_wops]; [now apply ans_ret|]. apply keeps_then; [now apply run_wop_keeps|].
    intros r v1 H1. apply (ans_bind (fun x => v_shrink (snd x) = s)); [now apply IH|]. intros [rs v2] H2. now apply ans_ret.
  Qed.
  Lemma init_keeps n cap f g (w : world C) (v : vec) w' st : vinit_ex n cap f true g s w = Ok (st, Some v) w' -> v_shrink v = s.
  Proof.
    unfold vinit_ex. destruct (_ || _); [discriminate|]. unfold bind, ret. destruct (alloc _ _ w) as [[r p] w1|]; [|discriminate].
    intros E. injection E as <- <- <-. reflexivity.
  Qed.
  Lemma shrink_kept n cap f g (w0 : world C) (v0 : vec) w1 st ops rs v w :
    vinit_ex n cap f true g s w0 = Ok (st, Some v0) w1 -> run_wops e name own v0 ops w1 = Ok (rs, v) w -> v_shrink v = s.
  Proof. intros E0 E. apply init_keeps in E0. exact (run_wops_keeps ops v0 E0 _ _ _ E). Qed.
End OwnKeep.

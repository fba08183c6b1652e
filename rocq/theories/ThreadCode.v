(** The functions of the model, taken apart into single accesses. *)
From Coq Require Import ZifyBool ZifyNat ZifyN.
From Verif Require Import Base Status Mem VectorModel VectorDriver StringModel StringSpec StringDriver FormatModel
  FormatSpec FormatDriver BitsetModel BitsetSpec BitsetDriver ProgSpec ThreadSpec ThreadProofs Mem.

Section Code.
  Context {C : Type}.
  Notation code := (code C).
  Implicit Types (w : world C).

  Lemma same_refl w : same_world w w.
  Proof. repeat split. Qed.
  Lemma same_sym w w' : same_world w w' -> same_world w' w.
  Proof. intros (H & ? & ? & ? & ? & ?). repeat split; auto. Qed.
  Lemma same_trans w1 w2 w3 : same_world w1 w2 -> same_world w2 w3 -> same_world w1 w3.
  Proof.
    intros (H & ? & ? & ? & ? & ?) (H' & ? & ? & ? & ? & ?).
    split; [intros b; rewrite H; apply H'|]. repeat split; congruence.
  Qed.
  Lemma outcome_refl {A} (r : res C A) : same_outcome r r.
  Proof. destruct r; cbn; auto using same_refl. Qed.
  Lemma outcome_trans {A} (r1 r2 r3 : res C A) : same_outcome r1 r2 -> same_outcome r2 r3 -> same_outcome r1 r3.
  Proof.
    destruct r1, r2, r3; cbn; try easy; [|congruence].
    intros (-> & H) (-> & H'). split; [reflexivity|]. exact (same_trans _ _ _ H H').
  Qed.
  Lemma same_hset w w' b x : same_world w w' -> same_world (set_heap w (hset (heap w) b x)) (set_heap w' (hset (heap w') b x)).
  Proof.
    intros (H & ? & ? & ? & ? & ?). split; [|repeat split; assumption].
    intros c. cbn. unfold hset. destruct (c =? b); auto.
  Qed.

  (** A computation that gives the same outcome in the same worlds. *)
  Definition plain {A} (m : M C A) : Prop := forall w w', same_world w w' -> same_outcome (m w) (m w').
  Lemma plain_ret {A} (a : A) : plain (ret a).
  Proof. intros w w' H. cbn. auto. Qed.
  Lemma plain_fail {A} f : plain (@fail C A f).
  Proof. intros w w' H. cbn. auto. Qed.
  Lemma plain_bind {A B} (m : M C A) (k : A -> M C B) : plain m -> (forall a, plain (k a)) -> plain (bind m k).
  Proof.
    intros P Q w w' H. unfold bind. specialize (P w w' H).
    destruct (m w), (m w'); cbn in P; try easy. destruct P as (-> & S). apply Q, S.
  Qed.
  Lemma plain_read p n : plain (@mread C p n).
  Proof.
    intros w w' H. unfold mread. destruct p as [p|]; [|reflexivity]. rewrite (proj1 H).
    destruct (heap w' (pb p)); [|reflexivity]. destruct (_ <=? _); cbn; auto.
  Qed.
  Lemma plain_tail p f : plain (@mtail C p f).
  Proof.
    intros w w' H. unfold mtail. destruct p as [p|]; [|reflexivity]. rewrite (proj1 H).
    destruct (heap w' (pb p)); [|reflexivity]. destruct (f _); cbn; auto.
  Qed.
  Lemma plain_build : plain (@mbuild C).
  Proof. intros w w' H. unfold mbuild. cbn. split; [apply H|exact H]. Qed.
  Lemma plain_write p x : plain (@mwrite C p x).
  Proof.
    intros w w' H. unfold mwrite. destruct p as [p|]; [|reflexivity]. rewrite (proj1 H).
    destruct (heap w' (pb p)); [|reflexivity]. destruct (_ <=? _); [|reflexivity]. split; [reflexivity|].
    apply same_hset, H.
  Qed.
  Lemma plain_alloc e n : plain (@alloc C e n).
  Proof.
    intros w w' (H & EN & EO & ET & ED & EC). unfold alloc. rewrite EN, EO, ET, ED, EC.
    destruct (_ && _); [reflexivity|]. destruct (orc w' (tick w')).
    - cbn. repeat split; cbn; auto.
    - cbn. split; [reflexivity|]. split; [|repeat split]. cbn. intros b. unfold hset. destruct (b =? _); auto.
  Qed.
  Lemma plain_realloc p e n : plain (@realloc C p e n).
  Proof.
    intros w w' (H & EN & EO & ET & ED & EC). unfold realloc. rewrite EN, EO, ET, ED, EC.
    destruct (_ && _); [reflexivity|]. destruct p as [q|]; [|reflexivity]. rewrite H.
    destruct (heap w' (pb q)); [|reflexivity]. destruct (negb _); [reflexivity|]. destruct (orc w' (tick w')).
    - cbn. repeat split; cbn; auto.
    - cbn. split; [reflexivity|]. split; [|repeat split]. cbn. intros b. unfold hset. destruct (b =? _); [auto|]. destruct (b =? _); auto.
  Qed.
  Lemma plain_dealloc p e n : plain (@dealloc C p e n).
  Proof.
    intros w w' H. pose proof H as (HH & EN & EO & ET & ED & EC). unfold dealloc. rewrite EC.
    destruct (_ && _); [reflexivity|]. destruct p as [q|].
    - rewrite HH. destruct (heap w' (pb q)); [|reflexivity]. destruct (negb _); [reflexivity|]. split; [reflexivity|].
      apply same_hset, H.
    - destruct (checked w'); cbn; auto.
  Qed.
  Lemma plain_log x : plain (@mlog C x).
  Proof. intros w w' (H & EN & EO & ET & ED & EC). unfold mlog. cbn. repeat split; cbn; congruence. Qed.
  Lemma plain_place x : plain (@mplace C x).
  Proof.
    intros w w' (H & EN & EO & ET & ED & EC). unfold mplace. rewrite EN. cbn. split; [reflexivity|].
    split; [|repeat split; cbn; congruence]. cbn. intros b. unfold hset. destruct (b =? _); auto.
  Qed.
  Lemma plain_drop b : plain (@mdrop C b).
  Proof.
    intros w w' H. unfold mdrop. cbn. split; [reflexivity|]. rewrite (proj1 H). destruct (heap w' b); [|exact H].
    apply same_hset, H.
  Qed.
  Lemma plain_run {A} (c : code A) : plain (run c).
  Proof.
    induction c; cbn [run];
      try (apply plain_bind; [|intros; auto]);
      auto using plain_ret, plain_fail, plain_read, plain_tail, plain_build, plain_write, plain_alloc, plain_realloc,
        plain_dealloc, plain_log, plain_place, plain_drop.
  Qed.

  (** ** Putting codes together *)
  Fixpoint cbind {A B} (c : code A) (k : A -> code B) : code B :=
    match c with
    | Done a => k a
    | Crash f => Crash f
    | Read p n j => Read p n (fun x => cbind (j x) k)
    | Tail p f j => Tail p f (fun x => cbind (j x) k)
    | Build j => Build (fun x => cbind (j x) k)
    | Write p x j => Write p x (cbind j k)
    | Alloc e n j => Alloc e n (fun x => cbind (j x) k)
    | Realloc p e n j => Realloc p e n (fun x => cbind (j x) k)
    | Dealloc p e n j => Dealloc p e n (fun x => cbind (j x) k)
    | Log x j => Log x (cbind j k)
    | Place x j => Place x (fun x => cbind (j x) k)
    | Drop b j => Drop b (cbind j k)
    end.
  Lemma run_cbind {A B} (c : code A) (k : A -> code B) w : run (cbind c k) w = bind (run c) (fun a => run (k a)) w.
  Proof.
    revert w. induction c; intros w; cbn [cbind run]; try reflexivity; unfold bind in *;
      match goal with |- match ?m w with _ => _ end = _ => destruct (m w); [|reflexivity] end; auto.
  Qed.
  Lemma reads_cbind {A B} (c : code A) (k : A -> code B) : reads_only c -> (forall a, reads_only (k a)) -> reads_only (cbind c k).
  Proof. induction c; cbn; auto; intros; contradiction. Qed.

  Lemma live_back {A} (c : code A) w a w' b : run c w = Ok a w' -> heap w' b <> None -> heap w b <> None \/ nextb w <= b < nextb w'.
  Proof.
    revert w. induction c as [a0|f|p n k IH|p f k IH|k IH|p x k IH|e n k IH|p e n k IH|p e n k IH|x k IH|x k IH|d k IH];
      intros w H L; [inversion H; subst; auto|discriminate|..];
      destruct (step_safe _ _ _ _ H) as (c' & w1 & E);
      pose proof (is_local _ _ _ _ w (fun _ => True) (conj eq_refl (conj eq_refl (conj eq_refl (conj eq_refl (conj eq_refl (fun b _ => eq_refl)))))) (fun _ _ => I) E) as [NX LV _];
      destruct (step_run _ _ _ _ E) as (R & _); rewrite R in H; pose proof (run_next _ _ _ _ H) as NX';
      cbn [step] in E; unfold bind, ret in E;
      match type of E with match ?m with _ => _ end = _ => destruct m; [|discriminate] end; injection E as <- <-;
      (assert (L' : heap w0 b <> None \/ nextb w0 <= b < nextb w') by eauto); 
      (destruct L' as [L'|L']; [destruct (LV _ L') as [L2|L2]; [auto|right; lia]|right; lia]).
  Qed.
  Lemma changes_cbind {A B} (c : code A) (k : A -> code B) w a w' : run c w = Ok a w' ->
    changes (cbind c k) w = changes c w ++ changes (k a) w'.
  Proof.
    revert w. induction c as [a0|f|p n j IH|p f j IH|j IH|p x j IH|e n j IH|p e n j IH|p e n j IH|x j IH|x j IH|d j IH];
      intros w H; [inversion H; subst; reflexivity|discriminate|..]; cbn [run cbind changes] in *; unfold bind in H;
      match type of H with match ?m with _ => _ end = _ => destruct m; [|discriminate] end;
      rewrite <- ?app_assoc; cbn [app]; repeat f_equal; eauto.
  Qed.
  Lemma tidy_cbind {A B} (c : code A) (k : A -> code B) : tidy c -> (forall a, tidy (k a)) -> tidy (cbind c k).
  Proof.
    intros TC TK w x w' R b H. rewrite run_cbind in R. unfold bind in R. destruct (run c w) as [a w1|] eqn:E; [|discriminate].
    rewrite (changes_cbind c k w a w1 E) in H. pose proof (run_next _ _ _ _ E). pose proof (run_next _ _ _ _ R).
    apply in_app_or in H. destruct H as [H|H].
    - destruct (TC _ _ _ E b H); [auto|right; lia].
    - destruct (TK _ _ _ _ R b H) as [L|L]; [|right; lia]. destruct (live_back _ _ _ _ _ E L); [auto|right; lia].
  Qed.
  Lemma reads_changes {A} (c : code A) w : reads_only c -> changes c w = [].
  Proof.
    revert w. induction c as [a0|f|p n j IH|p f j IH|j IH|p x j IH|e n j IH|p e n j IH|p e n j IH|x j IH|x j IH|d j IH];
      intros w H; cbn in H; try contradiction; cbn [changes]; try reflexivity;
      match goal with |- match ?m with _ => _ end = _ => destruct m; auto end.
  Qed.
  Lemma reads_tidy {A} (c : code A) : reads_only c -> tidy c.
  Proof. intros H w a w' R b I. rewrite reads_changes in I by exact H. destruct I. Qed.
  (** One step. *)
  Lemma now_own {A} (c : code A) w c' w' b : step c w = Ok c' w' -> In b (now c w) ->
    (forall d k, c <> Drop d k) -> heap w b <> None \/ nextb w <= b < nextb w'.
  Proof.
    intros E H ND. destruct c; cbn [now step] in *; unfold bind, ret in E; try contradiction.
    - unfold mwrite in E. destruct p as [p|]; [|discriminate]. destruct H as [<-|[]]. left. intros Z. rewrite Z in E. discriminate.
    - destruct (alloc e n w) as [r w1|] eqn:EA; [|discriminate]. injection E as <- <-. right. unfold alloc in EA.
      destruct (_ && _); [discriminate|]. destruct (orc w (tick w)); injection EA as <- <-; cbn in *; [destruct H|lia].
    - destruct (realloc p e n w) as [r w1|] eqn:EA; [|discriminate]. injection E as <- <-. unfold realloc in EA.
      destruct (_ && _); [discriminate|]. destruct p as [p|]; [|discriminate]. destruct (heap w (pb p)) eqn:EB; [|discriminate].
      destruct (negb _); [discriminate|]. destruct (orc w (tick w)); injection EA as <- <-; cbn in *.
      + left. destruct H as [<-|[<-|[]]]; congruence.
      + destruct H as [<-|[<-|[]]]; [left; congruence|right; lia].
    - unfold dealloc in E. destruct p as [p|]; [|destruct H]. destruct H as [<-|[]]. left. intros Z. rewrite Z in E.
      destruct (_ && _); discriminate.
    - injection E as <- <-. cbn in *. right. lia.
    - exfalso. exact (ND _ _ eq_refl).
  Qed.
  Lemma tidy_step {A} (c : code A) : (forall d k, c <> Drop d k) -> (forall w c' w', step c w = Ok c' w' -> tidy c') -> tidy c.
  Proof.
    intros ND H w a w' R b I. destruct (step_safe _ _ _ _ R) as (c' & w1 & E). destruct (step_run _ _ _ _ E) as (RR & RC & _).
    rewrite RR in R. rewrite RC in I. pose proof (run_next _ _ _ _ R) as NX'.
    pose proof (is_local _ _ _ _ w (fun _ => True) (conj eq_refl (conj eq_refl (conj eq_refl (conj eq_refl (conj eq_refl (fun b _ => eq_refl)))))) (fun _ _ => Logic.I) E) as [NX LV _].
    apply in_app_or in I. destruct I as [I|I].
    - destruct (now_own _ _ _ _ _ E I ND); [auto|right; lia].
    - destruct (H _ _ _ E _ _ _ R b I) as [L|L]; [|right; lia]. destruct (LV _ L); [auto|right; lia].
  Qed.
  Lemma tidy_done {A} (a : A) : tidy (C := C) (Done a).
  Proof. apply reads_tidy. exact I. Qed.
  Ltac one_step := apply tidy_step; [discriminate|]; let E := fresh "E" in intros ? ? ? E; cbn [step] in E; unfold bind, ret in E;
    match type of E with match ?m with _ => _ end = _ => destruct m; [|discriminate] end; injection E as <- <-; apply tidy_done.

  Record coded {A} (m : M C A) : Type := mkcoded { tree : code A; tree_ok : amounts_to tree m; tree_tidy : tidy tree }.
  Record ro {A} (m : M C A) : Type := mkro { rtree : code A; rtree_ok : forall w, run rtree w = m w; rtree_ro : reads_only rtree }.
  Global Arguments mkcoded {A m}. Global Arguments tree {A m}. Global Arguments tree_ok {A m}. Global Arguments tree_tidy {A m}.
  Global Arguments mkro {A m}. Global Arguments rtree {A m}. Global Arguments rtree_ok {A m}. Global Arguments rtree_ro {A m}.

  Lemma amounts_bind {A B} (m : M C A) (k : A -> M C B) (c : code A) (j : A -> code B) :
    amounts_to c m -> (forall a, amounts_to (j a) (k a)) -> amounts_to (cbind c j) (bind m k).
  Proof.
    intros HC HJ w. rewrite run_cbind. unfold bind. specialize (HC w).
    destruct (run c w) as [a w1|f], (m w) as [a' w2|f']; cbn in HC; try easy. destruct HC as (-> & S).
    eapply outcome_trans; [exact (plain_run (j a') w1 w2 S)|apply HJ].
  Qed.
  Lemma run_bind {A B} (m : M C A) (k : A -> M C B) (c : code A) (j : A -> code B) :
    (forall w, run c w = m w) -> (forall a w, run (j a) w = k a w) -> forall w, run (cbind c j) w = bind m k w.
  Proof. intros HC HJ w. rewrite run_cbind. unfold bind. rewrite HC. destruct (m w); auto. Qed.
  Definition coded_bind {A B} (m : M C A) (k : A -> M C B) (x : coded m) (y : forall a, coded (k a)) : coded (bind m k) :=
    mkcoded (cbind (tree x) (fun a => tree (y a))) (amounts_bind m k _ _ (tree_ok x) (fun a => tree_ok (y a)))
            (tidy_cbind _ _ (tree_tidy x) (fun a => tree_tidy (y a))).
  Definition ro_bind {A B} (m : M C A) (k : A -> M C B) (x : ro m) (y : forall a, ro (k a)) : ro (bind m k) :=
    mkro (cbind (rtree x) (fun a => rtree (y a))) (run_bind m k _ _ (rtree_ok x) (fun a => rtree_ok (y a)))
         (reads_cbind _ _ (rtree_ro x) (fun a => rtree_ro (y a))).
  Lemma amounts_eq {A} (c : code A) (m : M C A) : (forall w, run c w = m w) -> amounts_to c m.
  Proof. intros H w. rewrite H. apply outcome_refl. Qed.
  Lemma bind_ret {A} (m : M C A) w : bind m (fun x => ret x) w = m w.
  Proof. unfold bind. destruct (m w); reflexivity. Qed.

  Definition coded_ret {A} (a : A) : coded (ret a) := mkcoded (Done a) (amounts_eq _ _ (fun w => eq_refl)) (tidy_done a).
  Definition coded_fail {A} f : coded (@fail C A f) := mkcoded (Crash f) (amounts_eq _ _ (fun w => eq_refl)) (reads_tidy (Crash f) I).
  Lemma tidy_read p n : tidy (C := C) (Read p n (fun x => Done x)).
  Proof. one_step. Qed.
  Definition coded_read p n : coded (@mread C p n) :=
    mkcoded (Read p n (fun x => Done x)) (amounts_eq (Read p n (fun x => Done x)) (mread p n) (fun w => bind_ret (mread p n) w)) (tidy_read p n).
  Lemma write_run p x w : run (Write p x (Done tt)) w = @mwrite C p x w.
  Proof. cbn. unfold bind. destruct (mwrite p x w) as [[] ?|]; reflexivity. Qed.
  Lemma tidy_write p (x : list C) : tidy (Write p x (Done tt)).
  Proof. one_step. Qed.
  Definition coded_write p x : coded (@mwrite C p x) := mkcoded (Write p x (Done tt)) (amounts_eq _ _ (write_run p x)) (tidy_write p x).
  Lemma tidy_alloc e n : tidy (C := C) (Alloc e n (fun x => Done x)).
  Proof. one_step. Qed.
  Definition coded_alloc e n : coded (@alloc C e n) :=
    mkcoded (Alloc e n (fun x => Done x)) (amounts_eq (Alloc e n (fun x => Done x)) (alloc e n) (fun w => bind_ret (alloc e n) w)) (tidy_alloc e n).
  Lemma tidy_realloc p e n : tidy (C := C) (Realloc p e n (fun x => Done x)).
  Proof. one_step. Qed.
  Definition coded_realloc p e n : coded (@realloc C p e n) :=
    mkcoded (Realloc p e n (fun x => Done x)) (amounts_eq (Realloc p e n (fun x => Done x)) (realloc p e n) (fun w => bind_ret (realloc p e n) w)) (tidy_realloc p e n).
  Lemma tidy_dealloc p e n : tidy (C := C) (Dealloc p e n (fun x => Done x)).
  Proof. one_step. Qed.
  Definition coded_dealloc p e n : coded (@dealloc C p e n) :=
    mkcoded (Dealloc p e n (fun x => Done x)) (amounts_eq (Dealloc p e n (fun x => Done x)) (dealloc p e n) (fun w => bind_ret (dealloc p e n) w)) (tidy_dealloc p e n).
  Lemma assert_run (b : bool) w : run (if b then Done tt else Build (fun c => if c then Crash AssertFailed else Done tt)) w = @assert C b w.
  Proof. destruct b; [reflexivity|]. cbn. unfold bind, mbuild. destruct (checked w); reflexivity. Qed.
  Lemma assert_ro (b : bool) : reads_only (C := C) (if b then Done tt else Build (fun c => if c then Crash AssertFailed else Done tt)).
  Proof. destruct b; cbn; [exact I|]. intros []; exact I. Qed.
  Definition coded_assert (b : bool) : coded (@assert C b) :=
    mkcoded (if b then Done tt else Build (fun c => if c then Crash AssertFailed else Done tt)) (amounts_eq _ _ (assert_run b)) (reads_tidy _ (assert_ro b)).
  Lemma dtor_run (f : list C -> list C) p e w : run (Read p e (fun x => Log x (Write p (f x) (Done tt)))) w = @call_dtor C f p e w.
  Proof.
    cbn. unfold bind, call_dtor. destruct (mread p e w) as [x w1|]; [|reflexivity]. cbn.
    destruct (mwrite p (f x) _) as [[] ?|]; reflexivity.
  Qed.
  Lemma tidy_dtor (f : list C -> list C) p e : tidy (Read p e (fun x => Log x (Write p (f x) (Done tt)))).
  Proof.
    apply tidy_step; [discriminate|]. intros w c' w' E. cbn [step] in E. unfold bind, ret in E.
    destruct (mread p e w) as [x w1|]; [|discriminate]. injection E as <- <-.
    apply tidy_step; [discriminate|]. intros w2 c2 w3 E. cbn [step] in E. injection E as <- <-. apply tidy_write.
  Qed.
  Definition coded_dtor f p e : coded (@call_dtor C f p e) :=
    mkcoded (Read p e (fun x => Log x (Write p (f x) (Done tt)))) (amounts_eq _ _ (dtor_run f p e)) (tidy_dtor f p e).
  Definition ro_ret {A} (a : A) : ro (ret a) := mkro (Done a) (fun w => eq_refl) I.
  Definition ro_fail {A} f : ro (@fail C A f) := mkro (Crash f) (fun w => eq_refl) I.
  Definition ro_read p n : ro (@mread C p n) :=
    mkro (Read p n (fun x => Done x)) (fun w => bind_ret (mread p n) w) (fun _ => I).
  Definition ro_assert b : ro (@assert C b) := mkro _ (assert_run b) (assert_ro b).
  (** The caller's argument. *)
  Lemma with_arg_run {A} x (k : option ptr -> M C A) (j : option ptr -> code A) : (forall p, amounts_to (j p) (k p)) ->
    amounts_to (Place x (fun p => cbind (j p) (fun a => match p with Some q => Drop (pb q) (Done a) | None => Done a end)))
               (with_arg x k).
  Proof.
    intros HJ w. cbn [run]. unfold bind at 1. unfold mplace, with_arg. rewrite run_cbind. unfold bind.
    match goal with |- context [run (j ?p) ?w1] => specialize (HJ p w1); set (r := run (j p) w1) in *; clearbody r end.
    match goal with |- context [k ?p ?w1] => set (r' := k p w1) in *; clearbody r' end.
    destruct r as [a w1|f], r' as [a' w2|f']; cbn in HJ; try easy. destruct HJ as (-> & S).
    cbn. unfold bind, mdrop. cbn. split; [reflexivity|]. destruct (heap w1 (nextb w)) eqn:E.
    - apply same_hset, S.
    - destruct S as (H & ?). split; [|assumption]. intros b. cbn. unfold hset.
      destruct (b =? nextb w) eqn:EB; [|apply H]. replace b with (nextb w) by lia. exact E.
  Qed.
  Lemma tidy_arg {A} x (j : option ptr -> code A) : (forall p, tidy (j p)) ->
    tidy (Place x (fun p => cbind (j p) (fun a => match p with Some q => Drop (pb q) (Done a) | None => Done a end))).
  Proof.
    intros TJ w a w' R b H. cbn [run changes] in *. unfold bind at 1 in R. unfold mplace in R, H. cbn [pb] in *.
    rewrite run_cbind in R. unfold bind in R. set (w0 := mkbuild _ _ _ _ _ _) in *.
    destruct (run _ w0) as [a1 w1|] eqn:E; [|discriminate]. rewrite (changes_cbind _ _ _ _ _ E) in H.
    pose proof (run_next _ _ _ _ E) as NX. pose proof (run_next _ _ _ _ R) as NX'. change (nextb w0) with (nextb w + 1) in NX.
    cbn in H. rewrite in_app_iff in H. cbn in H. destruct H as [H|[H|[H|[]]]]; [right; lia| |right; lia].
    destruct (TJ _ _ _ _ E b H) as [L|L]; [|right; change (nextb w0) with (nextb w + 1) in L; lia].
    cbn in L. unfold hset in L. destruct (b =? nextb w) eqn:EB; [right; lia|left; exact L].
  Qed.
  Definition coded_arg {A} x (k : option ptr -> M C A) (y : forall p, coded (k p)) : coded (with_arg x k) :=
    mkcoded _ (with_arg_run x k (fun p => tree (y p)) (fun p => tree_ok (y p))) (tidy_arg x _ (fun p => tree_tidy (y p))).
  Definition coded_of_ro {A} (m : M C A) (x : ro m) : coded m := mkcoded (rtree x) (amounts_eq _ _ (rtree_ok x)) (reads_tidy _ (rtree_ro x)).
End Code.

(** Takes a computation apart; [lib] knows the functions that have been dealt with. *)
Create HintDb steps discriminated.
Create HintDb rsteps discriminated.
Global Hint Resolve coded_read coded_write coded_alloc coded_realloc coded_dealloc coded_assert coded_dtor : steps.
Global Hint Resolve ro_read ro_assert : rsteps.
Ltac code1 :=
  first
  [ apply coded_ret | apply coded_fail
  | solve [eauto 2 with steps nocore]
  | apply coded_arg; intros ?
  | apply coded_bind; [|intros ?]
  | match goal with |- coded (match ?x with _ => _ end) => destruct x end
  | progress cbv zeta beta ].
Ltac code := repeat code1.
Ltac ro1 :=
  first
  [ apply ro_ret | apply ro_fail
  | solve [eauto 2 with rsteps nocore]
  | apply ro_bind; [|intros ?]
  | match goal with |- ro (match ?x with _ => _ end) => destruct x end
  | progress cbv zeta beta ].
Ltac rcode := repeat ro1.

(** ** Vectors *)
Definition coded_memmove {C} d s n : coded (@memmove C d s n).
Proof. unfold memmove. code. Defined.
Global Hint Resolve coded_memmove : steps.
Definition coded_memcpy {C} d s n : coded (@memcpy C d s n).
Proof. unfold memcpy. code. Defined.
Global Hint Resolve coded_memcpy : steps.
Definition ro_assert_valid {C} (v : vector C) : ro (assert_valid v).
Proof. unfold assert_valid. rcode. Defined.
Global Hint Resolve ro_assert_valid : rsteps.
Definition coded_assert_valid {C} (v : vector C) : coded (assert_valid v).
Proof. unfold assert_valid. code. Defined.
Global Hint Resolve coded_assert_valid : steps.
Definition coded_vreallocate {C} (v : vector C) n : coded (vreallocate v n).
Proof. unfold vreallocate, vreallocate_to. code. Defined.
Global Hint Resolve coded_vreallocate : steps.
Definition coded_vshift_left {C} (v : vector C) i n : coded (vshift_left v i n).
Proof. unfold vshift_left. code. Defined.
Global Hint Resolve coded_vshift_left : steps.
Definition coded_vshift_right {C} (v : vector C) i n : coded (vshift_right v i n).
Proof. unfold vshift_right. code. Defined.
Global Hint Resolve coded_vshift_right : steps.
Definition coded_vinit_ex {C} e cap (d : option (list C -> list C)) a g s : coded (vinit_ex e cap d a g s).
Proof. unfold vinit_ex. code. Defined.
Global Hint Resolve coded_vinit_ex : steps.
Definition coded_vinit {C} e cap (d : option (list C -> list C)) : coded (vinit e cap d).
Proof. unfold vinit. code. Defined.
Global Hint Resolve coded_vinit : steps.
Definition coded_vinit_custom {C} e b cap (d : option (list C -> list C)) : coded (vinit_custom e b cap d).
Proof. unfold vinit_custom. code. Defined.
Global Hint Resolve coded_vinit_custom : steps.
Definition coded_dtor_loop {C} (f : list C -> list C) v i n : coded (dtor_loop f v i n).
Proof. revert i. induction n as [|n IH]; intros i; cbn [dtor_loop]; code. Defined.
Global Hint Resolve coded_dtor_loop : steps.
Definition coded_destroy_range {C} (v : vector C) i n : coded (destroy_range v i n).
Proof. unfold destroy_range. code. Defined.
Global Hint Resolve coded_destroy_range : steps.
Definition coded_vdestroy {C} (v : vector C) : coded (vdestroy v).
Proof. unfold vdestroy. code. Defined.
Global Hint Resolve coded_vdestroy : steps.
Definition coded_vduplicate_ex {C} (v : vector C) cap a g s : coded (vduplicate_ex v cap a g s).
Proof. unfold vduplicate_ex. code. Defined.
Global Hint Resolve coded_vduplicate_ex : steps.
Definition coded_vduplicate {C} (v : vector C) cap : coded (vduplicate v cap).
Proof. unfold vduplicate. code. Defined.
Global Hint Resolve coded_vduplicate : steps.
Definition coded_vduplicate_custom {C} (v : vector C) b cap : coded (vduplicate_custom v b cap).
Proof. unfold vduplicate_custom. code. Defined.
Global Hint Resolve coded_vduplicate_custom : steps.
Definition ro_vget {C} (v : vector C) i : ro (vget v i).
Proof. unfold vget. rcode. Defined.
Global Hint Resolve ro_vget : rsteps.
Definition coded_vget {C} (v : vector C) i : coded (vget v i).
Proof. unfold vget. code. Defined.
Global Hint Resolve coded_vget : steps.
Definition ro_vget_pointer {C} (v : vector C) i : ro (vget_pointer v i).
Proof. unfold vget_pointer. rcode. Defined.
Global Hint Resolve ro_vget_pointer : rsteps.
Definition coded_vget_pointer {C} (v : vector C) i : coded (vget_pointer v i).
Proof. unfold vget_pointer. code. Defined.
Global Hint Resolve coded_vget_pointer : steps.
Definition coded_vset {C} (v : vector C) i p : coded (vset v i p).
Proof. unfold vset. code. Defined.
Global Hint Resolve coded_vset : steps.
Definition coded_vgrow {C} (v : vector C) n : coded (vgrow v n).
Proof. unfold vgrow. code. Defined.
Global Hint Resolve coded_vgrow : steps.
Definition coded_vpush_back {C} (v : vector C) p : coded (vpush_back v p).
Proof. unfold vpush_back. code. Defined.
Global Hint Resolve coded_vpush_back : steps.
Definition coded_vinsert_range {C} (v : vector C) i p n : coded (vinsert_range v i p n).
Proof. unfold vinsert_range. code. Defined.
Global Hint Resolve coded_vinsert_range : steps.
Definition coded_vinsert {C} (v : vector C) i p : coded (vinsert v i p).
Proof. unfold vinsert. code. Defined.
Global Hint Resolve coded_vinsert : steps.
Definition coded_vemplace_ex {C} (v : vector C) i f : coded (vemplace_ex v i f).
Proof. unfold vemplace_ex. code. Defined.
Global Hint Resolve coded_vemplace_ex : steps.
Definition coded_vemplace {C} (v : vector C) f : coded (vemplace v f).
Proof. unfold vemplace. code. Defined.
Global Hint Resolve coded_vemplace : steps.
Definition coded_vswap {C} (v : vector C) i j : coded (vswap v i j).
Proof. unfold vswap. code. Defined.
Global Hint Resolve coded_vswap : steps.
Definition coded_vmaybe_shrink {C} (v : vector C) : coded (vmaybe_shrink v).
Proof. unfold vmaybe_shrink. code. Defined.
Global Hint Resolve coded_vmaybe_shrink : steps.
Definition coded_vdelete_range {C} (v : vector C) i n : coded (vdelete_range v i n).
Proof. unfold vdelete_range. code. Defined.
Global Hint Resolve coded_vdelete_range : steps.
Definition coded_vdelete {C} (v : vector C) i : coded (vdelete v i).
Proof. unfold vdelete. code. Defined.
Global Hint Resolve coded_vdelete : steps.
Definition coded_vpop_back {C} (v : vector C) : coded (vpop_back v).
Proof. unfold vpop_back. code. Defined.
Global Hint Resolve coded_vpop_back : steps.
Definition coded_init_loop {C} (v : vector C) i p n : coded (init_loop v i p n).
Proof. revert i. induction n as [|n IH]; intros i; cbn [init_loop]; code. Defined.
Global Hint Resolve coded_init_loop : steps.
Definition coded_vresize_ex {C} (v : vector C) n p : coded (vresize_ex v n p).
Proof. unfold vresize_ex. code. Defined.
Global Hint Resolve coded_vresize_ex : steps.
Definition coded_vresize {C} (v : vector C) n : coded (vresize v n).
Proof. unfold vresize. code. Defined.
Global Hint Resolve coded_vresize : steps.
Definition coded_vclear {C} (v : vector C) : coded (vclear v).
Proof. unfold vclear. code. Defined.
Global Hint Resolve coded_vclear : steps.
Definition coded_vreserve {C} (v : vector C) n : coded (vreserve v n).
Proof. unfold vreserve. code. Defined.
Global Hint Resolve coded_vreserve : steps.
Definition coded_vshrink_to_fit {C} (v : vector C) : coded (vshrink_to_fit v).
Proof. unfold vshrink_to_fit. code. Defined.
Global Hint Resolve coded_vshrink_to_fit : steps.
Definition ro_find_loop {C} (v : vector C) p cmp i n : ro (find_loop v p cmp i n).
Proof. revert i. induction n as [|n IH]; intros i; cbn [find_loop]; rcode. Defined.
Global Hint Resolve ro_find_loop : rsteps.
Definition coded_find_loop {C} (v : vector C) p cmp i n : coded (find_loop v p cmp i n).
Proof. revert i. induction n as [|n IH]; intros i; cbn [find_loop]; code. Defined.
Global Hint Resolve coded_find_loop : steps.
Definition ro_vfind_ex {C} (v : vector C) p cmp i n : ro (vfind_ex v p cmp i n).
Proof. unfold vfind_ex. rcode. Defined.
Global Hint Resolve ro_vfind_ex : rsteps.
Definition coded_vfind_ex {C} (v : vector C) p cmp i n : coded (vfind_ex v p cmp i n).
Proof. unfold vfind_ex. code. Defined.
Global Hint Resolve coded_vfind_ex : steps.
Definition ro_vfind {C} (v : vector C) p cmp : ro (vfind v p cmp).
Proof. unfold vfind. rcode. Defined.
Global Hint Resolve ro_vfind : rsteps.
Definition coded_vfind {C} (v : vector C) p cmp : coded (vfind v p cmp).
Proof. unfold vfind. code. Defined.
Global Hint Resolve coded_vfind : steps.
Definition ro_bs_loop {C} (v : vector C) p cmp l h r n : ro (bs_loop v p cmp l h r n).
Proof. revert l h r. induction n as [|n IH]; intros l h r; cbn [bs_loop]; rcode. Defined.
Global Hint Resolve ro_bs_loop : rsteps.
Definition coded_bs_loop {C} (v : vector C) p cmp l h r n : coded (bs_loop v p cmp l h r n).
Proof. revert l h r. induction n as [|n IH]; intros l h r; cbn [bs_loop]; code. Defined.
Global Hint Resolve coded_bs_loop : steps.
Definition ro_vbinary_search_ex {C} (v : vector C) p cmp i n : ro (vbinary_search_ex v p cmp i n).
Proof. unfold vbinary_search_ex. rcode. Defined.
Global Hint Resolve ro_vbinary_search_ex : rsteps.
Definition coded_vbinary_search_ex {C} (v : vector C) p cmp i n : coded (vbinary_search_ex v p cmp i n).
Proof. unfold vbinary_search_ex. code. Defined.
Global Hint Resolve coded_vbinary_search_ex : steps.
Definition ro_vbinary_search {C} (v : vector C) p cmp : ro (vbinary_search v p cmp).
Proof. unfold vbinary_search. rcode. Defined.
Global Hint Resolve ro_vbinary_search : rsteps.
Definition coded_vbinary_search {C} (v : vector C) p cmp : coded (vbinary_search v p cmp).
Proof. unfold vbinary_search. code. Defined.
Global Hint Resolve coded_vbinary_search : steps.
Definition coded_run_op {C} (v : vector C) o : coded (run_op v o).
Proof. unfold run_op. code. Defined.
Global Hint Resolve coded_run_op : steps.
Definition coded_run_ops {C} (v : vector C) ops : coded (run_ops v ops).
Proof. revert v. induction ops as [|o ops IH]; intros v; cbn [run_ops]; code. Defined.
Global Hint Resolve coded_run_ops : steps.
Definition ro_read_elem {C} (v : vector C) i : ro (read_elem v i).
Proof. unfold read_elem. rcode. Defined.
Global Hint Resolve ro_read_elem : rsteps.
Definition coded_read_elem {C} (v : vector C) i : coded (read_elem v i).
Proof. unfold read_elem. code. Defined.
Global Hint Resolve coded_read_elem : steps.
Definition ro_read_from {C} (v : vector C) i n : ro (read_from v i n).
Proof. revert i. induction n as [|n IH]; intros i; cbn [read_from]; rcode. Defined.
Global Hint Resolve ro_read_from : rsteps.
Definition coded_read_from {C} (v : vector C) i n : coded (read_from v i n).
Proof. revert i. induction n as [|n IH]; intros i; cbn [read_from]; code. Defined.
Global Hint Resolve coded_read_from : steps.
Definition ro_read_all {C} (v : vector C) : ro (read_all v).
Proof. unfold read_all. rcode. Defined.
Global Hint Resolve ro_read_all : rsteps.
Definition coded_read_all {C} (v : vector C) : coded (read_all v).
Proof. unfold read_all. code. Defined.
Global Hint Resolve coded_read_all : steps.

(** ** Strings *)

Lemma assert_nullterminated_run s w :
  run (Build (fun c => if c then
         Read (padd (sdata s) (wsub (ssize s) 1)) 1 (fun x => rtree (ro_assert (match x with [c] => c =? 0 | _ => false end)))
       else Done tt)) w = assert_nullterminated s w.
Proof.
  cbn [run]. unfold bind at 1. unfold mbuild, assert_nullterminated. destruct (checked w); [|reflexivity].
  cbn [run]. unfold bind. destruct (mread _ _ w) as [x w1|]; [|reflexivity]. apply assert_run.
Qed.
Definition ro_assert_nullterminated s : ro (assert_nullterminated s).
Proof.
  refine (mkro _ (assert_nullterminated_run s) _). cbn [reads_only]. intros []; [|exact I]. intros x. apply assert_ro.
Defined.
Global Hint Resolve ro_assert_nullterminated : rsteps.
Definition coded_assert_nullterminated s : coded (assert_nullterminated s) := coded_of_ro _ (ro_assert_nullterminated s).
Global Hint Resolve coded_assert_nullterminated : steps.
Lemma strlen_run p w : run (Tail p index_of_nul (fun n => Done n)) w = mstrlen p w.
Proof.
  cbn. unfold bind, mtail, mstrlen. destruct p as [p|]; [|reflexivity]. destruct (heap w (pb p)); [|reflexivity].
  destruct (index_of_nul _); reflexivity.
Qed.
Definition ro_mstrlen p : ro (mstrlen p) := mkro _ (strlen_run p) (fun _ => I).
Global Hint Resolve ro_mstrlen : rsteps.
Definition coded_mstrlen p : coded (mstrlen p) := coded_of_ro _ (ro_mstrlen p).
Global Hint Resolve coded_mstrlen : steps.
Definition ro_mread1 p : ro (mread1 p).
Proof. unfold mread1. rcode. Defined.
Global Hint Resolve ro_mread1 : rsteps.
Definition coded_mread1 p : coded (mread1 p).
Proof. unfold mread1. code. Defined.
Global Hint Resolve coded_mread1 : steps.
Definition coded_nullterminate s : coded (nullterminate s).
Proof. unfold nullterminate. code. Defined.
Global Hint Resolve coded_nullterminate : steps.
Definition coded_sinit_ex cap a g s : coded (sinit_ex cap a g s).
Proof. unfold sinit_ex. code. Defined.
Global Hint Resolve coded_sinit_ex : steps.
Definition coded_sinit cap : coded (sinit cap).
Proof. unfold sinit. code. Defined.
Global Hint Resolve coded_sinit : steps.
Definition coded_sinit_custom b cap : coded (sinit_custom b cap).
Proof. unfold sinit_custom. code. Defined.
Global Hint Resolve coded_sinit_custom : steps.
Definition coded_sdestroy s : coded (sdestroy s).
Proof. unfold sdestroy. code. Defined.
Global Hint Resolve coded_sdestroy : steps.
Definition coded_sduplicate_into n s r : coded (sduplicate_into n s r).
Proof. unfold sduplicate_into. code. Defined.
Global Hint Resolve coded_sduplicate_into : steps.
Definition coded_sduplicate_ex x cap a g s : coded (sduplicate_ex x cap a g s).
Proof. unfold sduplicate_ex. code. Defined.
Global Hint Resolve coded_sduplicate_ex : steps.
Definition coded_sduplicate x cap : coded (sduplicate x cap).
Proof. unfold sduplicate. code. Defined.
Global Hint Resolve coded_sduplicate : steps.
Definition coded_sduplicate_custom x b cap : coded (sduplicate_custom x b cap).
Proof. unfold sduplicate_custom. code. Defined.
Global Hint Resolve coded_sduplicate_custom : steps.
Definition coded_sconcat_into n s t r : coded (sconcat_into n s t r).
Proof. unfold sconcat_into. code. Defined.
Global Hint Resolve coded_sconcat_into : steps.
Definition coded_sconcat_ex x y cap a g s : coded (sconcat_ex x y cap a g s).
Proof. unfold sconcat_ex. code. Defined.
Global Hint Resolve coded_sconcat_ex : steps.
Definition coded_sconcat x y cap : coded (sconcat x y cap).
Proof. unfold sconcat. code. Defined.
Global Hint Resolve coded_sconcat : steps.
Definition coded_sconcat_custom x y b cap : coded (sconcat_custom x y b cap).
Proof. unfold sconcat_custom. code. Defined.
Global Hint Resolve coded_sconcat_custom : steps.
Definition ro_view_inside_buffer v p : ro (view_inside_buffer v p).
Proof. unfold view_inside_buffer. rcode. Defined.
Global Hint Resolve ro_view_inside_buffer : rsteps.
Definition coded_view_inside_buffer v p : coded (view_inside_buffer v p).
Proof. unfold view_inside_buffer. code. Defined.
Global Hint Resolve coded_view_inside_buffer : steps.
Definition ro_view_get_size v : ro (view_get_size v).
Proof. unfold view_get_size. rcode. Defined.
Global Hint Resolve ro_view_get_size : rsteps.
Definition coded_view_get_size v : coded (view_get_size v).
Proof. unfold view_get_size. code. Defined.
Global Hint Resolve coded_view_get_size : steps.
Definition ro_sget_char s i : ro (sget_char s i).
Proof. unfold sget_char. rcode. Defined.
Global Hint Resolve ro_sget_char : rsteps.
Definition coded_sget_char s i : coded (sget_char s i).
Proof. unfold sget_char. code. Defined.
Global Hint Resolve coded_sget_char : steps.
Definition ro_sget_char_mutable s i : ro (sget_char_mutable s i).
Proof. unfold sget_char_mutable. rcode. Defined.
Global Hint Resolve ro_sget_char_mutable : rsteps.
Definition coded_sget_char_mutable s i : coded (sget_char_mutable s i).
Proof. unfold sget_char_mutable. code. Defined.
Global Hint Resolve coded_sget_char_mutable : steps.
Definition coded_sset_char s i p : coded (sset_char s i p).
Proof. unfold sset_char. code. Defined.
Global Hint Resolve coded_sset_char : steps.
Definition coded_sappend s x : coded (sappend s x).
Proof. unfold sappend. code. Defined.
Global Hint Resolve coded_sappend : steps.
Definition coded_sappend_self s : coded (sappend_self s).
Proof. unfold sappend_self. code. Defined.
Global Hint Resolve coded_sappend_self : steps.
Definition coded_sappend_ex s x i n : coded (sappend_ex s x i n).
Proof. unfold sappend_ex. code. Defined.
Global Hint Resolve coded_sappend_ex : steps.
Definition coded_sinsert s i x : coded (sinsert s i x).
Proof. unfold sinsert. code. Defined.
Global Hint Resolve coded_sinsert : steps.
Definition coded_sinsert_ex s i x j n : coded (sinsert_ex s i x j n).
Proof. unfold sinsert_ex. code. Defined.
Global Hint Resolve coded_sinsert_ex : steps.
Definition coded_sdelete s i n : coded (sdelete s i n).
Proof. unfold sdelete. code. Defined.
Global Hint Resolve coded_sdelete : steps.
Definition coded_struncate s i : coded (struncate s i).
Proof. unfold struncate. code. Defined.
Global Hint Resolve coded_struncate : steps.
Definition coded_sclear s : coded (sclear s).
Proof. unfold sclear. code. Defined.
Global Hint Resolve coded_sclear : steps.
Definition ro_lpos_inner eqc h x m i j n : ro (lpos_inner eqc h x m i j n).
Proof. revert i j. induction n as [|n IH]; intros i j; cbn [lpos_inner]; rcode. Defined.
Global Hint Resolve ro_lpos_inner : rsteps.
Definition coded_lpos_inner eqc h x m i j n : coded (lpos_inner eqc h x m i j n).
Proof. revert i j. induction n as [|n IH]; intros i j; cbn [lpos_inner]; code. Defined.
Global Hint Resolve coded_lpos_inner : steps.
Definition ro_lpos_outer eqc h x m i n : ro (lpos_outer eqc h x m i n).
Proof. revert i. induction n as [|n IH]; intros i; cbn [lpos_outer]; rcode. Defined.
Global Hint Resolve ro_lpos_outer : rsteps.
Definition coded_lpos_outer eqc h x m i n : coded (lpos_outer eqc h x m i n).
Proof. revert i. induction n as [|n IH]; intros i; cbn [lpos_outer]; code. Defined.
Global Hint Resolve coded_lpos_outer : steps.
Definition ro_slpos_ex eqc h x i n : ro (slpos_ex eqc h x i n).
Proof. unfold slpos_ex. rcode. Defined.
Global Hint Resolve ro_slpos_ex : rsteps.
Definition coded_slpos_ex eqc h x i n : coded (slpos_ex eqc h x i n).
Proof. unfold slpos_ex. code. Defined.
Global Hint Resolve coded_slpos_ex : steps.
Definition ro_slpos eqc h x : ro (slpos eqc h x).
Proof. unfold slpos. rcode. Defined.
Global Hint Resolve ro_slpos : rsteps.
Definition coded_slpos eqc h x : coded (slpos eqc h x).
Proof. unfold slpos. code. Defined.
Global Hint Resolve coded_slpos : steps.
Definition ro_rpos_inner eqc h x m i j n : ro (rpos_inner eqc h x m i j n).
Proof. revert i j. induction n as [|n IH]; intros i j; cbn [rpos_inner]; rcode. Defined.
Global Hint Resolve ro_rpos_inner : rsteps.
Definition coded_rpos_inner eqc h x m i j n : coded (rpos_inner eqc h x m i j n).
Proof. revert i j. induction n as [|n IH]; intros i j; cbn [rpos_inner]; code. Defined.
Global Hint Resolve coded_rpos_inner : steps.
Definition ro_rpos_outer eqc h x m i n : ro (rpos_outer eqc h x m i n).
Proof. revert i. induction n as [|n IH]; intros i; cbn [rpos_outer]; rcode. Defined.
Global Hint Resolve ro_rpos_outer : rsteps.
Definition coded_rpos_outer eqc h x m i n : coded (rpos_outer eqc h x m i n).
Proof. revert i. induction n as [|n IH]; intros i; cbn [rpos_outer]; code. Defined.
Global Hint Resolve coded_rpos_outer : steps.
Definition ro_srpos_ex eqc h x i n : ro (srpos_ex eqc h x i n).
Proof. unfold srpos_ex. rcode. Defined.
Global Hint Resolve ro_srpos_ex : rsteps.
Definition coded_srpos_ex eqc h x i n : coded (srpos_ex eqc h x i n).
Proof. unfold srpos_ex. code. Defined.
Global Hint Resolve coded_srpos_ex : steps.
Definition ro_srpos eqc h x : ro (srpos eqc h x).
Proof. unfold srpos. rcode. Defined.
Global Hint Resolve ro_srpos : rsteps.
Definition coded_srpos eqc h x : coded (srpos eqc h x).
Proof. unfold srpos. code. Defined.
Global Hint Resolve coded_srpos : steps.
Definition ro_compare_loop eqc x y i n : ro (compare_loop eqc x y i n).
Proof. revert i. induction n as [|n IH]; intros i; cbn [compare_loop]; rcode. Defined.
Global Hint Resolve ro_compare_loop : rsteps.
Definition coded_compare_loop eqc x y i n : coded (compare_loop eqc x y i n).
Proof. revert i. induction n as [|n IH]; intros i; cbn [compare_loop]; code. Defined.
Global Hint Resolve coded_compare_loop : steps.
Definition ro_scompare eqc x y : ro (scompare eqc x y).
Proof. unfold scompare. rcode. Defined.
Global Hint Resolve ro_scompare : rsteps.
Definition coded_scompare eqc x y : coded (scompare eqc x y).
Proof. unfold scompare. code. Defined.
Global Hint Resolve coded_scompare : steps.
Definition coded_case_loop f s i n : coded (case_loop f s i n).
Proof. revert i. induction n as [|n IH]; intros i; cbn [case_loop]; code. Defined.
Global Hint Resolve coded_case_loop : steps.
Definition coded_scase_ex f s i n : coded (scase_ex f s i n).
Proof. unfold scase_ex. code. Defined.
Global Hint Resolve coded_scase_ex : steps.
Definition coded_scase f s : coded (scase f s).
Proof. unfold scase. code. Defined.
Global Hint Resolve coded_scase : steps.
Definition coded_sresize s n : coded (sresize s n).
Proof. unfold sresize. code. Defined.
Global Hint Resolve coded_sresize : steps.
Definition coded_sreserve s n : coded (sreserve s n).
Proof. unfold sreserve. code. Defined.
Global Hint Resolve coded_sreserve : steps.
Definition coded_sshrink_to_fit s : coded (sshrink_to_fit s).
Proof. unfold sshrink_to_fit. code. Defined.
Global Hint Resolve coded_sshrink_to_fit : steps.
Definition ro_sget_capacity s : ro (sget_capacity s).
Proof. unfold sget_capacity. rcode. Defined.
Global Hint Resolve ro_sget_capacity : rsteps.
Definition coded_sget_capacity s : coded (sget_capacity s).
Proof. unfold sget_capacity. code. Defined.
Global Hint Resolve coded_sget_capacity : steps.
Definition ro_sget_size s : ro (sget_size s).
Proof. unfold sget_size. rcode. Defined.
Global Hint Resolve ro_sget_size : rsteps.
Definition coded_sget_size s : coded (sget_size s).
Proof. unfold sget_size. code. Defined.
Global Hint Resolve coded_sget_size : steps.
Definition coded_run_sop s o : coded (run_sop s o).
Proof. unfold run_sop, with_view. code. Defined.
Global Hint Resolve coded_run_sop : steps.
Definition coded_run_sops s ops : coded (run_sops s ops).
Proof. revert s. induction ops as [|o ops IH]; intros s; cbn [run_sops]; code. Defined.
Global Hint Resolve coded_run_sops : steps.

(** ** Formatting *)
Definition coded_dec_push m d l : coded (dec_push m d l).
Proof. unfold dec_push. code. Defined.
Global Hint Resolve coded_dec_push : steps.
Definition coded_dec_loop n m v l : coded (dec_loop n m v l).
Proof. revert v l. induction n as [|n IH]; intros v l; cbn [dec_loop]; code. Defined.
Global Hint Resolve coded_dec_loop : steps.
Definition coded_sappend_dec m s v p : coded (sappend_dec m s v p).
Proof. unfold sappend_dec. code. Defined.
Global Hint Resolve coded_sappend_dec : steps.
Definition coded_hex_char u v : coded (hex_char u v).
Proof. unfold hex_char. code. Defined.
Global Hint Resolve coded_hex_char : steps.
Definition coded_hex_loop k v p u l r s x y : coded (hex_loop k v p u l r s x y).
Proof. revert v l r s x y. induction k as [|k IH]; intros v l r s x y; cbn [hex_loop]; code. Defined.
Global Hint Resolve coded_hex_loop : steps.
Definition coded_sappend_hex k s v p u : coded (sappend_hex k s v p u).
Proof. unfold sappend_hex. code. Defined.
Global Hint Resolve coded_sappend_hex : steps.
Definition coded_sappend_hex64 s v p u : coded (sappend_hex64 s v p u).
Proof. unfold sappend_hex64. code. Defined.
Global Hint Resolve coded_sappend_hex64 : steps.
Definition coded_sappend_decu b s v p : coded (sappend_decu b s v p).
Proof. unfold sappend_decu. code. Defined.
Global Hint Resolve coded_sappend_decu : steps.
Definition coded_sappend_hexu b s v p u : coded (sappend_hexu b s v p u).
Proof. unfold sappend_hexu. code. Defined.
Global Hint Resolve coded_sappend_hexu : steps.

Definition coded_sappend_signed x y s v f p (m : str -> N -> M N (status * str)) : (forall s n, coded (m s n)) -> coded (sappend_signed x y s v f p m).
Proof. intros Y. unfold sappend_signed. code. Defined.
Definition coded_sappend_decs b x y s v p f q : coded (sappend_decs b x y s v p f q).
Proof. unfold sappend_decs. apply coded_sappend_signed. intros. code. Defined.
Global Hint Resolve coded_sappend_decs : steps.
Definition coded_sappend_hexs b x y s v p u f q : coded (sappend_hexs b x y s v p u f q).
Proof. unfold sappend_hexs. apply coded_sappend_signed. intros. code. Defined.
Global Hint Resolve coded_sappend_hexs : steps.
Definition coded_vsnprintf f p n : coded (vsnprintf f p n).
Proof. unfold vsnprintf. code. Defined.
Global Hint Resolve coded_vsnprintf : steps.
Definition coded_sappend_format f g s : coded (sappend_format f g s).
Proof. unfold sappend_format. code. Defined.
Global Hint Resolve coded_sappend_format : steps.
Definition coded_run_fop b s o : coded (run_fop b s o).
Proof. unfold run_fop, with_signs, with_prefix, with_view. code. Defined.
Global Hint Resolve coded_run_fop : steps.
Definition coded_run_fops b s ops : coded (run_fops b s ops).
Proof. revert s. induction ops as [|o ops IH]; intros s; cbn [run_fops]; code. Defined.
Global Hint Resolve coded_run_fops : steps.

(** ** Bitsets *)
Definition coded_init_elements v z n : coded (init_elements v z n).
Proof. revert v. induction n as [|n IH]; intros v; cbn [init_elements]; code. Defined.
Global Hint Resolve coded_init_elements : steps.
Definition coded_bs_init_ex z n a g s : coded (bs_init_ex z n a g s).
Proof. unfold bs_init_ex. code. Defined.
Global Hint Resolve coded_bs_init_ex : steps.
Definition coded_bs_init z n : coded (bs_init z n).
Proof. unfold bs_init. code. Defined.
Global Hint Resolve coded_bs_init : steps.
Definition coded_bs_init_buffer z n b cap : coded (bs_init_buffer z n b cap).
Proof. unfold bs_init_buffer. code. Defined.
Global Hint Resolve coded_bs_init_buffer : steps.
Definition coded_bs_destroy b : coded (bs_destroy b).
Proof. unfold bs_destroy. code. Defined.
Global Hint Resolve coded_bs_destroy : steps.
Definition coded_byte_op_loop f d s i n : coded (byte_op_loop f d s i n).
Proof. revert i. induction n as [|n IH]; intros i; cbn [byte_op_loop]; code. Defined.
Global Hint Resolve coded_byte_op_loop : steps.
Definition coded_bs_byte_op f d s : coded (bs_byte_op f d s).
Proof. unfold bs_byte_op. code. Defined.
Global Hint Resolve coded_bs_byte_op : steps.
Definition coded_bs_and d s : coded (bs_and d s).
Proof. unfold bs_and. code. Defined.
Global Hint Resolve coded_bs_and : steps.
Definition coded_bs_or d s : coded (bs_or d s).
Proof. unfold bs_or. code. Defined.
Global Hint Resolve coded_bs_or : steps.
Definition coded_bs_xor d s : coded (bs_xor d s).
Proof. unfold bs_xor. code. Defined.
Global Hint Resolve coded_bs_xor : steps.
Definition coded_each_byte f b i n : coded (each_byte f b i n).
Proof. revert i. induction n as [|n IH]; intros i; cbn [each_byte]; code. Defined.
Global Hint Resolve coded_each_byte : steps.
Definition coded_bs_each f b : coded (bs_each f b).
Proof. unfold bs_each. code. Defined.
Global Hint Resolve coded_bs_each : steps.
Definition coded_bs_flip b : coded (bs_flip b).
Proof. unfold bs_flip. code. Defined.
Global Hint Resolve coded_bs_flip : steps.
Definition coded_bs_change f b i : coded (bs_change f b i).
Proof. unfold bs_change. code. Defined.
Global Hint Resolve coded_bs_change : steps.
Definition coded_bs_set b i : coded (bs_set b i).
Proof. unfold bs_set. code. Defined.
Global Hint Resolve coded_bs_set : steps.
Definition coded_bs_reset b i : coded (bs_reset b i).
Proof. unfold bs_reset. code. Defined.
Global Hint Resolve coded_bs_reset : steps.
Definition coded_bs_toggle b i : coded (bs_toggle b i).
Proof. unfold bs_toggle. code. Defined.
Global Hint Resolve coded_bs_toggle : steps.
Definition coded_bs_assign b i v : coded (bs_assign b i v).
Proof. unfold bs_assign. code. Defined.
Global Hint Resolve coded_bs_assign : steps.
Definition ro_bs_test b i : ro (bs_test b i).
Proof. unfold bs_test. rcode. Defined.
Global Hint Resolve ro_bs_test : rsteps.
Definition coded_bs_test b i : coded (bs_test b i).
Proof. unfold bs_test. code. Defined.
Global Hint Resolve coded_bs_test : steps.
Definition ro_bs_test_msb b : ro (bs_test_msb b).
Proof. unfold bs_test_msb. rcode. Defined.
Global Hint Resolve ro_bs_test_msb : rsteps.
Definition coded_bs_test_msb b : coded (bs_test_msb b).
Proof. unfold bs_test_msb. code. Defined.
Global Hint Resolve coded_bs_test_msb : steps.
Definition ro_bs_test_lsb b : ro (bs_test_lsb b).
Proof. unfold bs_test_lsb. rcode. Defined.
Global Hint Resolve ro_bs_test_lsb : rsteps.
Definition coded_bs_test_lsb b : coded (bs_test_lsb b).
Proof. unfold bs_test_lsb. code. Defined.
Global Hint Resolve coded_bs_test_lsb : steps.
Definition coded_bs_set_all b : coded (bs_set_all b).
Proof. unfold bs_set_all. code. Defined.
Global Hint Resolve coded_bs_set_all : steps.
Definition coded_bs_reset_all b : coded (bs_reset_all b).
Proof. unfold bs_reset_all. code. Defined.
Global Hint Resolve coded_bs_reset_all : steps.
Definition coded_bs_push z b v : coded (bs_push z b v).
Proof. unfold bs_push. code. Defined.
Global Hint Resolve coded_bs_push : steps.
Definition coded_bs_pop b : coded (bs_pop b).
Proof. unfold bs_pop. code. Defined.
Global Hint Resolve coded_bs_pop : steps.
Definition coded_bs_clear b : coded (bs_clear b).
Proof. unfold bs_clear. code. Defined.
Global Hint Resolve coded_bs_clear : steps.
Definition coded_bs_reserve b n : coded (bs_reserve b n).
Proof. unfold bs_reserve. code. Defined.
Global Hint Resolve coded_bs_reserve : steps.
Definition coded_bs_shrink_to_fit b : coded (bs_shrink_to_fit b).
Proof. unfold bs_shrink_to_fit. code. Defined.
Global Hint Resolve coded_bs_shrink_to_fit : steps.
Definition ro_count_loop b i k n : ro (count_loop b i k n).
Proof. revert i k. induction n as [|n IH]; intros i k; cbn [count_loop]; rcode. Defined.
Global Hint Resolve ro_count_loop : rsteps.
Definition coded_count_loop b i k n : coded (count_loop b i k n).
Proof. revert i k. induction n as [|n IH]; intros i k; cbn [count_loop]; code. Defined.
Global Hint Resolve coded_count_loop : steps.
Definition ro_bs_count b : ro (bs_count b).
Proof. unfold bs_count. rcode. Defined.
Global Hint Resolve ro_bs_count : rsteps.
Definition coded_bs_count b : coded (bs_count b).
Proof. unfold bs_count. code. Defined.
Global Hint Resolve coded_bs_count : steps.
Definition ro_scan_loop f y z b i n : ro (scan_loop f y z b i n).
Proof. revert i. induction n as [|n IH]; intros i; cbn [scan_loop]; rcode. Defined.
Global Hint Resolve ro_scan_loop : rsteps.
Definition coded_scan_loop f y z b i n : coded (scan_loop f y z b i n).
Proof. revert i. induction n as [|n IH]; intros i; cbn [scan_loop]; code. Defined.
Global Hint Resolve coded_scan_loop : steps.
Definition ro_bs_scan f y z b : ro (bs_scan f y z b).
Proof. unfold bs_scan. rcode. Defined.
Global Hint Resolve ro_bs_scan : rsteps.
Definition coded_bs_scan f y z b : coded (bs_scan f y z b).
Proof. unfold bs_scan. code. Defined.
Global Hint Resolve coded_bs_scan : steps.
Definition ro_bs_all b : ro (bs_all b).
Proof. unfold bs_all. rcode. Defined.
Global Hint Resolve ro_bs_all : rsteps.
Definition coded_bs_all b : coded (bs_all b).
Proof. unfold bs_all. code. Defined.
Global Hint Resolve coded_bs_all : steps.
Definition ro_bs_any b : ro (bs_any b).
Proof. unfold bs_any. rcode. Defined.
Global Hint Resolve ro_bs_any : rsteps.
Definition coded_bs_any b : coded (bs_any b).
Proof. unfold bs_any. code. Defined.
Global Hint Resolve coded_bs_any : steps.
Definition ro_bs_none b : ro (bs_none b).
Proof. unfold bs_none. rcode. Defined.
Global Hint Resolve ro_bs_none : rsteps.
Definition coded_bs_none b : coded (bs_none b).
Proof. unfold bs_none. code. Defined.
Global Hint Resolve coded_bs_none : steps.
Definition coded_run_bitop b o : coded (run_bitop b o).
Proof. unfold run_bitop, with_zero, keep. code. Defined.
Global Hint Resolve coded_run_bitop : steps.
Definition coded_run_bitops b ops : coded (run_bitops b ops).
Proof. revert b. induction ops as [|o ops IH]; intros b; cbn [run_bitops]; code. Defined.
Global Hint Resolve coded_run_bitops : steps.

(** ** Programs *)
Definition coded_byte_op op b c : coded (byte_op op b c).
Proof. destruct op; cbn [byte_op]; code. Defined.
Global Hint Resolve coded_byte_op : steps.
Definition coded_run_step os p : coded (run_step os p).
Proof. unfold run_step, on_vec, on_str, on_bits, with_zero. code. Defined.
Global Hint Resolve coded_run_step : steps.
Definition coded_run_prog os ps : coded (run_prog os ps).
Proof. revert os. induction ps as [|p ps IH]; intros os; cbn [run_prog]; code. Defined.
Global Hint Resolve coded_run_prog : steps.

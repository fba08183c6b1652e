(** Proofs about the destructors of thread-local storage on Windows. *)
From Verif Require Import Base Status SyncModel ApiModel ApiProofs WinModel WinProofs TlsDtorModel TlsDtorSpec TlsDtorProofs.
From Coq Require Import ZifyBool ZifyNat ZifyN Permutation.
Local Open Scope N_scope.

Section Windows.
  Variable order : list N -> list N.
  Variable null_too : bool.
  Hypothesis ORD : any_order order.

  (** The callbacks of a call: those of a successful release. *)
  Definition released (m : slots) (c : tcall) (st : status) : list callback :=
    match c with
    | DFree k => if st_success st then flat_map (due_now null_too m k) (order (users m)) else []
    | _ => []
    end.
  Lemma windows_call_effect m f c st r m' log : windows_call order null_too m f c = (st, r, m', log) ->
    effect m f c st r m' /\ log = released m c st.
  Proof.
    destruct c as [d k e|k|k x e|k]; cbn [windows_call]; intros E.
    - set (s := windows_system m f k e) in *.
      assert (B : (0 <= wanswer s (FlsAllocCall d) < 2 ^ 32)%Z).
      { unfold s. cbn [windows_system wanswer]. change (2 ^ 32)%Z with 4294967296%Z. unfold FLS_OUT_OF_INDEXES.
        destruct ((e =? 0) && negb (in_use m k) && (k <? 4294967295)) eqn:Q; lia. }
      destruct (win_tls_alloc_ok 0 d s B) as [F S].
      destruct (Z.eq_dec (wanswer s (FlsAllocCall d)) 4294967295) as [Z0|Z0].
      + rewrite (F Z0) in E. cbn [fold_left windows_effect] in E. fold s in E. rewrite Z0 in E.
        change (4294967295 =? 4294967295)%Z with true in E. change (st_success ST_OUT_OF_RESOURCES) with false in E. cbv iota in E.
        injection E as <- <- <- <-. split; [now apply ef_fail|reflexivity].
      + assert (Q : wanswer s (FlsAllocCall d) = Z.of_N k /\ in_use m k = false).
        { unfold s in Z0 |- *. cbn [windows_system wanswer] in Z0 |- *. unfold FLS_OUT_OF_INDEXES in *.
          destruct ((e =? 0) && negb (in_use m k) && (k <? 4294967295)) eqn:Q; [|congruence]. split; [reflexivity|].
          destruct (in_use m k); [lia|reflexivity]. }
        destruct Q as [Q U]. rewrite (S Z0) in E. cbn [fold_left] in E. unfold windows_effect in E. fold s in E.
        rewrite Q in E, Z0. replace (Z.of_N k =? 4294967295)%Z with false in E by lia.
        change (st_success ST_SUCCESS) with true in E. cbv iota in E. rewrite N2Z.id in E. injection E as <- <- <- <-.
        split; [|reflexivity]. apply ef_alloc; [reflexivity|exact U].
    - destruct (win_tls_free_ok k (windows_system m f 0 0)) as [C S]. destruct (win_tls_free k _) as [st' cs]. cbn [fst snd] in C, S. subst cs.
      cbn [fold_left windows_effect] in E.
      destruct (Z.eqb_spec (wanswer (windows_system m f 0 0) (FlsFreeCall k)) 0) as [Z0|Z0].
      + injection E as <- <- <- <-. assert (Q : st_success st' = false) by (destruct (st_success st'); [exfalso; now apply S|reflexivity]).
        split; [now apply ef_fail|]. cbn [released]. now rewrite Q.
      + injection E as <- <- <- <-. assert (Q : st_success st' = true) by now apply S. split.
        * apply ef_free; [exact Q|]. cbn [windows_system wanswer] in Z0. destruct (in_use m k); [reflexivity|congruence].
        * cbn [released app]. now rewrite Q.
    - destruct (win_tls_set_ok k x (windows_system m f 0 e)) as (C & S & _). destruct (win_tls_set_value k x _) as [st' cs]. cbn [fst snd] in C, S. subst cs.
      cbn [fold_left windows_effect] in E.
      destruct (Z.eqb_spec (wanswer (windows_system m f 0 e) (FlsSetCall k x)) 0) as [Z0|Z0]; injection E as <- <- <- <-; (split; [|reflexivity]).
      + apply ef_fail. destruct (st_success st'); [exfalso; now apply S|reflexivity].
      + apply ef_set; [now apply S|]. cbn [windows_system wanswer] in Z0. destruct (in_use m k); [reflexivity|].
        rewrite andb_false_r in Z0. congruence.
    - unfold win_tls_get_value in E. cbn [fold_left windows_effect] in E. injection E as <- <- <- <-. split; [apply ef_get|reflexivity].
  Qed.

  Lemma due_now_slot m k f : filter (fun c => of_slot k c && with_value c) (due_now null_too m k f) = due k f (view m k f).
  Proof.
    unfold due_now, view, due. destruct (slot m k) as [d|]; [|reflexivity]. destruct (d =? 0); [reflexivity|]. cbn [orb].
    destruct (vals m k f =? 0) eqn:V; cbn [andb].
    - destruct null_too; [|reflexivity]. cbn [negb filter]. unfold of_slot, with_value. cbn [fst snd]. rewrite V, andb_false_r. reflexivity.
    - cbn [filter]. unfold of_slot, with_value. cbn [fst snd]. rewrite V, N.eqb_refl. reflexivity.
  Qed.
  Lemma due_now_owner m k f : filter (fun c => of_owner f c && with_value c) (due_now null_too m k f) = due k f (view m k f).
  Proof.
    unfold due_now, view, due. destruct (slot m k) as [d|]; [|reflexivity]. destruct (d =? 0); [reflexivity|]. cbn [orb].
    destruct (vals m k f =? 0) eqn:V; cbn [andb].
    - destruct null_too; [|reflexivity]. cbn [negb filter]. unfold of_owner, with_value. cbn [fst snd]. rewrite V, andb_false_r. reflexivity.
    - cbn [filter]. unfold of_owner, with_value. cbn [fst snd]. rewrite V, N.eqb_refl. reflexivity.
  Qed.
  Lemma due_now_is m k f c : In c (due_now null_too m k f) -> exists d, c = (k, f, d, vals m k f).
  Proof.
    unfold due_now. destruct (slot m k) as [d|]; [|intros []]. destruct ((d =? 0) || _); [intros []|]. intros [<-|[]]. now exists d.
  Qed.
  Lemma filter_none {A} (p : A -> bool) l : (forall x, In x l -> p x = false) -> filter p l = [].
  Proof.
    induction l as [|x l IH]; intros H; [reflexivity|]. cbn [filter]. rewrite H by now left. apply IH. intros y I. apply H. now right.
  Qed.

  Lemma windows_step_ok m tr ev st r m' log : agrees m tr -> windows_step order null_too m ev = (st, r, m', log) ->
    agrees m' (tr ++ [(ev, st, r, log)]) /\ windows_rule tr ev st log.
  Proof.
    intros A E. destruct ev as [f c|f|]; cbn [windows_step] in E.
    - destruct (windows_call_effect m f c st r m' log E) as [EF ->]. split; [eapply agrees_effect; eassumption|].
      cbn [windows_rule]. destruct c as [d k e|k|k x e|k]; try reflexivity. cbn [released].
      destruct (st_success st); [|reflexivity]. split.
      + apply forallb_forall. intros c I. apply in_flat_map in I as (u & _ & I). destruct (due_now_is _ _ _ _ I) as [d ->].
        unfold of_slot. cbn [fst]. apply N.eqb_refl.
      + intros u. rewrite (ag_view _ _ A). rewrite (filter_flat _ _ u); [apply due_now_owner| | |].
        * eapply Permutation_NoDup; [apply ORD|apply (ag_users _ _ A)].
        * intros j NE. apply filter_none. intros c I. destruct (due_now_is _ _ _ _ I) as [d ->]. unfold of_owner. cbn [fst snd].
          now replace (j =? u) with false by lia.
        * intros NI. apply filter_none. intros c I. destruct (due_now_is _ _ _ _ I) as [d ->]. unfold with_value. cbn [snd].
          destruct (N.eqb_spec (vals m k u) 0) as [V|V]; [now rewrite andb_false_r|]. exfalso. apply NI.
          eapply Permutation_in; [apply ORD|]. eapply (ag_known _ _ A), V.
    - injection E as <- <- <- <-. split.
      + eapply agrees_exit; eauto. apply (ag_users _ _ A).
      + cbn [windows_rule]. intros k. rewrite (ag_view _ _ A).
        rewrite (filter_flat _ (fun k => due_now null_too m k f) k); [apply due_now_slot| | |].
        * eapply Permutation_NoDup; [apply ORD|apply (ag_live _ _ A)].
        * intros j NE. apply filter_none. intros c I. destruct (due_now_is _ _ _ _ I) as [d ->]. unfold of_slot. cbn [fst].
          now replace (j =? k) with false by lia.
        * intros NI. unfold due_now. destruct (slot m k) eqn:SL; [|reflexivity]. exfalso. apply NI. eapply Permutation_in; [apply ORD|].
          eapply slot_in, SL.
    - injection E as <- <- <- <-. split; [|reflexivity]. destruct A as [AL AU AK AV]. split; auto.
      intros k t. rewrite stored_snoc, AV. reflexivity.
  Qed.
  Lemma windows_history es : forall m0 tr0 m tr, agrees m0 tr0 -> history (windows_step order null_too) m0 es = (m, tr) ->
    agrees m (tr0 ++ tr).
  Proof.
    induction es as [|ev es IH]; intros m0 tr0 m tr A E; cbn [history] in E.
    - injection E as <- <-. now rewrite app_nil_r.
    - destruct (windows_step _ _ m0 ev) as [[[st r] m1] log] eqn:S. destruct (history _ m1 es) as [m2 tr2] eqn:H.
      injection E as <- <-. change ((ev, st, r, log) :: tr2) with ([(ev, st, r, log)] ++ tr2). rewrite app_assoc.
      eapply IH; [|exact H]. eapply windows_step_ok; eassumption.
  Qed.
  Lemma windows_ok es m tr ev st r m' log :
    history (windows_step order null_too) no_slots es = (m, tr) -> windows_step order null_too m ev = (st, r, m', log) ->
    windows_rule tr ev st log.
  Proof. intros H S. eapply windows_step_ok; [|exact S]. exact (windows_history es no_slots [] m tr agrees_nil H). Qed.
End Windows.

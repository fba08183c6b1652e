(** Proofs about the answers of the calls on thread-local storage. *)
From Verif Require Import Base Status SyncModel ApiModel ApiProofs WinModel WinProofs TlsDtorModel TlsDtorSpec TlsDtorProofs TlsDtorProofs2
  TlsAnswerSpec.
From Coq Require Import ZifyBool ZifyNat ZifyN Permutation.
Local Open Scope N_scope.

Lemma used_stored m tr k t : agrees m tr -> in_use m k = match stored k t tr with Some _ => true | None => false end.
Proof. intros A. rewrite (ag_view _ _ A). unfold view, in_use. now destruct (slot m k). Qed.
Lemma value_stored m tr k t d x : agrees m tr -> stored k t tr = Some (d, x) -> vals m k t = x.
Proof. intros A. rewrite (ag_view _ _ A). unfold view. destruct (slot m k); [|discriminate]. now intros [= _ ->]. Qed.
Lemma to_u64_of x : x < W64 -> to_u64 (Z.of_N x) = x.
Proof. intros L. unfold to_u64. rewrite ?Z.mod_small; [lia|]. unfold W64 in L. lia. Qed.

Lemma posix_answers m tr t c st r m' : agrees m tr -> posix_call m t c = (st, r, m') -> answer_rule None tr (Call t c) st r.
Proof.
  intros A E. destruct c as [d k e|k|k x e|k]; cbn [posix_call] in E; cbn [answer_rule].
  - intros -> _. unfold tls_alloc in E. cbn [posix_system answer new_key] in E. change (negb (0 =? 0)) with false in E. cbv iota in E.
    rewrite (used_stored m tr k t A) in E. destruct (stored k t tr); cbn in E; injection E as <- <- _; split; intros; congruence || auto.
  - unfold tls_free in E. cbn [posix_system answer] in E. rewrite (used_stored m tr k t A) in E.
    destruct (stored k t tr); cbn in E; injection E as <- <- _; split; intros; congruence || auto.
  - intros ->. unfold tls_set_value in E. cbn [posix_system answer] in E. change (negb (0 =? 0)) with false in E. cbv iota in E.
    rewrite (used_stored m tr k t A) in E. destruct (stored k t tr); cbn in E; injection E as <- <- _; split; intros; congruence || auto.
  - unfold tls_get_value in E. cbn [posix_system answer] in E. rewrite (used_stored m tr k t A) in E.
    injection E as <- <- _. split; [reflexivity|]. intros d x S L. rewrite S, (value_stored _ _ _ _ _ _ A S). now rewrite to_u64_of.
Qed.
Lemma windows_answers order null_too m tr t c st r m' log : agrees m tr -> windows_call order null_too m t c = (st, r, m', log) ->
  answer_rule (Some FLS_OUT_OF_INDEXES) tr (Call t c) st r.
Proof.
  intros A E. destruct c as [d k e|k|k x e|k]; cbn [windows_call] in E; cbn [answer_rule].
  - intros -> LK. specialize (LK _ eq_refl). unfold win_tls_alloc in E. cbn [windows_system wanswer] in E.
    change (0 =? 0) with true in E. cbn [andb] in E. rewrite (used_stored m tr k t A) in E.
    assert (LT : (k <? FLS_OUT_OF_INDEXES) = true) by lia. rewrite LT, andb_true_r in E.
    destruct (stored k t tr); cbn [negb] in E.
    + change (to_u32 4294967295 =? FLS_OUT_OF_INDEXES) with true in E. cbv iota in E.
      destruct (fold_left _ [FlsAllocCall d] _) as [m1 log1]. cbn in E. injection E as <- <- _ _. split; intros; congruence || auto.
    + assert (U : to_u32 (Z.of_N k) = k). { unfold to_u32, FLS_OUT_OF_INDEXES in *. rewrite Z.mod_small by lia. lia. }
      rewrite U in E. assert (NE : (k =? FLS_OUT_OF_INDEXES) = false) by lia. rewrite NE in E.
      destruct (fold_left _ [FlsAllocCall d] _) as [m1 log1]. cbn in E. injection E as <- <- _ _. split; intros; congruence || auto.
  - unfold win_tls_free in E. cbn [windows_system wanswer] in E. rewrite (used_stored m tr k t A) in E.
    destruct (fold_left _ [FlsFreeCall k] _) as [m1 log1].
    destruct (stored k t tr); cbn in E; injection E as <- <- _ _; split; intros; congruence || auto.
  - intros ->. unfold win_tls_set_value in E. cbn [windows_system wanswer wlast_error] in E. change (0 =? 0) with true in E. cbn [andb] in E.
    rewrite (used_stored m tr k t A) in E. destruct (fold_left _ [FlsSetCall k x] _) as [m1 log1].
    destruct (stored k t tr); cbn in E; injection E as <- <- _ _; split; intros; congruence || auto.
  - unfold win_tls_get_value in E. cbn [windows_system wanswer] in E. rewrite (used_stored m tr k t A) in E.
    destruct (fold_left _ [FlsGetCall k] _) as [m1 log1].
    injection E as <- <- _ _. split; [reflexivity|]. intros d x S L. rewrite S, (value_stored _ _ _ _ _ _ A S). now rewrite to_u64_of.
Qed.

Lemma posix_answer_ok act order rounds : (forall d x, act d x = []) -> any_order order -> (1 <= rounds)%nat ->
  forall es m tr ev st r m' log,
    history (posix_step act order rounds) no_slots es = (m, tr) -> posix_step act order rounds m ev = (st, r, m', log) ->
    answer_rule None tr ev st r.
Proof.
  intros Q O R es m tr ev st r m' log H E.
  pose proof (posix_history act order rounds Q O R es no_slots [] m tr agrees_nil H) as A. cbn [app] in A.
  destruct ev as [t c|t|]; [|exact Logic.I|exact Logic.I]. cbn [posix_step] in E. destruct (posix_call m t c) as [[st1 r1] m1] eqn:C.
  injection E as <- <- _ _. eapply posix_answers; eassumption.
Qed.
Lemma windows_answer_ok order null_too : any_order order ->
  forall es m tr ev st r m' log,
    history (windows_step order null_too) no_slots es = (m, tr) -> windows_step order null_too m ev = (st, r, m', log) ->
    answer_rule (Some FLS_OUT_OF_INDEXES) tr ev st r.
Proof.
  intros O es m tr ev st r m' log H E.
  pose proof (windows_history order null_too O es no_slots [] m tr agrees_nil H) as A. cbn [app] in A.
  destruct ev as [t c|t|]; [|exact Logic.I|exact Logic.I]. cbn [windows_step] in E. eapply windows_answers; eassumption.
Qed.

(** How long the pointers that strings give out stay valid. *)
From Coq Require Import ZifyBool ZifyNat ZifyN.
From Verif Require Import Base NListFacts Status Mem MemFacts VectorModel VectorSpec VectorDriver RefuseSpec StableSpec
  VectorRep VectorProofs VectorProofs2 VectorProofs3 VectorRefine VectorFail VectorMore OracleProofs RefuseProofs StableProofs
  StringModel StringSpec StringDriver StringBytes StringProofs StringFinal StrRefuseSpec StrRefuseProofs StrRefuseProofs2.

Definition svec (a : status * str) : vector N := s_vec (snd a).

Lemma still_nullterminate s : still (nullterminate s).
Proof. apply still_mwrite. Qed.
Lemma still_assert_null s : still (assert_nullterminated s).
Proof.
  intros w a w' H. unfold assert_nullterminated in H. destruct (checked w).
  - refine (_ w a w' H). change (still (let* x := mread (padd (sdata s) (wsub (ssize s) 1)) 1 in
      assert (match x with [c] => c =? 0 | _ => false end))). calm.
  - injection H as <- <-. split; [apply later_refl|reflexivity].
Qed.
Lemma still_mread1 p : still (mread1 p).
Proof. unfold mread1. calm. Qed.
Ltac scalm := repeat first [apply still_nullterminate | apply still_assert_null | apply still_mread1 | progress calm].

Lemma tracks_after s (m : Mem.M N (status * vector N)) (f : vector N -> Mem.M N unit) (h : vector N -> vector N) :
  tracks vdata (s_vec s) m -> (forall v, still (f v)) ->
  (forall v, v_data (h v) = v_data v /\ v_esz (h v) = v_esz v /\ v_alloc (h v) = v_alloc v) ->
  tracks svec (s_vec s) (let* (r, v) := m in if negb (st_success r) then ret (r, with_vec s v) else f v ;;; ret (ST_SUCCESS, with_vec s (h v))).
Proof.
  intros M F H. apply (tracks_bind vdata); [exact M|]. intros [r v]. change (vdata (r, v)) with v.
  destruct (negb _); [now apply tracks_ret|]. apply tracks_then; [apply F|intros _]. now apply tracks_ret; cbn; apply H.
Qed.
Ltac sdata0 := intros ?; split; [|split]; reflexivity.

Lemma tracks_append s q : tracks svec (s_vec s) (sappend s q).
Proof.
  unfold sappend. destruct (_ =? _); [now apply tracks_ret|].
  apply (tracks_bind vdata); [apply tracks_resize|]. intros [r v]. change (vdata (r, v)) with v.
  destruct (negb _); [now apply tracks_ret|]. apply tracks_then; [scalm|intros _]. apply tracks_then; [scalm|intros _]. now apply tracks_ret.
Qed.
Lemma tracks_append_ex s q j n : tracks svec (s_vec s) (sappend_ex s q j n).
Proof.
  unfold sappend_ex. destruct (_ =? _); [now apply tracks_ret|]. destruct (_ <=? _); [now apply tracks_ret|].
  apply (tracks_bind vdata); [apply tracks_resize|]. intros [r v]. change (vdata (r, v)) with v.
  destruct (negb _); [now apply tracks_ret|]. apply tracks_then; [scalm|intros _]. apply tracks_then; [scalm|intros _]. now apply tracks_ret.
Qed.
Lemma tracks_insert s i q : tracks svec (s_vec s) (sinsert s i q).
Proof.
  unfold sinsert. destruct (_ =? _); [now apply tracks_ret|]. destruct (_ =? _); [apply tracks_append|].
  destruct (_ <=? _); [now apply tracks_ret|].
  apply (tracks_bind vdata); [apply tracks_insert_range|]. intros [r v]. change (vdata (r, v)) with v.
  destruct (negb _); [now apply tracks_ret|]. apply tracks_then; [scalm|intros _]. now apply tracks_ret.
Qed.
Lemma tracks_insert_ex s i q j n : tracks svec (s_vec s) (sinsert_ex s i q j n).
Proof.
  unfold sinsert_ex. destruct (_ =? _); [now apply tracks_ret|]. destruct (_ =? _); [apply tracks_append_ex|].
  destruct (_ <=? _); [now apply tracks_ret|]. destruct (_ <=? _); [now apply tracks_ret|].
  apply (tracks_bind vdata); [apply tracks_insert_range|]. intros [r v]. change (vdata (r, v)) with v.
  destruct (negb _); [now apply tracks_ret|]. apply tracks_then; [scalm|intros _]. now apply tracks_ret.
Qed.
Lemma still_case_loop step s n : forall i, still (case_loop step s i n).
Proof. induction n as [|n IH]; intros i; cbn [case_loop]; scalm. apply IH. Qed.
Lemma tracks_case_ex step s i n : tracks svec (s_vec s) (scase_ex step s i n).
Proof. unfold scase_ex. destruct (_ <=? _); [now apply tracks_ret|]. apply tracks_then; [apply still_case_loop|intros _]. now apply tracks_ret. Qed.

Lemma tracks_run_sop s o : tracks svec (s_vec s) (run_sop s o).
Proof.
  assert (K : forall r v, tracks svec v (ret (r, with_vec s v))) by (intros; now apply tracks_ret).
  destruct o; cbn [run_sop]; unfold with_view.
  - apply tracks_with_arg. intros q. apply tracks_append.
  - apply tracks_with_arg. intros q. apply tracks_append_ex.
  - apply tracks_with_arg. intros q. apply tracks_insert.
  - apply tracks_with_arg. intros q. apply tracks_insert_ex.
  - unfold sdelete. destruct (_ <=? _); [now apply tracks_ret|].
    apply (tracks_after s _ (fun v => nullterminate (with_vec s v)) (fun v => v)); [apply tracks_delete_range|intros; scalm|sdata0].
  - unfold struncate. destruct (_ <=? _); [now apply tracks_ret|].
    apply (tracks_after s _ (fun v => nullterminate (with_vec s v)) (fun v => v)); [apply tracks_delete_range|intros; scalm|sdata0].
  - unfold sclear. apply (tracks_bind vdata); [apply tracks_resize|]. intros [r v]. change (vdata (r, v)) with v.
    destruct (negb _); [now apply tracks_ret|]. apply tracks_then; [scalm|intros _]. apply tracks_then; [scalm|intros _]. now apply tracks_ret.
  - unfold sresize.
    apply (tracks_after s _ (fun v => nullterminate (with_vec s v)) (fun v => v)); [apply tracks_resize|intros; scalm|sdata0].
  - apply tracks_with_arg. intros q. unfold sset_char. destruct (_ <=? _); [now apply tracks_ret|].
    apply (tracks_bind vdata); [apply tracks_set|]. intros [r v]. apply K.
  - apply tracks_case_ex.
  - apply tracks_case_ex.
  - apply tracks_case_ex.
  - apply tracks_case_ex.
  - unfold sreserve. apply (tracks_bind vdata); [apply tracks_reserve|]. intros [r v]. apply K.
  - unfold sshrink_to_fit. apply (tracks_bind vdata); [apply tracks_vreallocate|]. intros [r v]. apply K.
Qed.
Lemma tracks_run_sops : forall ops s, tracks (fun a : list status * str => s_vec (snd a)) (s_vec s) (run_sops s ops).
Proof.
  induction ops as [|o ops IH]; intros s; cbn [run_sops]; [now apply tracks_ret|].
  apply (tracks_bind svec); [apply tracks_run_sop|]. intros [r s1]. change (svec (r, s1)) with (s_vec s1).
  eapply tracks_bind; [apply IH|]. intros [rs s2]. now apply tracks_ret.
Qed.

(** ** Strings that a history has reached *)
Lemma srep_live w s pre cs post : srep w s pre cs post -> exists q, sdata s = Some q /\ pb q < nextb w.
Proof.
  intros [R _]. exists (mkptr (blk (s_vec s)) (nlen pre)). split; [exact (brep_data _ _ _ _ _ R)|exact (brep_lt _ _ _ _ _ R)].
Qed.
Lemma mread_part (p : option ptr) (x : list N) w i n :
  mread p (nlen x) w = Ok x w -> i + n <= nlen x -> mread (padd p i) n w = Ok (nsub i n x) w.
Proof.
  intros H L. destruct p as [q|]; [|discriminate H]. cbn [padd mread pb po] in *.
  destruct (heap w (pb q)) as [buf|]; [|discriminate H]. destruct (N.leb_spec (po q + nlen x) (nlen buf)); [|discriminate H].
  destruct (N.leb_spec (po q + i + n) (nlen buf)); [|lia]. f_equal. injection H as H.
  pose proof (nthree (po q) (nlen x) buf) as E. rewrite H in E. rewrite <- E.
  pose proof (nthree i n x) as E2. rewrite <- E2 at 1. rewrite <- !app_assoc.
  rewrite (app_assoc (nfirst (po q) buf)). apply nsub_mid; [|apply nlen_nsub; lia].
  rewrite nlen_app, !nlen_nfirst. lia.
Qed.

(** The pointer is to be used as long as no request has been granted ... *)
Theorem data_stays w s cs o ops rs s' w' cs' :
  sreached w s cs -> run_sops s ops (with_oracle w o) = Ok (rs, s') w' -> sshows w' s' cs' ->
  ~ granted (with_oracle w o) w' ->
  sget_data s' = sget_data s /\
  forall i n, i + n <= nlen cs' + 1 -> mread (padd (snd (sget_data s)) i) n w' = Ok (nsub i n (cs' ++ [0])) w'.
Proof.
  intros H E SH NG. apply tracks_run_sops in E. apply moved_oracle in E as [_ E]. cbn [snd] in *.
  destruct E as [[_ D]|[G' _]]; [|contradiction]. unfold sget_data, sdata. rewrite D. split; [reflexivity|].
  intros i n L. destruct SH as (_ & _ & RD). cbn [sget_data snd] in *. unfold sdata in RD. rewrite D in RD.
  apply mread_part; rewrite nlen_app, nlen_cons, nlen_nil, N.add_0_r; [exact RD|exact L].
Qed.
(** ... and not any longer. *)
Theorem data_ends w s cs o ops rs s' w' :
  sreached w s cs -> run_sops s ops (with_oracle w o) = Ok (rs, s') w' ->
  granted (with_oracle w o) w' -> dead (snd (sget_data s)) w'.
Proof.
  intros H E GR. apply sreached_rep in H as (pre & post & R & _). destruct (srep_live _ _ _ _ _ R) as (q & D & L).
  apply tracks_run_sops in E. apply moved_oracle in E as [_ E]. cbn [snd] in *. destruct E as [[NG _]|[_ X]]; [contradiction|].
  cbn [sget_data snd]. rewrite D. apply dead_block. apply X; assumption.
Qed.

(** A view of the whole string shows what is in the place where the string was when the view was made. *)
Theorem view_stays w s cs o ops rs s' w' cs' old q :
  sreached w s cs -> view_inside_view old s = (ST_SUCCESS, q) ->
  run_sops s ops (with_oracle w o) = Ok (rs, s') w' -> sshows w' s' cs' -> ~ granted (with_oracle w o) w' -> nlen cs <= nlen cs' ->
  views_part w' q (nfirst (nlen cs) cs').
Proof.
  intros H V E SH NG L. destruct (data_stays _ _ _ _ _ _ _ _ _ H E SH NG) as [_ RD].
  apply sreached_rep in H as (pre & post & R & _). injection V as <-.
  assert (NL : nlen (nfirst (nlen cs) cs') = nlen cs) by (rewrite nlen_nfirst; lia).
  split; [|split].
  - rewrite NL. exact (srep_size _ _ _ _ _ R).
  - rewrite NL. exact (srep_lt _ _ _ _ _ R).
  - rewrite NL. specialize (RD 0 (nlen cs) ltac:(lia)). cbn [sget_data snd] in RD.
    replace (padd (sdata s) 0) with (sdata s) in RD
      by (destruct (sdata s) as [[b n]|]; cbn [padd pb po]; rewrite ?N.add_0_r; reflexivity).
    rewrite <- (nskip_0 cs') at 1. change (nfirst (nlen cs) (nskip 0 cs')) with (nsub 0 (nlen cs) cs').
    change (sdata (set_view old (sdata s) (ssize s))) with (sdata s). rewrite RD. f_equal.
    unfold nsub. rewrite !nskip_0. rewrite <- (nfirst_skip (nlen cs) cs') at 1. rewrite <- app_assoc. now apply nfirst_app_l.
Qed.
Theorem view_ends w s cs o ops rs s' w' old q :
  sreached w s cs -> view_inside_view old s = (ST_SUCCESS, q) ->
  run_sops s ops (with_oracle w o) = Ok (rs, s') w' -> granted (with_oracle w o) w' -> dead (snd (view_get_data q)) w'.
Proof. intros H V E GR. injection V as <-. exact (data_ends _ _ _ _ _ _ _ _ H E GR). Qed.

(** One call, in terms of the size and the capacity. *)
Theorem data_call w s cs cap o :
  sreached_own w s cs -> sget_capacity s w = Ok (ST_SUCCESS, cap) w -> sums_ok o -> sroom (nlen cs + sdemand o) ->
  exists r s' w' cs', run_sop s o w = Ok (r, s') w' /\ sshows w' s' cs' /\ sspec None o cs r cs' /\
    (granted w w' <-> sasked (v_growth (s_vec s)) (v_shrink (s_vec s)) o (mksst cs cap) <> None).
Proof.
  intros H CP SO F. apply sreached_own_rep in H as (R & NF & A).
  destruct (run_sop_ok w s [] cs [] o R) as (r & w' & s' & cs' & E & G & SP); auto.
  { intros _. apply NF. exact A. }
  unfold limit_of in SP. rewrite A in SP.
  exists r, s', w', cs'. split; [exact E|]. split; [apply (srep_shows w' s' [] cs' []), (sgood_rep _ _ _ _ _ _ _ _ R G)|]. split; [exact SP|].
  pose proof (srep_does w s cs R A o SO F _ _ _ _ E) as [T _].
  assert (cap = v_cap (s_vec s) - 1) as ->.
  { pose proof (brep_cap _ _ _ _ _ (proj1 R)) as [C1 C2]. unfold sget_capacity, bind in CP.
    destruct (assert_cases (1 <=? v_cap (s_vec s)) w) as [X|X]; rewrite X in CP; [|discriminate CP].
    injection CP as <-. apply wsub_small; lia. }
  destruct (sasked _ _ o _).
  - split; [discriminate|]. intros _. destruct (NF A (tick w)) as [fill OE]. exists (tick w), fill. repeat split; auto; lia.
  - split; [|congruence]. intros (t & f & L1 & L2 & _). lia.
Qed.
Theorem fixed_string_never_moves w s cs o ops rs s' w' :
  sreached_buf w s cs -> run_sops s ops (with_oracle w o) = Ok (rs, s') w' -> tick w' = tick w.
Proof.
  intros H E.
  assert (A : v_alloc (s_vec s) = false).
  { now apply sreached_buf_rep in H as (pre & post & R & _ & A). }
  apply tracks_run_sops in E as (_ & (_ & _ & T) & _). exact (T A).
Qed.

Lemma srun_one s o w r s' w' : run_sop s o w = Ok (r, s') w' -> run_sops s [o] w = Ok ([r], s') w'.
Proof. intros H. cbn [run_sops]. unfold bind at 1. rewrite H. reflexivity. Qed.
Lemma reached_capacity w s cs : sreached_own w s cs -> exists cap, sget_capacity s w = Ok (ST_SUCCESS, cap) w.
Proof.
  intros H. apply sreached_own_rep in H as (R & _). pose proof (brep_cap _ _ _ _ _ (proj1 R)) as [C1 _].
  eexists. unfold sget_capacity, bind, assert. replace (1 <=? v_cap (s_vec s)) with true by lia. reflexivity.
Qed.

(** A string on a buffer of the caller can be used with any allocator. *)
Lemma fixed_runs w s cs ops o : sreached_buf w s cs -> Forall sums_ok ops -> sroom (nlen cs + sdemands ops) ->
  exists rs s' w', run_sops s ops (with_oracle w o) = Ok (rs, s') w'.
Proof.
  intros H SO F. apply sreached_buf_rep in H as (pre & post & R & NF & A).
  assert (NF2 : snofail (with_oracle w o) s) by (intros X; congruence).
  assert (R2 : srep (with_oracle w o) s pre cs post).
  { destruct R as [R FL]. split; [|exact FL]. destruct R as [R L]. split; [|exact L]. destruct R. split; auto.
    destruct r_heap as (x & SP & HH). exists x. split; [|exact HH]. destruct SP as [S1 S2]. split; [exact S1|]. intros _. apply S2. exact NF. }
  destruct (run_sops_ok ops _ _ _ _ _ R2 NF2 SO F) as (rs & w' & s' & cs' & E & _). now exists rs, s', w'.
Qed.

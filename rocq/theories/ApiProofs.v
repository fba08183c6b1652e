(** The system wrappers. *)
From Verif Require Import Base Status SyncModel ApiModel ApiSpec.
From Coq Require Import ZifyBool ZifyNat ZifyN.

Lemma virtual_protect_ok a n p s : exists st,
  virtual_protect a n p s = (st, [Mprotect a n (prot_value p)]) /\
  (st = ST_SUCCESS <-> answer s (Mprotect a n (prot_value p)) = 0%Z) /\
  (st_success st = true <-> answer s (Mprotect a n (prot_value p)) = 0%Z).
Proof.
  unfold virtual_protect. eexists. split; [reflexivity|].
  destruct (Z.eqb_spec (answer s (Mprotect a n (prot_value p))) 0) as [E|NE]; cbn [negb];
    split; split; intros H; try reflexivity; try assumption; try discriminate; contradiction.
Qed.
Lemma virtual_free_ok a n s : exists st,
  virtual_free a n s = (st, [Munmap a n]) /\
  (st = ST_SUCCESS <-> answer s (Munmap a n) = 0%Z) /\ (st_success st = true <-> answer s (Munmap a n) = 0%Z).
Proof.
  unfold virtual_free. eexists. split; [reflexivity|].
  destruct (Z.eqb_spec (answer s (Munmap a n)) 0) as [E|NE]; cbn [negb];
    split; split; intros H; try reflexivity; try assumption; try discriminate; contradiction.
Qed.
Lemma flush_ok a n s : exists st,
  flush_instruction_cache a n s = (st, [Msync a n 6]) /\
  (st = ST_SUCCESS <-> answer s (Msync a n 6) = 0%Z) /\ (st_success st = true <-> answer s (Msync a n 6) = 0%Z).
Proof.
  unfold flush_instruction_cache. change (N.lor MS_SYNC MS_INVALIDATE) with 6. eexists. split; [reflexivity|].
  destruct (Z.eqb_spec (answer s (Msync a n 6)) 0) as [E|NE]; cbn [negb];
    split; split; intros H; try reflexivity; try assumption; try discriminate; contradiction.
Qed.
(** Every protection asks for exactly the rights in its name. *)
Lemma prot_bits p :
  N.testbit (prot_value p) 0 = match p with Execute => false | _ => true end /\
  N.testbit (prot_value p) 1 = match p with ReadWrite | ExecuteReadWrite => true | _ => false end /\
  N.testbit (prot_value p) 2 = match p with Execute | ExecuteRead | ExecuteReadWrite => true | _ => false end /\
  prot_value p < 8.
Proof. destruct p; repeat split. Qed.
Lemma page_size_ok s : (0 <= answer s Sysconf_page_size < 4294967296)%Z ->
  Z.of_N (fst (page_size s)) = answer s Sysconf_page_size /\
  Z.of_N (fst (allocation_granularity s)) = answer s Sysconf_page_size.
Proof.
  intros H. unfold page_size, allocation_granularity, to_u32. cbn [fst]. rewrite Z.mod_small by exact H.
  rewrite Z2N.id by lia. auto.
Qed.

Lemma tls_alloc_ok old d s :
  (answer s (Key_create d) = 0%Z -> tls_alloc old d s = (ST_SUCCESS, new_key s, [Key_create d])) /\
  (answer s (Key_create d) <> 0%Z -> exists st, tls_alloc old d s = (st, old, [Key_create d]) /\ st_success st = false /\
     (answer s (Key_create d) = Z.of_N EAGAIN -> st = ST_OUT_OF_RESOURCES) /\
     (answer s (Key_create d) = Z.of_N ENOMEM -> st = ST_NOT_ENOUGH_MEMORY)).
Proof.
  unfold tls_alloc. split; intros H.
  - rewrite H. reflexivity.
  - apply Z.eqb_neq in H. rewrite H. cbn [negb]. eexists. split; [reflexivity|].
    destruct (Z.eqb_spec (answer s (Key_create d)) (Z.of_N EAGAIN)) as [E|N1].
    + rewrite E. repeat split. discriminate.
    + destruct (Z.eqb_spec (answer s (Key_create d)) (Z.of_N ENOMEM)) as [E|N2].
      * repeat split. intros H1. contradiction.
      * repeat split; intros H1; contradiction.
Qed.
Lemma tls_free_ok i s : snd (tls_free i s) = [Key_delete i] /\
  (st_success (fst (tls_free i s)) = true <-> answer s (Key_delete i) = 0%Z).
Proof.
  split; [reflexivity|]. unfold tls_free. cbn [fst].
  destruct (Z.eqb_spec (answer s (Key_delete i)) 0) as [E|NE]; split; intros H;
    try reflexivity; try assumption; try discriminate; contradiction.
Qed.
Lemma tls_get_ok i s : (0 <= answer s (Getspecific i) < 2 ^ 64)%Z ->
  exists d, tls_get_value i s = (ST_SUCCESS, d, [Getspecific i]) /\ Z.of_N d = answer s (Getspecific i).
Proof.
  intros H. unfold tls_get_value, to_u64. eexists. split; [reflexivity|].
  change (2 ^ 64)%Z with 18446744073709551616%Z in H. rewrite Z.mod_small by exact H. now apply Z2N.id.
Qed.
Lemma tls_set_ok i d s : snd (tls_set_value i d s) = [Setspecific i d] /\
  (st_success (fst (tls_set_value i d s)) = true <-> answer s (Setspecific i d) = 0%Z) /\
  (answer s (Setspecific i d) = Z.of_N EINVAL -> fst (tls_set_value i d s) = ST_INVALID_ARGUMENT).
Proof.
  split; [reflexivity|]. unfold tls_set_value. cbn [fst].
  destruct (Z.eqb_spec (answer s (Setspecific i d)) 0) as [E|NE]; cbn [negb].
  - split; [split; auto|]. rewrite E. discriminate.
  - destruct (Z.eqb_spec (answer s (Setspecific i d)) (Z.of_N EINVAL)) as [E|N1].
    + split; [split; [discriminate|contradiction]|reflexivity].
    + split; [split; [discriminate|contradiction]|contradiction].
Qed.

Lemma vt100_ok stream : enable_vt100 stream = if (stream =? 1) || (stream =? 2) then ST_SUCCESS else ST_INVALID_ARGUMENT.
Proof.
  unfold enable_vt100, STDSTREAM_OUT, STDSTREAM_ERR. destruct (stream =? 1), (stream =? 2); reflexivity.
Qed.
Lemma is_tty_ok stream s : stream <= 2 ->
  (answer s (Isatty stream) <> 0%Z -> is_tty stream s = Some ST_TRUE) /\
  (answer s (Isatty stream) = 0%Z -> errno s (Isatty stream) = EBADF -> is_tty stream s = Some ST_INVALID_ARGUMENT) /\
  (answer s (Isatty stream) = 0%Z -> errno s (Isatty stream) <> EBADF -> is_tty stream s = Some ST_FALSE).
Proof.
  intros L. unfold is_tty.
  assert (F : (if stream =? STDSTREAM_IN then Some 0 else if stream =? STDSTREAM_OUT then Some 1
               else if stream =? STDSTREAM_ERR then Some 2 else None) = Some stream).
  { unfold STDSTREAM_IN, STDSTREAM_OUT, STDSTREAM_ERR.
    destruct (N.eqb_spec stream 0); [congruence|]. destruct (N.eqb_spec stream 1); [congruence|].
    destruct (N.eqb_spec stream 2); [congruence|lia]. }
  rewrite F. cbv zeta beta iota. repeat split.
  - intros H. apply Z.eqb_neq in H. now rewrite H.
  - intros -> ->. reflexivity.
  - intros -> H. apply N.eqb_neq in H. now rewrite H.
Qed.

(** ** Thread-local storage *)
(** A step: what the wrapper reports is what the system did. *)
Lemma tls_step_alloc m u k e :
  (e = 0 /\ tls_step m u (TAlloc k e) =
     (ST_SUCCESS, Some k, mktls (k :: keys m) (fun k' v => if k' =? k then 0 else values m k' v))) \/
  (e <> 0 /\ exists st, tls_step m u (TAlloc k e) = (st, None, m) /\ st_success st = false).
Proof.
  destruct (tls_alloc_ok 0 0 (tls_system m u k e)) as [S F]. cbn [tls_system answer new_key] in S, F.
  destruct (N.eq_dec e 0) as [->|NE]; [left; split; [reflexivity|]|right; split; [exact NE|]].
  - cbn [tls_step]. rewrite (S eq_refl). reflexivity.
  - destruct F as (st & E & ST & _); [lia|]. exists st. split; [|exact ST]. cbn [tls_step]. rewrite E, ST.
    unfold tls_effects. cbn [fold_left]. unfold tls_effect_of. cbn [tls_system answer].
    destruct (Z.eqb_spec (Z.of_N e) 0) as [X|_]; [lia|reflexivity].
Qed.
Lemma tls_step_free m u k :
  exists st, tls_step m u (TFree k) =
    (st, None, if st_success st then mktls (remove N.eq_dec k (keys m)) (values m) else m).
Proof.
  destruct (tls_free_ok k (tls_system m u 0 0)) as [C S]. cbn [tls_step].
  destruct (tls_free k (tls_system m u 0 0)) as [st cs]. cbn [fst snd] in C, S. subst cs. exists st. f_equal.
  unfold tls_effects. cbn [fold_left]. unfold tls_effect_of.
  destruct (Z.eqb_spec (answer (tls_system m u 0 0) (Key_delete k)) 0) as [E|NE]; cbn [negb].
  - apply S in E. now rewrite E.
  - destruct (st_success st); [|reflexivity]. exfalso. now apply NE, S.
Qed.
Lemma tls_step_set m u k d e :
  exists st, tls_step m u (TSet k d e) =
    (st, None, if st_success st
               then mktls (keys m) (fun k2 v => if (k2 =? k) && (v =? u) then d else values m k2 v) else m).
Proof.
  destruct (tls_set_ok k d (tls_system m u 0 e)) as (C & S & _). cbn [tls_step].
  destruct (tls_set_value k d (tls_system m u 0 e)) as [st cs]. cbn [fst snd] in C, S. subst cs. exists st. f_equal.
  unfold tls_effects. cbn [fold_left]. unfold tls_effect_of.
  destruct (Z.eqb_spec (answer (tls_system m u 0 e) (Setspecific k d)) 0) as [E|NE]; cbn [negb].
  - apply S in E. now rewrite E.
  - destruct (st_success st); [|reflexivity]. exfalso. now apply NE, S.
Qed.
Lemma tls_step_get m u k : exists d, tls_step m u (TGet k) = (ST_SUCCESS, Some d, m).
Proof.
  cbn [tls_step]. unfold tls_get_value. eexists. f_equal. unfold tls_effects. cbn [fold_left]. unfold tls_effect_of.
  destruct (negb _); reflexivity.
Qed.
Lemma tls_step_values m u c k t st r m' : tls_step m u c = (st, r, m') ->
  values m' k t = tls_effect k t (u, c, st, r) (values m k t).
Proof.
  destruct c as [k' e|k'|k' d e|k']; intros E.
  - destruct (tls_step_alloc m u k' e) as [(_ & X)|(_ & s & X & S)]; rewrite X in E; injection E as <- <- <-.
    + reflexivity.
    + unfold tls_effect. now rewrite S.
  - destruct (tls_step_free m u k') as [s X]. rewrite X in E. injection E as <- <- <-. unfold tls_effect.
    destruct (st_success s); reflexivity.
  - destruct (tls_step_set m u k' d e) as [s X]. rewrite X in E. injection E as <- <- <-. unfold tls_effect.
    destruct (st_success s); reflexivity.
  - destruct (tls_step_get m u k') as [d X]. rewrite X in E. injection E as <- <- <-. reflexivity.
Qed.
Lemma tls_run_values : forall cs m m' tr k t, tls_run m cs = (m', tr) ->
  values m' k t = tls_last k t tr (values m k t).
Proof.
  induction cs as [|[u c] cs IH]; intros m m' tr k t E; cbn [tls_run] in E.
  - injection E as <- <-. reflexivity.
  - destruct (tls_step m u c) as [[st r] m1] eqn:S. destruct (tls_run m1 cs) as [m2 tr2] eqn:R.
    injection E as <- <-. cbn [tls_last fold_left]. rewrite <- (tls_step_values m u c k t st r m1 S).
    exact (IH m1 m2 tr2 k t R).
Qed.
Lemma tls_read m t k : existsb (N.eqb k) (keys m) = true -> values m k t < W64 ->
  tls_step m t (TGet k) = (ST_SUCCESS, Some (values m k t), m).
Proof.
  intros H L. destruct (tls_get_ok k (tls_system m t 0 0)) as (d & E & D); cbn [tls_system answer] in *; rewrite H in *.
  - change (2 ^ 64)%Z with 18446744073709551616%Z. unfold W64 in L. lia.
  - cbn [tls_step]. rewrite E. unfold tls_effects. cbn [fold_left]. unfold tls_effect_of.
    destruct (negb _); apply N2Z.inj in D; now subst d.
Qed.
Lemma existsb_eqb k l : existsb (N.eqb k) l = true <-> In k l.
Proof.
  rewrite existsb_exists. split.
  - intros (x & I & E). apply N.eqb_eq in E. now subst.
  - intros I. exists k. split; [exact I|apply N.eqb_refl].
Qed.
Lemma tls_step_keys m u c k st r m' : tls_step m u c = (st, r, m') ->
  existsb (N.eqb k) (keys m') =
  match key_event k (u, c, st, r) with Some b => b | None => existsb (N.eqb k) (keys m) end.
Proof.
  destruct c as [k' e|k'|k' d e|k']; intros E.
  - destruct (tls_step_alloc m u k' e) as [(_ & X)|(_ & s & X & S)]; rewrite X in E; injection E as <- <- <-.
    + cbn [key_event keys existsb]. change (st_success ST_SUCCESS) with true. rewrite andb_true_r.
      destruct (k =? k'); reflexivity.
    + reflexivity.
  - destruct (tls_step_free m u k') as [s X]. rewrite X in E. injection E as <- <- <-. cbn [key_event].
    destruct (st_success s).
    + rewrite andb_true_r. cbn [keys]. destruct (N.eqb_spec k k') as [->|NE].
      * apply not_true_is_false. rewrite existsb_eqb. apply remove_In.
      * apply eq_true_iff_eq. rewrite !existsb_eqb. split; [apply in_remove|apply in_in_remove; congruence].
    + rewrite andb_false_r. reflexivity.
  - destruct (tls_step_set m u k' d e) as [s X]. rewrite X in E. injection E as <- <- <-.
    destruct (st_success s); reflexivity.
  - destruct (tls_step_get m u k') as [d X]. rewrite X in E. injection E as <- <- <-. reflexivity.
Qed.
Lemma tls_run_keys : forall cs m m' tr k, tls_run m cs = (m', tr) ->
  existsb (N.eqb k) (keys m') = key_live k tr (existsb (N.eqb k) (keys m)).
Proof.
  induction cs as [|[u c] cs IH]; intros m m' tr k E; cbn [tls_run] in E.
  - injection E as <- <-. reflexivity.
  - destruct (tls_step m u c) as [[st r] m1] eqn:S. destruct (tls_run m1 cs) as [m2 tr2] eqn:R.
    injection E as <- <-. unfold key_live. cbn [fold_left].
    rewrite <- (tls_step_keys m u c k st r m1 S). exact (IH m1 m2 tr2 k R).
Qed.
Lemma tls_last_bound k t : forall tr x, x < W64 ->
  (forall u k' d e st r, In (u, TSet k' d e, st, r) tr -> d < W64) -> tls_last k t tr x < W64.
Proof.
  induction tr as [|e tr IH]; intros x X B; [exact X|]. cbn [tls_last fold_left].
  apply IH; [|intros u k' d e' st r I; apply (B u k' d e' st r); right; exact I].
  destruct e as [[[u c] st] r]. unfold tls_effect. destruct (st_success st); [|exact X].
  destruct c as [k' e'|k'|k' d e'|k']; try exact X.
  - destruct r as [i|]; [|exact X]. destruct (k =? i); [reflexivity|exact X].
  - destruct ((k =? k') && (t =? u)); [|exact X]. apply (B u k' d e' st r). left. reflexivity.
Qed.
Lemma tls_get_last cs m tr k t : tls_run no_tls cs = (m, tr) ->
  (forall u k' d e, In (u, TSet k' d e) cs -> d < W64) ->
  key_live k tr false = true ->
  tls_step m t (TGet k) = (ST_SUCCESS, Some (tls_last k t tr 0), m).
Proof.
  intros E B L.
  assert (IN : forall cs m0 m tr, tls_run m0 cs = (m, tr) -> forall u c st r, In (u, c, st, r) tr -> In (u, c) cs).
  { clear. induction cs as [|[u c] cs IH]; intros m0 m tr E v d st x I; cbn [tls_run] in E.
    - injection E as _ <-. destruct I.
    - destruct (tls_step m0 u c) as [[st0 r] m1]. destruct (tls_run m1 cs) as [m2 tr2] eqn:R.
      injection E as _ <-. destruct I as [I|I]; [injection I as <- <- _ _; left; reflexivity|].
      right. exact (IH m1 m2 tr2 R v d st x I). }
  pose proof (tls_run_values cs _ _ _ k t E) as V. cbn [values no_tls] in V.
  pose proof (tls_run_keys cs _ _ _ k E) as K. cbn [keys no_tls existsb] in K. rewrite L in K.
  rewrite <- V. apply tls_read; [exact K|]. rewrite V. apply tls_last_bound; [reflexivity|].
  intros u k' d e st r I. exact (B u k' d e (IN cs _ _ _ E u _ st r I)).
Qed.
(** What the wrappers make of errors they do not look at. *)
Lemma is_tty_unknown stream s : 2 < stream -> is_tty stream s = None.
Proof.
  intros L. unfold is_tty, STDSTREAM_IN, STDSTREAM_OUT, STDSTREAM_ERR.
  destruct (N.eqb_spec stream 0); [lia|]. destruct (N.eqb_spec stream 1); [lia|]. destruct (N.eqb_spec stream 2); [lia|]. reflexivity.
Qed.
Lemma page_size_error s : answer s Sysconf_page_size = (-1)%Z ->
  fst (page_size s) = 4294967295 /\ fst (allocation_granularity s) = 4294967295.
Proof. intros E. unfold page_size, allocation_granularity. cbn [fst]. rewrite E. split; reflexivity. Qed.
Lemma thread_handle s : (0 <= answer s Self < 2 ^ 64)%Z ->
  exists h, current_thread s = (ST_SUCCESS, h) /\ Z.of_N h = answer s Self /\
    forall x, readable s h = Some x -> current_thread_id s = Some (ST_SUCCESS, x).
Proof.
  intros L. exists (to_u64 (answer s Self)). split; [reflexivity|]. split.
  - unfold to_u64. rewrite Z2N.id; [|apply Z.mod_pos_bound; lia]. apply Z.mod_small. exact L.
  - intros x E. unfold current_thread_id. now rewrite E.
Qed.
Lemma thread_id_fault s : readable s (to_u64 (answer s Self)) = None -> current_thread_id s = None.
Proof. intros E. unfold current_thread_id. now rewrite E. Qed.

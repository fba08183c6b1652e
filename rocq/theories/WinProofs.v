(** The Windows branches. *)
From Verif Require Import Base NListFacts Status SyncModel SyncSpec SyncProofs ApiModel ApiSpec ApiProofs WinModel PagesModel WinSpec.
From Coq Require Import ZifyBool ZifyNat ZifyN.

(** ** Wrappers *)
Lemma win_flush_ok a n s : exists st,
  win_flush a n s = (st, [FlushCall a n]) /\ (st_success st = true <-> wanswer s (FlushCall a n) <> 0%Z).
Proof.
  unfold win_flush. eexists. split; [reflexivity|].
  destruct (Z.eqb_spec (wanswer s (FlushCall a n)) 0) as [E|NE]; split; intros H;
    try assumption; try discriminate; try contradiction; reflexivity.
Qed.
Lemma win_sizes_ok s : win_page_size s = dw_page_size s /\ win_allocation_granularity s = dw_granularity s.
Proof. split; reflexivity. Qed.
Lemma win_thread_ok s : (0 <= wanswer s ThreadIdCall < 2 ^ 32)%Z -> (0 <= wanswer s ThreadCall < 2 ^ 64)%Z ->
  exists h i, win_current_thread s = (ST_SUCCESS, h) /\ win_current_thread_id s = (ST_SUCCESS, i) /\
    Z.of_N h = wanswer s ThreadCall /\ Z.of_N i = wanswer s ThreadIdCall.
Proof.
  intros I H. unfold win_current_thread, win_current_thread_id, to_u64, to_u32.
  change (2 ^ 32)%Z with 4294967296%Z in I. change (2 ^ 64)%Z with 18446744073709551616%Z in H.
  rewrite !Z.mod_small by assumption. do 2 eexists. split; [reflexivity|]. split; [reflexivity|].
  rewrite !Z2N.id by lia. split; reflexivity.
Qed.
Lemma win_tls_alloc_ok old d s : (0 <= wanswer s (FlsAllocCall d) < 2 ^ 32)%Z ->
  (wanswer s (FlsAllocCall d) = 4294967295%Z -> win_tls_alloc old d s = (ST_OUT_OF_RESOURCES, old, [FlsAllocCall d])) /\
  (wanswer s (FlsAllocCall d) <> 4294967295%Z ->
     win_tls_alloc old d s = (ST_SUCCESS, Z.to_N (wanswer s (FlsAllocCall d)), [FlsAllocCall d])).
Proof.
  intros B. change (2 ^ 32)%Z with 4294967296%Z in B. unfold win_tls_alloc, to_u32. rewrite Z.mod_small by exact B.
  split; intros H; [now rewrite H|].
  replace (Z.to_N (wanswer s (FlsAllocCall d)) =? FLS_OUT_OF_INDEXES) with false; [reflexivity|].
  unfold FLS_OUT_OF_INDEXES. lia.
Qed.
Lemma win_tls_free_ok i s : snd (win_tls_free i s) = [FlsFreeCall i] /\
  (st_success (fst (win_tls_free i s)) = true <-> wanswer s (FlsFreeCall i) <> 0%Z).
Proof.
  split; [reflexivity|]. unfold win_tls_free. cbn [fst].
  destruct (Z.eqb_spec (wanswer s (FlsFreeCall i)) 0) as [E|NE]; cbn [negb]; split; intros H;
    try assumption; try discriminate; try contradiction; reflexivity.
Qed.
Lemma win_tls_get_ok i s : (0 <= wanswer s (FlsGetCall i) < 2 ^ 64)%Z ->
  exists d, win_tls_get_value i s = (ST_SUCCESS, d, [FlsGetCall i]) /\ Z.of_N d = wanswer s (FlsGetCall i).
Proof.
  intros H. unfold win_tls_get_value, to_u64. eexists. split; [reflexivity|].
  change (2 ^ 64)%Z with 18446744073709551616%Z in H. rewrite Z.mod_small by exact H. now apply Z2N.id.
Qed.
Lemma win_tls_set_ok i d s : snd (win_tls_set_value i d s) = [FlsSetCall i d] /\
  (st_success (fst (win_tls_set_value i d s)) = true <-> wanswer s (FlsSetCall i d) <> 0%Z) /\
  (wanswer s (FlsSetCall i d) = 0%Z -> wlast_error s (FlsSetCall i d) = 87 ->
     fst (win_tls_set_value i d s) = ST_INVALID_ARGUMENT).
Proof.
  split; [reflexivity|]. unfold win_tls_set_value. cbn [fst].
  destruct (Z.eqb_spec (wanswer s (FlsSetCall i d)) 0) as [E|NE].
  - split.
    + split; [|contradiction]. destruct (_ =? _); discriminate.
    + intros _ ->. reflexivity.
  - split; [split; auto|contradiction].
Qed.

(** ** Terminal *)
Lemma win_vt100_ok stream s : let r := win_enable_vt100 stream s in
  let fd := wanswer s (FilenoCall stream) in let h := wanswer s (OsfhandleCall fd) in
  (st_success (fst r) = true <->
     (stream = 1 \/ stream = 2) /\ (0 <= fd)%Z /\ h <> (-1)%Z /\ wanswer s (GetConsoleModeCall h) <> 0%Z /\
     exists m, In (SetConsoleModeCall h m) (snd r) /\ wanswer s (SetConsoleModeCall h m) <> 0%Z) /\
  (forall h' m, In (SetConsoleModeCall h' m) (snd r) ->
     h' = h /\ forall i, N.testbit m i = N.testbit (console_mode s h) i || (i =? 2)).
Proof.
  cbv zeta. unfold win_enable_vt100. unfold STDSTREAM_OUT, STDSTREAM_ERR. cbv zeta.
  set (fd := wanswer s (FilenoCall stream)). set (h := wanswer s (OsfhandleCall fd)).
  destruct (N.eqb_spec stream 1) as [E1|N1], (N.eqb_spec stream 2) as [E2|N2]; cbn [negb andb]; try lia.
  3:{ cbn [fst snd]. split; [split; [discriminate|intros ([X|X] & _); contradiction]|intros h' m []]. }
  all: destruct (Z.ltb_spec fd 0) as [F|F]; cbn [fst snd];
    [split; [split; [discriminate|intros (_ & X & _); lia]|intros h' m [X|[]]; discriminate]|].
  all: destruct (Z.eqb_spec h (-1)) as [H|H]; cbn [fst snd];
    [split; [split; [discriminate|intros (_ & _ & X & _); contradiction]|intros h' m [X|[X|[]]]; discriminate]|].
  all: destruct (Z.eqb_spec (wanswer s (GetConsoleModeCall h)) 0) as [G|G]; cbn [fst snd];
    [split; [split; [discriminate|intros (_ & _ & _ & X & _); contradiction]|intros h' m [X|[X|[X|[]]]]; discriminate]|].
  all: set (md := N.lor (console_mode s h) ENABLE_VT).
  all: assert (B : forall i, N.testbit md i = N.testbit (console_mode s h) i || (i =? 2)) by
    (intros i; unfold md; rewrite N.lor_spec; f_equal; change ENABLE_VT with (2 ^ 2); rewrite N.pow2_bits_eqb;
     apply N.eqb_sym).
  all: destruct (Z.eqb_spec (wanswer s (SetConsoleModeCall h md)) 0) as [S|S]; cbn [fst snd];
    (split; [|intros h' m [X|[X|[X|[X|[]]]]]; try discriminate; injection X as <- <-; split; [reflexivity|exact B]]).
  all: split; [intros X; try discriminate|intros X].
  all: try reflexivity.
  2,4: split; [auto|]; split; [exact F|]; split; [exact H|]; split; [exact G|]; exists md; split;
       [right; right; right; left; reflexivity|exact S].
  all: destruct X as (_ & _ & _ & _ & m & [X|[X|[X|[X|[]]]]] & Y); try discriminate; injection X as <-; contradiction.
Qed.
Lemma win_is_tty_ok stream s : stream <= 2 -> let fd := wanswer s (FilenoCall stream) in
  ((fd < 0)%Z -> win_is_tty stream s = Some ST_INVALID_ARGUMENT) /\
  ((0 <= fd)%Z -> wanswer s (IsattyCall fd) <> 0%Z -> win_is_tty stream s = Some ST_TRUE) /\
  ((0 <= fd)%Z -> wanswer s (IsattyCall fd) = 0%Z -> forall e, errno_set s (IsattyCall fd) = Some e ->
     win_is_tty stream s = Some (if e =? 9 then ST_INVALID_ARGUMENT else ST_FALSE)).
Proof.
  intros L. cbv zeta. unfold win_is_tty, STDSTREAM_IN, STDSTREAM_OUT, STDSTREAM_ERR.
  replace (negb (stream =? 0) && negb (stream =? 1) && negb (stream =? 2)) with false by lia. cbv zeta.
  destruct (Z.ltb_spec (wanswer s (FilenoCall stream)) 0) as [F|F].
  - split; [reflexivity|]. split; intros; lia.
  - split; [lia|]. destruct (Z.eqb_spec (wanswer s (IsattyCall (wanswer s (FilenoCall stream)))) 0) as [A|A]; cbn [negb].
    + split; [contradiction|]. intros _ _ e ->. unfold EBADF. destruct (e =? 9); reflexivity.
    + split; [reflexivity|contradiction].
Qed.
(** errno is read although nothing set it. *)
Lemma win_is_tty_unknown stream s : 2 < stream -> win_is_tty stream s = None.
Proof.
  intros L. unfold win_is_tty, STDSTREAM_IN, STDSTREAM_OUT, STDSTREAM_ERR.
  destruct (N.eqb_spec stream 0), (N.eqb_spec stream 1), (N.eqb_spec stream 2); try lia. reflexivity.
Qed.
Lemma win_is_tty_stale stream s : stream <= 2 -> let fd := wanswer s (FilenoCall stream) in
  (0 <= fd)%Z -> wanswer s (IsattyCall fd) = 0%Z -> errno_set s (IsattyCall fd) = None ->
  errno_set s (FilenoCall stream) = None -> errno_before s = 9 ->
  win_is_tty stream s = Some ST_INVALID_ARGUMENT.
Proof.
  intros L. cbv zeta. intros F A S1 S2 B. unfold win_is_tty, STDSTREAM_IN, STDSTREAM_OUT, STDSTREAM_ERR.
  replace (negb (stream =? 0) && negb (stream =? 1) && negb (stream =? 2)) with false by lia. cbv zeta.
  replace (wanswer s (FilenoCall stream) <? 0)%Z with false by lia. rewrite A, S1, S2, B. reflexivity.
Qed.

(** ** Fiber-local storage *)
Lemma fls_step_alloc m u k e :
  (exists i, fls_step m u (TAlloc k e) =
     (ST_SUCCESS, Some i, mktls (i :: keys m) (fun k' v => if k' =? i then 0 else values m k' v))) \/
  (exists st, fls_step m u (TAlloc k e) = (st, None, m) /\ st_success st = false).
Proof.
  set (s := fls_system m u k e).
  assert (B : (0 <= wanswer s (FlsAllocCall 0) < 2 ^ 32)%Z).
  { unfold s. cbn [fls_system wanswer]. change (2 ^ 32)%Z with 4294967296%Z. destruct (e =? 0); [|lia].
    assert (k mod W32 < W32) by now apply N.mod_lt. unfold W32 in *. lia. }
  destruct (win_tls_alloc_ok 0 0 s B) as [F S].
  destruct (Z.eq_dec (wanswer s (FlsAllocCall 0)) 4294967295) as [E|E].
  - right. exists ST_OUT_OF_RESOURCES. split; [|reflexivity]. cbn [fls_step]. fold s. rewrite (F E).
    change (st_success ST_OUT_OF_RESOURCES) with false. cbv iota. f_equal. unfold fls_effects. cbn [fold_left].
    unfold fls_effect_of. fold s. rewrite E. reflexivity.
  - left. exists (Z.to_N (wanswer s (FlsAllocCall 0))). cbn [fls_step]. fold s. rewrite (S E).
    change (st_success ST_SUCCESS) with true. cbv iota. f_equal. unfold fls_effects. cbn [fold_left].
    unfold fls_effect_of. fold s. apply Z.eqb_neq in E. rewrite E. reflexivity.
Qed.
Lemma fls_step_free m u k :
  exists st, fls_step m u (TFree k) =
    (st, None, if st_success st then mktls (remove N.eq_dec k (keys m)) (values m) else m).
Proof.
  destruct (win_tls_free_ok k (fls_system m u 0 0)) as [C S]. cbn [fls_step].
  destruct (win_tls_free k (fls_system m u 0 0)) as [st cs]. cbn [fst snd] in C, S. subst cs. exists st. f_equal.
  unfold fls_effects. cbn [fold_left]. unfold fls_effect_of.
  destruct (Z.eqb_spec (wanswer (fls_system m u 0 0) (FlsFreeCall k)) 0) as [E|NE].
  - destruct (st_success st); [|reflexivity]. exfalso. now apply S.
  - apply S in NE. now rewrite NE.
Qed.
Lemma fls_step_set m u k d e :
  exists st, fls_step m u (TSet k d e) =
    (st, None, if st_success st
               then mktls (keys m) (fun k2 v => if (k2 =? k) && (v =? u) then d else values m k2 v) else m).
Proof.
  destruct (win_tls_set_ok k d (fls_system m u 0 e)) as (C & S & _). cbn [fls_step].
  destruct (win_tls_set_value k d (fls_system m u 0 e)) as [st cs]. cbn [fst snd] in C, S. subst cs. exists st. f_equal.
  unfold fls_effects. cbn [fold_left]. unfold fls_effect_of.
  destruct (Z.eqb_spec (wanswer (fls_system m u 0 e) (FlsSetCall k d)) 0) as [E|NE].
  - destruct (st_success st); [|reflexivity]. exfalso. now apply S.
  - apply S in NE. now rewrite NE.
Qed.
Lemma fls_step_get m u k : exists d, fls_step m u (TGet k) = (ST_SUCCESS, Some d, m).
Proof. cbn [fls_step]. unfold win_tls_get_value. eexists. reflexivity. Qed.
Lemma fls_step_values m u c k t st r m' : fls_step m u c = (st, r, m') ->
  values m' k t = tls_effect k t (u, c, st, r) (values m k t).
Proof.
  destruct c as [k' e|k'|k' d e|k']; intros E.
  - destruct (fls_step_alloc m u k' e) as [[i X]|(s & X & S)]; rewrite X in E; injection E as <- <- <-.
    + reflexivity.
    + unfold tls_effect. now rewrite S.
  - destruct (fls_step_free m u k') as [s X]. rewrite X in E. injection E as <- <- <-. unfold tls_effect.
    destruct (st_success s); reflexivity.
  - destruct (fls_step_set m u k' d e) as [s X]. rewrite X in E. injection E as <- <- <-. unfold tls_effect.
    destruct (st_success s); reflexivity.
  - destruct (fls_step_get m u k') as [d X]. rewrite X in E. injection E as <- <- <-. reflexivity.
Qed.
Lemma fls_step_keys m u c k st r m' : fls_step m u c = (st, r, m') ->
  existsb (N.eqb k) (keys m') =
  match key_event k (u, c, st, r) with Some b => b | None => existsb (N.eqb k) (keys m) end.
Proof.
  destruct c as [k' e|k'|k' d e|k']; intros E.
  - destruct (fls_step_alloc m u k' e) as [[i X]|(s & X & S)]; rewrite X in E; injection E as <- <- <-.
    + cbn [key_event keys existsb]. change (st_success ST_SUCCESS) with true. rewrite andb_true_r.
      destruct (k =? i); reflexivity.
    + reflexivity.
  - destruct (fls_step_free m u k') as [s X]. rewrite X in E. injection E as <- <- <-. cbn [key_event].
    destruct (st_success s).
    + rewrite andb_true_r. cbn [keys]. destruct (N.eqb_spec k k') as [->|NE].
      * apply not_true_is_false. rewrite existsb_eqb. apply remove_In.
      * apply eq_true_iff_eq. rewrite !existsb_eqb. split; [apply in_remove|apply in_in_remove; congruence].
    + rewrite andb_false_r. reflexivity.
  - destruct (fls_step_set m u k' d e) as [s X]. rewrite X in E. injection E as <- <- <-.
    destruct (st_success s); reflexivity.
  - destruct (fls_step_get m u k') as [d X]. rewrite X in E. injection E as <- <- <-. reflexivity.
Qed.
Lemma fls_run_state : forall cs m m' tr, fls_run m cs = (m', tr) ->
  (forall k t, values m' k t = tls_last k t tr (values m k t)) /\
  (forall k, existsb (N.eqb k) (keys m') = key_live k tr (existsb (N.eqb k) (keys m))) /\
  (forall u c st r, In (u, c, st, r) tr -> In (u, c) cs).
Proof.
  induction cs as [|[u c] cs IH]; intros m m' tr E; cbn [fls_run] in E.
  - injection E as <- <-. repeat split. intros u c st r [].
  - destruct (fls_step m u c) as [[st r] m1] eqn:S. destruct (fls_run m1 cs) as [m2 tr2] eqn:R.
    injection E as <- <-. destruct (IH _ _ _ R) as (A & B & C). split; [|split].
    + intros k t. cbn [tls_last fold_left]. rewrite <- (fls_step_values m u c k t st r m1 S). apply A.
    + intros k. unfold key_live. cbn [fold_left]. rewrite <- (fls_step_keys m u c k st r m1 S). apply B.
    + intros u' c' st' r' [X|X]; [injection X as <- <- _ _; left; reflexivity|right; now apply (C u' c' st' r')].
Qed.
Lemma fls_get_last cs m tr k f : fls_run no_tls cs = (m, tr) ->
  (forall u k' d e, In (u, TSet k' d e) cs -> d < W64) ->
  key_live k tr false = true ->
  fls_step m f (TGet k) = (ST_SUCCESS, Some (tls_last k f tr 0), m).
Proof.
  intros E B L. destruct (fls_run_state _ _ _ _ E) as (V & K & I).
  specialize (K k). cbn [no_tls keys existsb] in K. rewrite L in K.
  specialize (V k f). cbn [no_tls values] in V.
  assert (BD : values m k f < W64).
  { rewrite V. apply tls_last_bound; [reflexivity|]. intros u k' d e st r X. exact (B u k' d e (I _ _ _ _ X)). }
  destruct (win_tls_get_ok k (fls_system m f 0 0)) as (d & G & D); cbn [fls_system wanswer] in *; rewrite K in *.
  - change (2 ^ 64)%Z with 18446744073709551616%Z. unfold W64 in BD. lia.
  - cbn [fls_step]. rewrite G. apply N2Z.inj in D. subst d. rewrite V. reflexivity.
Qed.

(** ** Critical sections *)
Lemma win_step_posix t c m r m' : recursive m = true -> win_cs_step t c m = WDone (r, m') ->
  cs_step (depth m + 1) t c 0 m = Some (r, m').
Proof.
  intros R. unfold cs_step. change (negb (0 =? 0)) with false. cbv iota.
  destruct c; unfold win_cs_step, win_cs_enter, win_cs_try_enter, win_cs_leave, section_enter, section_try_enter,
    section_leave, mutex_lock, mutex_trylock, mutex_unlock; rewrite ?R; destruct (owner m) as [o|];
    try discriminate; try (destruct (o =? t)); cbn [negb]; rewrite ?N.ltb_irrefl;
    try replace (depth m <? depth m + 1) with true by lia; try discriminate;
    try (destruct (depth m =? 1)); intros X; injection X as <- <-; reflexivity.
Qed.
Lemma win_run_inv : forall s m tr m' tr', sync_inv m tr -> trace_ok tr ->
  win_cs_run s m tr = Some (m', tr') -> sync_inv m' tr' /\ trace_ok tr'.
Proof.
  induction s as [|[t c] s IH]; intros m tr m' tr' I T E; cbn [win_cs_run] in E.
  - injection E as <- <-. auto.
  - destruct (win_cs_step t c m) as [| |[r m1]] eqn:S; [now apply (IH m tr)|discriminate|].
    apply win_step_posix in S; [|exact (proj1 I)].
    destruct (cs_step_inv _ t c 0 m r m1 tr I S) as (I1 & A & B).
    apply (IH _ _ _ _ I1) in E; [exact E|].
    intros a t' c' r' b EQ. destruct b as [|e b] using rev_ind.
    + apply app_inj_tail in EQ as [-> EQ]. injection EQ as -> -> ->. auto.
    + clear IHb. rewrite app_comm_cons, app_assoc in EQ. apply app_inj_tail in EQ as [EQ _]. now apply (T a t' c' r' b).
Qed.
Lemma win_mutual_exclusion s m tr : win_cs_run s fresh_section [] = Some (m, tr) -> trace_ok tr.
Proof. intros E. exact (proj2 (win_run_inv s _ _ _ _ sync_inv_fresh trace_ok_nil E)). Qed.
Lemma win_one_holder s m tr : win_cs_run s fresh_section [] = Some (m, tr) ->
  forall t u, (0 < holds t tr)%Z -> u <> t -> holds u tr = 0%Z.
Proof.
  intros E t u H NE. destruct (win_run_inv s _ _ _ _ sync_inv_fresh trace_ok_nil E) as [[_ I] _].
  destruct (owner m) as [o|].
  - destruct I as (_ & _ & D). destruct (N.eq_dec t o) as [->|N]; [now apply D|]. rewrite (D t N) in H. lia.
  - destruct I as [_ B]. apply B.
Qed.
Lemma win_enters_again s m tr t : win_cs_run s fresh_section [] = Some (m, tr) ->
  (forall u, u <> t -> holds u tr = 0%Z) ->
  (exists m', win_cs_step t Enter m = WDone (RStatus ST_SUCCESS, m')) /\
  (exists m', win_cs_step t TryEnter m = WDone (RBool true, m')).
Proof.
  intros E H. destruct (win_run_inv s _ _ _ _ sync_inv_fresh trace_ok_nil E) as [[R I] _].
  unfold win_cs_step, win_cs_enter, win_cs_try_enter, section_enter, section_try_enter. destruct (owner m) as [o|].
  - destruct I as (A & B & D). assert (EO : o = t).
    { destruct (N.eq_dec o t) as [|N]; [assumption|]. rewrite H in B by exact N. lia. }
    subst o. rewrite N.eqb_refl. split; eexists; reflexivity.
  - split; eexists; reflexivity.
Qed.
Lemma win_others_wait s m tr t u : win_cs_run s fresh_section [] = Some (m, tr) -> (0 < holds t tr)%Z -> u <> t ->
  win_cs_step u Enter m = WBlock /\ win_cs_step u TryEnter m = WDone (RBool false, m) /\
  exists m', win_cs_step t Leave m = WDone (RStatus ST_SUCCESS, m').
Proof.
  intros E H NE. destruct (win_run_inv s _ _ _ _ sync_inv_fresh trace_ok_nil E) as [[R I] _].
  unfold win_cs_step, win_cs_enter, win_cs_try_enter, win_cs_leave, section_enter, section_try_enter, section_leave.
  destruct (owner m) as [o|].
  - destruct I as (A & B & D). assert (EO : o = t).
    { destruct (N.eq_dec o t) as [|N]; [assumption|]. rewrite (D t) in H by auto. lia. }
    subst o. replace (t =? u) with false by (symmetry; apply N.eqb_neq; auto). rewrite N.eqb_refl. cbn [negb].
    split; [reflexivity|]. split; [reflexivity|].
    destruct (depth m =? 1); eexists; reflexivity.
  - rewrite (proj2 I) in H. lia.
Qed.
(** Leaving without being inside, and only that, has no defined effect. *)
Lemma win_undefined s m tr t c : win_cs_run s fresh_section [] = Some (m, tr) ->
  (win_cs_step t c m = WUndefined <-> c = Leave /\ (holds t tr <= 0)%Z).
Proof.
  intros E. destruct (win_run_inv s _ _ _ _ sync_inv_fresh trace_ok_nil E) as [[R I] _].
  unfold win_cs_step, win_cs_enter, win_cs_try_enter, win_cs_leave, section_enter, section_try_enter, section_leave.
  destruct (owner m) as [o|].
  - destruct I as (A & B & D). destruct c.
    + split; [|intros [X _]; discriminate]. destruct (o =? t); discriminate.
    + split; [|intros [X _]; discriminate]. destruct (o =? t); discriminate.
    + destruct (N.eqb_spec o t) as [->|NE]; cbn [negb].
      * split; [destruct (depth m =? 1); discriminate|intros [_ X]; lia].
      * split; [|reflexivity]. intros _. split; [reflexivity|]. rewrite D by auto. lia.
  - destruct I as [_ B]. destruct c.
    + split; [discriminate|intros [X _]; discriminate].
    + split; [discriminate|intros [X _]; discriminate].
    + split; [|reflexivity]. intros _. rewrite B. split; [reflexivity|lia].
Qed.

(** ** Pages *)
Lemma in_range_touches m a n q : page m <> 0 -> in_range m a n q = true <-> touches m a n q.
Proof.
  intros P. unfold in_range, touches. rewrite !andb_true_iff, negb_true_iff, N.eqb_neq, !N.leb_le. split.
  - intros [[N0 A] B]. exists (N.max a (q * page m)).
    pose proof (N.div_mod a (page m) P). pose proof (N.mod_lt a (page m) P).
    pose proof (N.div_mod (a + n - 1) (page m) P). pose proof (N.mod_lt (a + n - 1) (page m) P).
    assert (q * page m <= a + n - 1) by nia. split; [lia|].
    destruct (N.max_spec a (q * page m)) as [[L ->]|[L ->]].
    + now apply N.div_mul.
    + assert (a / page m >= q); [|lia]. enough (q <= a / page m) by lia. apply N.div_le_lower_bound; lia.
  - intros (x & [A B] & <-). split; [split|]; [lia|now apply N.div_le_mono|apply N.div_le_mono; lia].
Qed.
Lemma became m a n r res : page m <> 0 ->
  pages_became m a n r (mkpages (page m) (fun q => if in_range m a n q then r else rights_of m q) res).
Proof.
  intros P. split; [reflexivity|]. cbn [rights_of]. split; intros q T.
  - apply in_range_touches in T; [|exact P]. now rewrite T.
  - destruct (in_range m a n q) eqn:E; [|reflexivity]. apply in_range_touches in E; [contradiction|exact P].
Qed.
Lemma posix_protect_ok a n p s m st m' : page m <> 0 -> posix_protect a n p s m = (st, m') ->
  if st_success st then pages_became m a n (Some (named_rights p)) m' else m' = m.
Proof.
  intros P. unfold posix_protect, virtual_protect, posix_effects. cbv zeta. cbn [fold_left]. intros E.
  injection E as <- <-. unfold posix_effect.
  destruct (Z.eqb_spec (answer s (Mprotect a n (prot_value p))) 0) as [Z|Z]; cbn [negb].
  - change (st_success ST_SUCCESS) with true. cbv iota.
    replace (posix_rights (prot_value p)) with (named_rights p) by (destruct p; reflexivity). now apply became.
  - reflexivity.
Qed.
Lemma posix_free_ok a n s m st m' : page m <> 0 -> posix_free a n s m = (st, m') ->
  if st_success st then pages_became m a n None m' else m' = m.
Proof.
  intros P. unfold posix_free, virtual_free, posix_effects. cbv zeta. cbn [fold_left]. intros E.
  injection E as <- <-. unfold posix_effect.
  destruct (Z.eqb_spec (answer s (Munmap a n)) 0) as [Z|Z]; cbn [negb].
  - change (st_success ST_SUCCESS) with true. cbv iota. now apply became.
  - reflexivity.
Qed.
Lemma windows_protect_ok a n p s m st m' : page m <> 0 -> windows_protect a n p s m = (st, m') ->
  if st_success st then pages_became m a n (Some (named_rights p)) m' else m' = m.
Proof.
  intros P. unfold windows_protect, win_virtual_protect, windows_effects. cbv zeta. cbn [fold_left]. intros E.
  injection E as <- <-. unfold windows_effect.
  destruct (Z.eqb_spec (wanswer s (VirtualProtectCall a n (win_prot_value p))) 0) as [Z|Z].
  - reflexivity.
  - change (st_success ST_SUCCESS) with true. cbv iota.
    replace (windows_rights (win_prot_value p)) with (named_rights p) by (destruct p; reflexivity). now apply became.
Qed.
(** The size argument does not matter: the whole reservation goes. *)
Lemma windows_free_ok a n r s m st m' : page m <> 0 -> reservation m a = Some r -> windows_free a n s m = (st, m') ->
  if st_success st then pages_became m a r None m' else m' = m.
Proof.
  intros P R. unfold windows_free, win_virtual_free, windows_effects, MEM_RELEASE. cbv zeta. cbn [fold_left]. intros E.
  injection E as <- <-. unfold windows_effect.
  destruct (Z.eqb_spec (wanswer s (VirtualFreeCall a 0 32768)) 0) as [Z|Z].
  - reflexivity.
  - change (st_success ST_SUCCESS) with true. cbv iota. cbn [N.eqb Pos.eqb andb]. rewrite R. now apply became.
Qed.
(** So a smaller size always releases too much. *)
Lemma windows_free_too_much a n r s m st m' x : page m <> 0 -> reservation m a = Some r ->
  windows_free a n s m = (st, m') -> st_success st = true ->
  a <= x < a + r -> rights_of m' (x / page m) = None.
Proof.
  intros P R E S X. pose proof (windows_free_ok a n r s m st m' P R E) as B. rewrite S in B.
  apply B. exists x. split; [exact X|reflexivity].
Qed.

(** Vectors with an allocator that refuses requests. *)
From Coq Require Import ZifyBool ZifyNat ZifyN.
From Verif Require Import Base NListFacts Status Mem MemFacts VectorModel VectorSpec VectorDriver RefuseSpec
  VectorRep VectorProofs VectorProofs2 VectorProofs3 VectorRefine VectorFail VectorMore OracleProofs.

(** ** How many requests a call makes *)
Definition asks {C A} (n : N) (m : Mem.M C A) : Prop := forall w a w', m w = Ok a w' -> tick w' = tick w + n.

Section Asks.
  Context {C : Type}.
  Lemma asks_ret {A} (a : A) : asks 0 (@ret C A a).
  Proof. intros w x w' H. injection H as <- <-. lia. Qed.
  Lemma asks_bind {A B} n k (m : Mem.M C A) (f : A -> Mem.M C B) : asks n m -> (forall a, asks k (f a)) -> asks (n + k) (bind m f).
  Proof.
    intros H K w b w2 E. unfold bind in E. destruct (m w) as [a w1|] eqn:F; [|discriminate E].
    apply H in F. apply K in E. lia.
  Qed.
  Lemma asks_bind0 {A B} n (m : Mem.M C A) (f : A -> Mem.M C B) : asks n m -> (forall a, asks 0 (f a)) -> asks n (bind m f).
  Proof. intros H K. rewrite <- (N.add_0_r n). now apply asks_bind. Qed.
  Lemma asks_then {A B} n (m : Mem.M C A) (f : A -> Mem.M C B) : asks 0 m -> (forall a, asks n (f a)) -> asks n (bind m f).
  Proof. intros H K. rewrite <- (N.add_0_l n). now apply asks_bind. Qed.
  Lemma asks_then_st {B} n r (m : Mem.M C status) (f : status -> Mem.M C B) :
    asks 0 m -> (forall w a w', m w = Ok a w' -> a = r) -> asks n (f r) -> asks n (bind m f).
  Proof.
    intros H Q K w b w2 E. unfold bind in E. destruct (m w) as [a w1|] eqn:F; [|discriminate E].
    rewrite (Q _ _ _ F) in E. apply H in F. apply K in E. lia.
  Qed.
  Lemma asks_assert b : asks 0 (@assert C b).
  Proof. intros w a w' H. destruct (assert_cases b w) as [E|E]; rewrite E in H; [|discriminate H]. injection H as <- <-. lia. Qed.
  Lemma asks_mread p n : asks 0 (@mread C p n).
  Proof. intros w a w' H. apply mread_tick in H. subst. lia. Qed.
  Lemma asks_mwrite p x : asks 0 (@mwrite C p x).
  Proof. intros w [] w' H. apply mwrite_tick in H. lia. Qed.
  Lemma asks_memmove p q n : asks 0 (@memmove C p q n).
  Proof. apply asks_bind0; [apply asks_mread|intros; apply asks_mwrite]. Qed.
  Lemma asks_memcpy p q n : asks 0 (@memcpy C p q n).
  Proof. unfold memcpy. destruct (overlap p q n); [intros w a w' H; discriminate H|apply asks_memmove]. Qed.
  Lemma asks_call_dtor f p e : asks 0 (@call_dtor C f p e).
  Proof. intros w [] w' H. apply call_dtor_tick in H. lia. Qed.
  Lemma asks_destroy_range v i j : asks 0 (@destroy_range C v i j).
  Proof. intros w [] w' H. apply destroy_range_tick in H. lia. Qed.
  Lemma asks_assert_valid v : asks 0 (@assert_valid C v).
  Proof. apply asks_bind0; intros; apply asks_assert. Qed.
  Lemma asks_shift_left v i n : asks 0 (@vshift_left C v i n).
  Proof.
    unfold vshift_left. apply asks_bind0; [apply asks_assert_valid|intros _]. apply asks_bind0; [apply asks_assert|intros _].
    apply asks_bind0; [apply asks_memmove|intros _]. apply asks_ret.
  Qed.
  Lemma asks_shift_right v i n : asks 0 (@vshift_right C v i n).
  Proof.
    unfold vshift_right. apply asks_bind0; [apply asks_assert_valid|intros _]. apply asks_bind0; [apply asks_assert|intros _].
    apply asks_bind0; [apply asks_assert|intros _]. apply asks_bind0; [apply asks_memmove|intros _]. apply asks_ret.
  Qed.
  Lemma asks_init_loop v p n : forall i, asks 0 (@init_loop C v i p n).
  Proof. induction n as [|n IH]; intros i; cbn [init_loop]; [apply asks_ret|]. apply asks_bind0; [apply asks_memcpy|intros _; apply IH]. Qed.
  Lemma asks_with_arg {A} n x (k : option ptr -> Mem.M C A) : (forall p, asks n (k (Some p))) -> asks n (with_arg x k).
  Proof.
    intros K w a w' H. unfold with_arg in H.
    match type of H with match k ?p ?w1 with _ => _ end = _ => destruct (k p w1) as [b w2|] eqn:F; [|discriminate H]; apply K in F end.
    injection H as <- <-. exact F.
  Qed.
  Lemma asks_realloc p e n : asks 1 (@realloc C p e n).
  Proof.
    intros w a w' H. unfold realloc in H. destruct (_ && _); [discriminate H|]. destruct p as [q|]; [|discriminate H].
    destruct (heap w (pb q)); [|discriminate H]. destruct (negb _); [discriminate H|].
    destruct (orc w (tick w)); injection H as <- <-; reflexivity.
  Qed.
  Definition fit (cap k : N) : N := if 1 <=? k then 1 else if 1 <? cap then 1 else 0.
  Lemma asks_vreallocate v c : v_alloc v = true -> asks (fit (v_cap v) c) (@vreallocate C v c).
  Proof.
    intros A. unfold vreallocate, fit. apply asks_then; [apply asks_assert|intros _]. apply asks_then; [apply asks_assert_valid|intros _].
    rewrite A. cbn [negb]. unfold VECTOR_MIN_CAPACITY. assert (T : forall c, asks 1 (vreallocate_to v c)).
    { intros k. apply asks_bind0; [apply asks_realloc|intros []; apply asks_ret]. }
    destruct (N.ltb_spec c 1); destruct (N.leb_spec 1 c); try lia; [|apply T].
    destruct (1 <? v_cap v); [apply T|apply asks_ret].
  Qed.
End Asks.

Ltac quiet := repeat first
  [ apply asks_ret | apply asks_assert | apply asks_mread | apply asks_mwrite | apply asks_memmove | apply asks_memcpy
  | apply asks_call_dtor | apply asks_destroy_range | apply asks_assert_valid | apply asks_shift_left | apply asks_shift_right
  | apply asks_init_loop
  | match goal with
    | |- asks 0 (bind _ _) => apply asks_bind0; [|intros ?]
    | |- asks 0 (if ?b then _ else _) => destruct b
    | |- asks 0 (match ?b with _ => _ end) => destruct b
    end ].

Section Counts.
  Context {C : Type}.
  Notation vec := (vector C).
  Implicit Types (w : world C) (v : vec).

  Lemma asks_vgrow v len n : v_alloc v = true -> v_size v = len -> len + n < W64 ->
    asks (if v_cap v <? len + n then 1 else 0) (vgrow v n).
  Proof.
    intros A <- L. unfold vgrow, should_grow. rewrite wadd_small by assumption.
    destruct (_ <? _); [|apply asks_ret]. pose proof (asks_vreallocate v (N.max 1 (wmul (v_size v + n) (v_growth v))) A) as H.
    unfold fit in H. destruct (N.leb_spec 1 (N.max 1 (wmul (v_size v + n) (v_growth v)))); [exact H|lia].
  Qed.
  Lemma asks_maybe_shrink v len : v_alloc v = true -> v_size v = len -> len * v_shrink v < W64 ->
    asks (if negb (v_shrink v =? 0) && (len * v_shrink v <? v_cap v) then 1 else 0) (vmaybe_shrink v).
  Proof.
    intros A <- L. unfold vmaybe_shrink, should_shrink. rewrite wmul_small by assumption.
    destruct (_ && _); [|apply asks_ret]. pose proof (asks_vreallocate v (N.max 1 (wmul (v_size v) (v_growth v))) A) as H.
    unfold fit in H. destruct (N.leb_spec 1 (N.max 1 (wmul (v_size v) (v_growth v)))); [exact H|lia].
  Qed.
  Lemma asks_insert_range v len i p n : v_alloc v = true -> v_size v = len -> len + n < W64 ->
    asks (if (0 <? n) && (i <=? len) then if v_cap v <? len + n then 1 else 0 else 0) (vinsert_range v i (Some p) n).
  Proof.
    intros A S L. unfold vinsert_range. cbn [nonnull negb orb]. destruct (N.eqb_spec n 0).
    { subst n. apply asks_ret. }
    replace (0 <? n) with true by lia. cbn [andb]. rewrite S. destruct (N.ltb_spec len i).
    { replace (i <=? len) with false by lia. apply asks_ret. }
    replace (i <=? len) with true by lia. apply asks_then; [apply asks_assert_valid|intros _].
    apply asks_bind0; [now apply asks_vgrow|]. intros [r v']. quiet.
  Qed.
  Lemma asks_emplace v len i f : v_alloc v = true -> v_size v = len -> len + 1 < W64 ->
    asks (if i <=? len then if v_cap v <? len + 1 then 1 else 0 else 0) (vemplace_ex v i f).
  Proof.
    intros A S L. unfold vemplace_ex. rewrite S. destruct (N.ltb_spec len i).
    { replace (i <=? len) with false by lia. apply asks_ret. }
    replace (i <=? len) with true by lia. apply asks_then; [apply asks_assert_valid|intros _].
    apply asks_bind0; [now apply asks_vgrow|]. intros [r v']. quiet.
  Qed.
  Lemma asks_delete v len i n : v_alloc v = true -> v_size v = len -> len < W64 -> len * v_shrink v < W64 -> i + n < W64 ->
    asks (if (0 <? n) && (i + n <=? len)
          then if negb (v_shrink v =? 0) && ((len - n) * v_shrink v <? v_cap v) then 1 else 0 else 0) (vdelete_range v i n).
  Proof.
    intros A S L LS IN. unfold vdelete_range. destruct (N.eqb_spec n 0).
    { subst n. apply asks_ret. }
    replace (0 <? n) with true by lia. cbn [andb]. rewrite S, wadd_small by assumption. destruct (N.ltb_spec len (i + n)).
    { replace (i + n <=? len) with false by lia. apply asks_ret. }
    replace (i + n <=? len) with true by lia. apply asks_then; [apply asks_destroy_range|intros _].
    apply (asks_then_st _ ST_SUCCESS).
    { destruct (_ <? _); [apply asks_shift_left|apply asks_ret]. }
    { intros w r w' H'. destruct (_ <? _); [|now injection H' as <-]. unfold vshift_left, bind in H'.
      destruct (assert_valid v w); [|discriminate H']. destruct (assert (0 <? n) w0); [|discriminate H'].
      destruct (memmove _ _ _ w1); [|discriminate H']. now injection H' as <-. }
    change (negb (st_success ST_SUCCESS)) with false. cbv iota. rewrite wsub_small by lia.
    apply (asks_maybe_shrink (set_size v (len - n)) (len - n)); auto. cbn [set_size v_shrink]. nia.
  Qed.
  Lemma asks_pop_back v len : v_alloc v = true -> v_size v = len -> len < W64 -> len * v_shrink v < W64 ->
    asks (if 0 <? len then if negb (v_shrink v =? 0) && ((len - 1) * v_shrink v <? v_cap v) then 1 else 0 else 0) (vpop_back v).
  Proof.
    intros A S L LS. unfold vpop_back. rewrite S. destruct (N.eqb_spec len 0).
    { subst len. rewrite e. apply asks_ret. }
    replace (0 <? len) with true by lia. apply asks_then; [destruct (v_dtor v); [apply asks_call_dtor|apply asks_ret]|intros _].
    rewrite wsub_small by lia.
    apply (asks_maybe_shrink (set_size v (len - 1)) (len - 1)); auto. cbn [set_size v_shrink]. nia.
  Qed.
  Lemma asks_resize v len n p : v_alloc v = true -> 1 <= v_growth v -> v_size v = len -> n * v_shrink v < W64 -> n * v_growth v < W64 ->
    asks (if n =? len then 0 else if (v_cap v <? n) || (negb (v_shrink v =? 0) && (n * v_shrink v <? v_cap v))
          then fit (v_cap v) (n * v_growth v) else 0) (vresize_ex v n p).
  Proof.
    intros A GR S LS LG. unfold vresize_ex. rewrite S. destruct (n =? len); [apply asks_ret|].
    apply asks_then; [destruct (_ <? _); [apply asks_destroy_range|apply asks_ret]|intros _].
    unfold should_grow, should_shrink. rewrite !wmul_small by assumption. apply asks_bind0.
    - destruct (_ || _); [|apply asks_ret]. apply asks_then; [apply asks_assert|intros _]. now apply asks_vreallocate.
    - intros [r v']. quiet.
  Qed.

  Lemma asks_eq {A} (m : Mem.M C A) n k : asks n m -> n = k -> asks k m.
  Proof. now intros H <-. Qed.

  Theorem run_op_asks w v pre xs post o d :
    vrep w v pre xs post -> v_alloc v = true -> arg_ok (v_esz v) o -> fits (nlen xs + demand o) (v_esz v) ->
    asks (requests (cfg_of v) o (mkst xs (v_cap v) d)) (run_op v o).
  Proof.
    intros R A AO F. pose proof (r_size _ _ _ _ _ R) as RS. pose proof (rep_cap_lt _ _ _ _ _ R) as CL.
    pose proof (r_le _ _ _ _ _ R) as LE. pose proof (r_esz _ _ _ _ _ R) as EP. destruct (growth_bounds _ _ _ _ _ R) as [GB SB].
    unfold fits in F.
    unfold requests, asked. cbn [s_elems s_cap cfg_of c_growth c_shrink]. destruct o; cbn [run_op demand arg_ok] in *.
    - apply asks_with_arg. intros p. unfold vpush_back. cbn [nonnull negb].
      apply asks_then; [apply asks_assert_valid|intros _]. apply asks_bind0.
      + eapply asks_eq; [apply (asks_vgrow v (nlen xs) 1 A RS); nia|]. now destruct (_ <? _).
      + intros [r v']. quiet.
    - apply asks_with_arg. intros p. eapply asks_eq; [apply (asks_insert_range v (nlen xs) i p 1 A RS); nia|].
      cbn [N.ltb andb]. replace (0 <? 1) with true by reflexivity. cbn [andb]. destruct (_ <=? _); [|reflexivity]. now destruct (_ <? _).
    - apply asks_with_arg. intros p. eapply asks_eq; [apply (asks_insert_range v (nlen xs) i p (nlen xs0) A RS); nia|].
      destruct (_ && _); [|reflexivity]. now destruct (_ <? _).
    - apply asks_bind0; [|intros [[r v'] q]; apply asks_ret]. unfold vemplace. rewrite RS.
      eapply asks_eq; [apply (asks_emplace v (nlen xs) (nlen xs) ctor A RS); nia|].
      destruct (N.leb_spec (nlen xs) (nlen xs)); [|lia]. now destruct (_ <? _).
    - apply asks_bind0; [|intros [[r v'] q]; apply asks_ret].
      eapply asks_eq; [apply (asks_emplace v (nlen xs) i ctor A RS); nia|].
      destruct (_ <=? _); [|reflexivity]. now destruct (_ <? _).
    - apply asks_with_arg. intros p. unfold vset. quiet.
    - unfold vswap. quiet.
    - eapply asks_eq; [apply (asks_delete v (nlen xs) i 1 A RS); nia|]. replace (0 <? 1) with true by reflexivity. cbn [andb].
      destruct (_ <=? _); [|reflexivity]. now destruct (_ && _).
    - eapply asks_eq; [apply (asks_delete v (nlen xs) i n A RS); nia|].
      destruct (_ && _); [|reflexivity]. now destruct (_ && _).
    - eapply asks_eq; [apply (asks_pop_back v (nlen xs) A RS); nia|].
      destruct (_ <? _); [|reflexivity]. now destruct (_ && _).
    - eapply asks_eq; [apply (asks_resize v (nlen xs) 0 None A ltac:(lia) RS); nia|]. unfold fit.
      destruct (_ =? _); [reflexivity|]. destruct (_ || _); [|reflexivity]. destruct (_ <=? _); [reflexivity|]. now destruct (_ <? _).
    - eapply asks_eq; [apply (asks_resize v (nlen xs) n None A ltac:(lia) RS); nia|]. unfold fit.
      destruct (_ =? _); [reflexivity|]. destruct (_ || _); [|reflexivity]. destruct (_ <=? _); [reflexivity|]. now destruct (_ <? _).
    - apply asks_with_arg. intros p.
      eapply asks_eq; [apply (asks_resize v (nlen xs) n (Some p) A ltac:(lia) RS); nia|]. unfold fit.
      destruct (_ =? _); [reflexivity|]. destruct (_ || _); [|reflexivity]. destruct (_ <=? _); [reflexivity|]. now destruct (_ <? _).
    - unfold vreserve. destruct (N.ltb_spec (v_cap v) n); [|apply asks_ret].
      eapply asks_eq; [now apply asks_vreallocate|]. unfold fit. destruct (N.leb_spec 1 n); [reflexivity|lia].
    - unfold vshrink_to_fit. eapply asks_eq; [now apply asks_vreallocate|]. rewrite RS. unfold fit.
      destruct (_ <=? _); [reflexivity|]. now destruct (_ <? _).
  Qed.
End Counts.

(** ** What is left when the request is refused *)
Section Refused.
  Context {C : Type}.
  Notation vec := (vector C).
  Implicit Types (w : world C) (v : vec).

  Definition ticked w : world C := mkbuild (heap w) (nextb w) (orc w) (tick w + 1) (dlog w) (checked w).
  Lemma good_ticked w v w' pre xs post : v_alloc v = true -> good w v w' v pre xs post -> good w v (ticked w') v pre xs post.
  Proof.
    intros A [[] GC GF]. split; [split; auto|exact GC|]. destruct GF. split; auto. congruence.
  Qed.
  Lemma set_cap_back v k : set_cap (set_cap v k) (v_cap v) = v.
  Proof. now destruct v. Qed.

  Lemma vreallocate_refused w v pre xs post c st :
    vrep w v pre xs post -> v_alloc v = true -> orc w (tick w) = AFail st -> 1 <= c \/ 1 < v_cap v ->
    vreallocate v c w = Ok (err_status st, set_cap v (N.max 1 c)) (ticked w).
  Proof.
    intros R A O L. destruct (N.le_gt_cases 1 c) as [L1|L1].
    { replace (N.max 1 c) with c by lia. now apply (vreallocate_fail _ _ _ _ _ _ _ R A O). }
    replace (N.max 1 c) with 1 by lia.
    unfold ticked. rewrite <- (vreallocate_fail _ _ _ _ _ 1 _ R A O ltac:(lia)).
    unfold vreallocate. rewrite A. cbn [negb]. unfold VECTOR_MIN_CAPACITY.
    destruct (N.ltb_spec c 1); [|lia]. destruct (N.ltb_spec 1 (v_cap v)); [|lia]. reflexivity.
  Qed.

  (** A vector [v'] that is well-formed but for its capacity, which says [k]. *)
  Definition overstated w v w' v' pre xs' post (k : N) : Prop :=
    v_cap v' = k /\ good w v w' (set_cap v' (v_cap v)) pre xs' post.

  Lemma overstated_same w v w' pre xs post k : v_alloc v = true -> good w v w' v pre xs post ->
    overstated w v (ticked w') (set_cap v k) pre xs post k.
  Proof. intros A G. split; [reflexivity|]. rewrite set_cap_back. now apply good_ticked. Qed.

  Lemma vgrow_refused w v pre xs post n st :
    vrep w v pre xs post -> v_alloc v = true -> orc w (tick w) = AFail st -> 1 <= n ->
    fits (nlen xs + n) (v_esz v) -> v_cap v < nlen xs + n ->
    vgrow v n w = Ok (err_status st, set_cap v ((nlen xs + n) * v_growth v)) (ticked w).
  Proof. exact (vgrow_fail w v pre xs post n st). Qed.

  Lemma with_arg_refused w v pre xs post x (k : option ptr -> Mem.M C (status * vec)) r c :
    vrep w v pre xs post -> v_alloc v = true ->
    k (Some (mkptr (nextb w) 0)) (argw w x) = Ok (r, set_cap v c) (ticked (argw w x)) ->
    exists w', with_arg x k w = Ok (r, set_cap v c) w' /\ overstated w v w' (set_cap v c) pre xs post c /\ dlog w' = dlog w.
  Proof.
    intros R A E. exists (dropw (ticked (argw w x)) (nextb w)). split.
    - unfold with_arg, argw in *. rewrite E. reflexivity.
    - split; [|reflexivity]. split; [reflexivity|]. rewrite set_cap_back. apply (dropw_good w v pre xs post _ _ _ x R).
      apply good_ticked; [exact A|]. apply good_refl. now apply argw_rep.
  Qed.

  Lemma insert_range_refused w v pre xs post i p n st :
    vrep w v pre xs post -> v_alloc v = true -> orc w (tick w) = AFail st -> 1 <= n ->
    fits (nlen xs + n) (v_esz v) -> v_cap v < nlen xs + n -> i <= nlen xs ->
    vinsert_range v i (Some p) n w = Ok (err_status st, set_cap v ((nlen xs + n) * v_growth v)) (ticked w).
  Proof.
    intros R A O N1 F L LI. unfold vinsert_range. cbn [nonnull negb orb]. rewrite (r_size _ _ _ _ _ R).
    destruct (N.eqb_spec n 0); [lia|]. destruct (N.ltb_spec (nlen xs) i); [lia|].
    rewrite (bind_ok _ _ _ _ _ (rep_assert_valid _ _ _ _ _ R)).
    rewrite (bind_ok _ _ _ _ _ (vgrow_refused _ _ _ _ _ _ _ R A O N1 F L)). now rewrite st_success_err.
  Qed.
  Lemma emplace_refused w v pre xs post i f st :
    vrep w v pre xs post -> v_alloc v = true -> orc w (tick w) = AFail st ->
    fits (nlen xs + 1) (v_esz v) -> v_cap v < nlen xs + 1 -> i <= nlen xs ->
    vemplace_ex v i f w = Ok (err_status st, set_cap v ((nlen xs + 1) * v_growth v), None) (ticked w).
  Proof.
    intros R A O F L LI. unfold vemplace_ex. rewrite (r_size _ _ _ _ _ R). destruct (N.ltb_spec (nlen xs) i); [lia|].
    rewrite (bind_ok _ _ _ _ _ (rep_assert_valid _ _ _ _ _ R)).
    rewrite (bind_ok _ _ _ _ _ (vgrow_refused _ _ _ _ _ 1 _ R A O ltac:(lia) F L)). now rewrite st_success_err.
  Qed.

  Lemma maybe_shrink_refused w v pre xs post st :
    vrep w v pre xs post -> v_alloc v = true -> orc w (tick w) = AFail st -> fits (nlen xs) (v_esz v) ->
    negb (v_shrink v =? 0) && (nlen xs * v_shrink v <? v_cap v) = true ->
    vmaybe_shrink v w = Ok (err_status st, set_cap v (N.max 1 (nlen xs * v_growth v))) (ticked w).
  Proof.
    intros R A O F B. pose proof (r_esz _ _ _ _ _ R). destruct (growth_bounds _ _ _ _ _ R) as [GB SB]. unfold fits in F.
    unfold vmaybe_shrink, should_shrink. rewrite (r_size _ _ _ _ _ R), !wmul_small by nia. rewrite B.
    rewrite (vreallocate_refused _ _ _ _ _ _ _ R A O) by lia.
    now replace (N.max 1 (N.max 1 (nlen xs * v_growth v))) with (N.max 1 (nlen xs * v_growth v)) by lia.
  Qed.

  Lemma delete_refused w v pre xs post i n st :
    vrep w v pre xs post -> v_alloc v = true -> orc w (tick w) = AFail st -> fits (nlen xs) (v_esz v) ->
    1 <= n -> i + n <= nlen xs ->
    negb (v_shrink v =? 0) && ((nlen xs - n) * v_shrink v <? v_cap v) = true ->
    exists w' v', vdelete_range v i n w = Ok (err_status st, v') w' /\
      overstated w v w' v' pre (ldelete i n xs) post (N.max 1 ((nlen xs - n) * v_growth v)) /\
      dlog w' = dlog w ++ destroyed (cfg_of v) (nsub i n xs).
  Proof.
    intros R A O F N1 LI B. pose proof (rep_cap_lt _ _ _ _ _ R). pose proof (r_le _ _ _ _ _ R) as LE. unfold vdelete_range.
    rewrite wadd_small by lia. rewrite (r_size _ _ _ _ _ R).
    destruct (N.eqb_spec n 0); [lia|]. destruct (N.ltb_spec (nlen xs) (i + n)); [lia|].
    destruct (nsplit3 i n xs ltac:(lia)) as (a & b & c & -> & Ha & Hb). subst i n.
    destruct (destroy_range_ok v b w pre a c post R) as (w1 & b' & E1 & L1 & G1 & D1).
    rewrite (bind_ok _ _ _ _ _ E1). rewrite <- L1 in *.
    destruct (shift_left_ok w1 v pre a b' c post) as (w2 & E2 & G2 & D2); [apply G1|lia|].
    replace (v_size v) with (nlen (a ++ b ++ c)) in E2 by (symmetry; apply R).
    rewrite (bind_ok _ _ _ _ _ E2). change (negb (st_success ST_SUCCESS)) with false. cbv iota.
    rewrite wsub_small by (revert LE; nl; lia).
    replace (nlen (a ++ b ++ c) - nlen b') with (nlen (a ++ c)) in * by (nl; lia).
    pose proof (good_trans _ _ _ _ _ _ _ _ _ _ G1 (r_wf _ _ _ _ _ R) G2) as G12.
    rewrite (maybe_shrink_refused w2 (set_size v (nlen (a ++ c))) pre (a ++ c) post st).
    - eexists _, _. split; [reflexivity|]. rewrite ldelete_split, nsub_mid by auto. split.
      + split; [reflexivity|]. change (v_cap v) with (v_cap (set_size v (nlen (a ++ c)))). rewrite set_cap_back.
        destruct G12 as [GR GC GF]. split; [|exact GC|].
        * destruct GR. split; auto.
        * destruct GF. split; auto. congruence.
      + cbn [dlog ticked]. now rewrite D2, D1.
    - apply G2.
    - exact A.
    - rewrite (fr_orc _ _ _ _ (g_frame _ _ _ _ _ _ _ G12)), (shift_left_tick _ _ _ _ _ _ E2), (destroy_range_tick _ _ _ _ _ E1). exact O.
    - eapply fits_le; [|exact F]. nl. lia.
    - exact B.
  Qed.
  Lemma pop_back_refused w v pre xs post st :
    vrep w v pre xs post -> v_alloc v = true -> orc w (tick w) = AFail st -> fits (nlen xs) (v_esz v) -> 1 <= nlen xs ->
    negb (v_shrink v =? 0) && ((nlen xs - 1) * v_shrink v <? v_cap v) = true ->
    exists w' v', vpop_back v w = Ok (err_status st, v') w' /\
      overstated w v w' v' pre (ldelete (nlen xs - 1) 1 xs) post (N.max 1 ((nlen xs - 1) * v_growth v)) /\
      dlog w' = dlog w ++ destroyed (cfg_of v) (nsub (nlen xs - 1) 1 xs).
  Proof.
    intros R A O F N1 B. pose proof (rep_cap_lt _ _ _ _ _ R). pose proof (r_le _ _ _ _ _ R) as LE. unfold vpop_back.
    rewrite (r_size _ _ _ _ _ R). destruct (N.eqb_spec (nlen xs) 0); [lia|]. rewrite wsub_small by lia.
    destruct (nsplit (nlen xs - 1) xs ltac:(lia)) as (a & z & -> & Ha).
    destruct z as [|y [|? ?]].
    { rewrite app_nil_r in *. lia. }
    2:{ rewrite nlen_app, !nlen_cons in Ha. lia. }
    replace (nlen (a ++ [y]) - 1) with (nlen a) in * by (nl; lia).
    assert (ST : exists w1 y', (match v_dtor v with
       | Some f => call_dtor f (offset v (nlen a)) (v_esz v)
       | None => ret tt end) w = Ok tt w1 /\
       good w v w1 v pre (a ++ [y']) post /\ dlog w1 = dlog w ++ destroyed (cfg_of v) [y]).
    { unfold destroyed. cbn [cfg_of c_dtor]. destruct (v_dtor v) as [f|] eqn:DF.
      - destruct (elem_dtor w v pre _ post (nlen a) y f R) as (w1 & E1 & G1 & D1); auto.
        { now apply nnth_mid. }
        exists w1, (f y). rewrite lset_last in G1. auto.
      - exists w, y. split; [reflexivity|]. split; [now apply good_refl|]. now rewrite app_nil_r. }
    destruct ST as (w1 & y' & E1 & G1 & D1). rewrite (bind_ok _ _ _ _ _ E1).
    assert (T1 : tick w1 = tick w).
    { destruct (v_dtor v); [exact (call_dtor_tick _ _ _ _ _ E1)|now injection E1 as <-]. }
    assert (G2 : good w v w1 (set_size v (nlen a)) pre a post).
    { destruct G1 as [Ga Gb Gc]. split; [|apply same_cfg_set_size|].
      - apply rep_self in Ga. eapply rep_truncate; eauto.
      - destruct Gc. now split. }
    rewrite (maybe_shrink_refused w1 (set_size v (nlen a)) pre a post st).
    - eexists _, _. split; [reflexivity|]. split.
      + split; [reflexivity|]. change (v_cap v) with (v_cap (set_size v (nlen a))). rewrite set_cap_back.
        rewrite <- (app_nil_r (a ++ [y])), <- app_assoc. rewrite ldelete_split by auto. rewrite app_nil_r.
        destruct G2 as [GR GC GF]. split; [|exact GC|].
        * destruct GR. split; auto.
        * destruct GF. split; auto. congruence.
      + cbn [dlog ticked]. rewrite D1. rewrite <- (app_nil_r (a ++ [y])), <- app_assoc. now rewrite nsub_mid by auto.
    - apply G2.
    - exact A.
    - rewrite (fr_orc _ _ _ _ (g_frame _ _ _ _ _ _ _ G2)), T1. exact O.
    - eapply fits_le; [|exact F]. nl. lia.
    - exact B.
  Qed.

  (** The destructor loop, with the bytes the destructor leaves. *)
  Lemma destroy_range_leaves v : forall b w pre a c post,
    vrep w v pre (a ++ b ++ c) post ->
    exists w', destroy_range v (nlen a) (nlen a + nlen b) w = Ok tt w' /\
      good w v w' v pre (a ++ (match v_dtor v with Some f => map f b | None => b end) ++ c) post /\
      dlog w' = dlog w ++ destroyed (cfg_of v) b.
  Proof.
    unfold destroy_range, destroyed. cbn [cfg_of c_dtor]. destruct (v_dtor v) as [f|] eqn:F.
    2:{ intros. exists w. split; [reflexivity|]. split; [now apply good_refl|]. now rewrite app_nil_r. }
    induction b as [|y b IH]; intros w pre a c post R.
    - exists w. rewrite nlen_nil, N.add_0_r, N.sub_diag. split; [reflexivity|].
      split; [now apply good_refl|]. now rewrite app_nil_r.
    - cbn [app] in R.
      assert (NY : nnth (nlen a) (a ++ y :: b ++ c) = Some y) by now apply nnth_mid.
      destruct (elem_dtor w v pre _ post _ y f R NY F) as (w1 & E1 & G1 & D1).
      rewrite lset_split in G1 by reflexivity.
      replace (N.to_nat (nlen a + nlen (y :: b) - nlen a)) with (S (N.to_nat (nlen b)))
        by (rewrite nlen_cons; lia).
      cbn [dtor_loop]. rewrite (bind_ok _ _ _ _ _ E1).
      pose proof (rep_cap_lt _ _ _ _ _ R). pose proof (r_le _ _ _ _ _ R) as LE.
      rewrite nlen_app, nlen_cons in LE.
      rewrite wadd_small by lia.
      destruct (IH w1 pre (a ++ [f y]) c post) as (w' & E & G & D).
      { rewrite <- app_assoc. cbn [app]. apply G1. }
      replace (nlen (a ++ [f y])) with (nlen a + 1) in E by (nl; lia).
      replace (N.to_nat (nlen a + 1 + nlen b - (nlen a + 1))) with (N.to_nat (nlen b)) in E by lia.
      exists w'. split; [exact E|].
      split.
      + eapply good_trans; [exact G1|apply R|]. rewrite <- app_assoc in G. exact G.
      + rewrite D, D1. now napp.
  Qed.

  Lemma resize_refused w v pre xs post n p st :
    vrep w v pre xs post -> v_alloc v = true -> orc w (tick w) = AFail st -> fits n (v_esz v) -> n <> nlen xs ->
    (v_cap v <? n) || (negb (v_shrink v =? 0) && (n * v_shrink v <? v_cap v)) = true ->
    1 <= n * v_growth v \/ 1 < v_cap v ->
    exists w', vresize_ex v n p w = Ok (err_status st, set_cap v (N.max 1 (n * v_growth v))) w' /\
      if n <? nlen xs
      then (exists w1, w' = ticked w1 /\ good w v w1 v pre (nfirst n xs ++ (match v_dtor v with Some f => map f (nskip n xs) | None => nskip n xs end)) post) /\
           dlog w' = dlog w ++ destroyed (cfg_of v) (nskip n xs)
      else w' = ticked w.
  Proof.
    intros R A O F NE B K. pose proof (r_esz _ _ _ _ _ R). destruct (growth_bounds _ _ _ _ _ R) as [GB SB]. unfold fits in F.
    unfold vresize_ex. rewrite (r_size _ _ _ _ _ R). destruct (N.eqb_spec n (nlen xs)); [lia|].
    unfold should_grow, should_shrink. rewrite !wmul_small by nia. rewrite B.
    replace (1 <=? v_growth v) with true by lia.
    assert (ST : exists w1, (if n <? nlen xs then destroy_range v n (nlen xs) else ret tt) w = Ok tt w1 /\ tick w1 = tick w /\ orc w1 = orc w /\
      (if n <? nlen xs
      then good w v w1 v pre (nfirst n xs ++ (match v_dtor v with Some f => map f (nskip n xs) | None => nskip n xs end)) post /\
           dlog w1 = dlog w ++ destroyed (cfg_of v) (nskip n xs)
      else w1 = w)).
    { destruct (N.ltb_spec n (nlen xs)).
      - destruct (nsplit n xs ltac:(lia)) as (a & b & -> & Ha). subst n.
        destruct (destroy_range_leaves v b w pre a [] post) as (w1 & E1 & G1 & D1).
        { now rewrite app_nil_r. }
        rewrite app_nil_r in G1. rewrite <- nlen_app in E1. exists w1. split; [exact E1|].
        split; [exact (destroy_range_tick _ _ _ _ _ E1)|]. split; [apply G1|].
        rewrite nfirst_app_l, nskip_app_l by reflexivity. now split.
      - exists w. now repeat split. }
    destruct ST as (w1 & E1 & T1 & O1 & D1). rewrite (bind_ok _ _ _ _ _ E1).
    assert (R1 : exists xs1, vrep w1 v pre xs1 post).
    { destruct (n <? nlen xs); [eexists; apply D1|]. subst w1. eauto. }
    destruct R1 as (xs1 & R1).
    assert (E2 : (assert true ;;; vreallocate v (n * v_growth v)) w1 = Ok (err_status st, set_cap v (N.max 1 (n * v_growth v))) (ticked w1)).
    { unfold bind. cbn [assert]. unfold ret. apply (vreallocate_refused _ _ _ _ _ _ _ R1 A); [congruence|exact K]. }
    rewrite (bind_ok _ _ _ _ _ E2). rewrite st_success_err. cbn [negb]. eexists. split; [reflexivity|].
    destruct (n <? nlen xs); [|now subst w1]. destruct D1 as [G D]. split; [eauto|exact D].
  Qed.

  Lemma resize_refused' w v pre xs post n p k st :
    vrep w v pre xs post -> v_alloc v = true -> orc w (tick w) = AFail st -> fits n (v_esz v) ->
    (if n =? nlen xs then None
     else if (v_cap v <? n) || (negb (v_shrink v =? 0) && (n * v_shrink v <? v_cap v))
          then if 1 <=? n * v_growth v then Some (n * v_growth v) else if 1 <? v_cap v then Some 1 else None
          else None) = Some k ->
    exists w' v' xs', vresize_ex v n p w = Ok (err_status st, v') w' /\ overstated w v w' v' pre xs' post k /\
      if n <? nlen xs
      then mkst xs' k (dlog w') = mkst (nfirst n xs ++ (match v_dtor v with Some f => map f (nskip n xs) | None => nskip n xs end)) k
             (dlog w ++ destroyed (cfg_of v) (nskip n xs))
      else mkst xs' k (dlog w') = mkst xs k (dlog w).
  Proof.
    intros R A O F AK. destruct (N.eqb_spec n (nlen xs)) as [|NE]; [discriminate AK|]. destruct (_ || _) eqn:B; [|discriminate AK].
    assert (K : (1 <= n * v_growth v \/ 1 < v_cap v) /\ N.max 1 (n * v_growth v) = k).
    { destruct (N.leb_spec 1 (n * v_growth v)); [injection AK as <-; lia|]. destruct (N.ltb_spec 1 (v_cap v)); [|discriminate AK].
      injection AK as <-. lia. }
    destruct K as [K KE]. destruct (resize_refused w v pre xs post n p st R A O F NE B K) as (w' & E & D). rewrite KE in E.
    destruct (n <? nlen xs).
    - destruct D as ((w1 & -> & G) & D). eexists (ticked w1), (set_cap v k), _. split; [exact E|]. split.
      + apply overstated_same; [exact A|exact G].
      + now rewrite D.
    - subst w'. exists (ticked w), (set_cap v k), xs. split; [exact E|]. split; [|reflexivity].
      apply overstated_same; [exact A|now apply good_refl].
  Qed.

  Theorem run_op_refused w v pre xs post o k st :
    vrep w v pre xs post -> v_alloc v = true -> orc w (tick w) = AFail st -> arg_ok (v_esz v) o ->
    fits (nlen xs + demand o) (v_esz v) -> asked (cfg_of v) o (nlen xs) (v_cap v) = Some k ->
    exists w' v' xs', run_op v o w = Ok (err_status st, v') w' /\ overstated w v w' v' pre xs' post k /\
      vrefused (cfg_of v) o k (mkst xs (v_cap v) (dlog w)) (mkst xs' k (dlog w')).
  Proof.
    intros R A O AO F AK. pose proof (r_size _ _ _ _ _ R) as RS. pose proof (rep_cap_lt _ _ _ _ _ R) as CL.
    pose proof (r_le _ _ _ _ _ R) as LE. pose proof (r_esz _ _ _ _ _ R) as EP. destruct (growth_bounds _ _ _ _ _ R) as [GB SB].
    assert (KEEP : forall (m : Mem.M C (status * vec)), m w = Ok (err_status st, set_cap v k) (ticked w) ->
      (forall s', s' = mkst xs k (dlog w) -> vrefused (cfg_of v) o k (mkst xs (v_cap v) (dlog w)) s') ->
      exists w' v' xs', m w = Ok (err_status st, v') w' /\ overstated w v w' v' pre xs' post k /\
      vrefused (cfg_of v) o k (mkst xs (v_cap v) (dlog w)) (mkst xs' k (dlog w'))).
    { intros m E V. exists (ticked w), (set_cap v k), xs. split; [exact E|]. split; [|now apply V].
      apply overstated_same; [exact A|now apply good_refl]. }
    assert (ARG : forall x (m : option ptr -> Mem.M C (status * vec)),
      m (Some (mkptr (nextb w) 0)) (argw w x) = Ok (err_status st, set_cap v k) (ticked (argw w x)) ->
      (forall s', s' = mkst xs k (dlog w) -> vrefused (cfg_of v) o k (mkst xs (v_cap v) (dlog w)) s') ->
      exists w' v' xs', with_arg x m w = Ok (err_status st, v') w' /\ overstated w v w' v' pre xs' post k /\
      vrefused (cfg_of v) o k (mkst xs (v_cap v) (dlog w)) (mkst xs' k (dlog w'))).
    { intros x m E V. destruct (with_arg_refused w v pre xs post x m _ k R A E) as (w' & E' & OV & D').
      exists w', (set_cap v k), xs. split; [exact E'|]. split; [exact OV|]. apply V. now rewrite D'. }
    unfold asked in AK. cbn [cfg_of c_growth c_shrink] in AK. destruct o; cbn [run_op demand arg_ok vrefused] in *; try discriminate AK.
    - destruct (N.ltb_spec (v_cap v) (nlen xs + 1)); [|discriminate AK]. injection AK as <-.
      apply ARG; [|auto]. destruct (argw_rep _ _ _ _ _ x R) as (R1 & _ & _).
      unfold vpush_back. cbn [nonnull negb].
      rewrite (bind_ok _ _ _ _ _ (rep_assert_valid _ _ _ _ _ R1)).
      rewrite (bind_ok _ _ _ _ _ (vgrow_refused _ _ _ _ _ 1 _ R1 A O ltac:(lia) F H)). now rewrite st_success_err.
    - destruct (N.leb_spec i (nlen xs)); [|discriminate AK].
      destruct (N.ltb_spec (v_cap v) (nlen xs + 1)); [|discriminate AK]. injection AK as <-.
      apply ARG; [|auto]. destruct (argw_rep _ _ _ _ _ x R) as (R1 & _ & _).
      apply (insert_range_refused _ _ _ _ _ _ _ 1 _ R1 A O); auto; lia.
    - destruct (N.ltb_spec 0 (nlen xs0)); [|discriminate AK]. destruct (N.leb_spec i (nlen xs)); [|discriminate AK]. cbn [andb] in AK.
      destruct (N.ltb_spec (v_cap v) (nlen xs + nlen xs0)); [|discriminate AK]. injection AK as <-.
      apply ARG; [|auto]. destruct (argw_rep _ _ _ _ _ (concat xs0) R) as (R1 & _ & _).
      apply (insert_range_refused _ _ _ _ _ _ _ _ _ R1 A O); auto; lia.
    - destruct (N.ltb_spec (v_cap v) (nlen xs + 1)); [|discriminate AK]. injection AK as <-.
      apply KEEP; [|auto]. unfold vemplace. rewrite RS.
      rewrite (bind_ok _ _ _ _ _ (emplace_refused _ _ _ _ _ (nlen xs) ctor _ R A O F H (N.le_refl _))). reflexivity.
    - destruct (N.leb_spec i (nlen xs)); [|discriminate AK].
      destruct (N.ltb_spec (v_cap v) (nlen xs + 1)); [|discriminate AK]. injection AK as <-.
      apply KEEP; [|auto].
      rewrite (bind_ok _ _ _ _ _ (emplace_refused _ _ _ _ _ i ctor _ R A O F H0 H)). reflexivity.
    - destruct (N.leb_spec (i + 1) (nlen xs)); [|discriminate AK]. destruct (_ && _) eqn:B; [|discriminate AK]. injection AK as <-.
      destruct (delete_refused w v pre xs post i 1 st R A O) as (w' & v' & E & OV & D); auto; try lia.
      { eapply fits_le; [|exact F]. lia. }
      exists w', v', (ldelete i 1 xs). split; [exact E|]. split; [exact OV|]. cbn [s_elems s_log]. now rewrite D.
    - destruct (N.ltb_spec 0 n); [|discriminate AK]. cbn [andb] in AK.
      destruct (N.leb_spec (i + n) (nlen xs)); [|discriminate AK]. destruct (_ && _) eqn:B; [|discriminate AK]. injection AK as <-.
      destruct (delete_refused w v pre xs post i n st R A O) as (w' & v' & E & OV & D); auto; try lia.
      { eapply fits_le; [|exact F]. lia. }
      exists w', v', (ldelete i n xs). split; [exact E|]. split; [exact OV|]. cbn [s_elems s_log]. now rewrite D.
    - destruct (N.ltb_spec 0 (nlen xs)); [|discriminate AK]. destruct (_ && _) eqn:B; [|discriminate AK]. injection AK as <-.
      destruct (pop_back_refused w v pre xs post st R A O) as (w' & v' & E & OV & D); auto; try lia.
      { eapply fits_le; [|exact F]. lia. }
      exists w', v', (ldelete (nlen xs - 1) 1 xs). split; [exact E|]. split; [exact OV|]. cbn [s_elems s_log]. now rewrite D.
    - destruct (resize_refused' w v pre xs post 0 None k st R A O) as (w' & v' & xs' & E & OV & D).
      { eapply fits_le; [|exact F]. lia. } { exact AK. }
      exists w', v', xs'. split; [exact E|]. split; [exact OV|]. exact D.
    - destruct (resize_refused' w v pre xs post n None k st R A O) as (w' & v' & xs' & E & OV & D).
      { eapply fits_le; [|exact F]. lia. } { exact AK. }
      exists w', v', xs'. split; [exact E|]. split; [exact OV|]. exact D.
    - destruct (argw_rep _ _ _ _ _ init R) as (R1 & _ & _).
      destruct (resize_refused' (argw w init) v pre xs post n (Some (mkptr (nextb w) 0)) k st R1 A O) as (w' & v' & xs' & E & OV & D).
      { eapply fits_le; [|exact F]. lia. } { exact AK. }
      exists (dropw w' (nextb w)), v', xs'. split; [|split].
      + unfold with_arg. change (mkbuild _ _ _ _ _ _) with (argw w init). rewrite E. reflexivity.
      + destruct OV as [OC OG]. split; [exact OC|]. exact (dropw_good w v pre xs post _ _ _ init R OG).
      + exact D.
    - destruct (N.ltb_spec (v_cap v) n); [|discriminate AK]. injection AK as <-. apply KEEP; [|auto].
      unfold vreserve. destruct (N.ltb_spec (v_cap v) n); [|lia].
      rewrite (vreallocate_refused _ _ _ _ _ _ _ R A O) by lia. now replace (N.max 1 n) with n by lia.
    - apply KEEP; [|auto]. unfold vshrink_to_fit. rewrite RS. destruct (N.leb_spec 1 (nlen xs)).
      + injection AK as <-. rewrite (vreallocate_refused _ _ _ _ _ _ _ R A O) by lia. now replace (N.max 1 (nlen xs)) with (nlen xs) by lia.
      + destruct (N.ltb_spec 1 (v_cap v)); [|discriminate AK]. injection AK as <-.
        rewrite (vreallocate_refused _ _ _ _ _ _ _ R A O) by lia. now replace (N.max 1 (nlen xs)) with 1 by lia.
  Qed.

  (** A usable vector is well-formed. *)
  Lemma usable_rep w v w' v' xs' k st :
    overstated w v w' v' [] xs' [] k -> v_alloc v = true -> orc w (tick w) = AFail st -> 1 <= k ->
    nlen xs' <= k -> k <= v_cap v -> good w v w' v' [] xs' [].
  Proof.
    intros [OC [GR GC GF]] A O K1 L1 L2. split.
    - destruct GR. cbn [set_cap v_cap v_esz v_size v_data v_alloc v_growth v_shrink v_dtor blk] in *. split; auto; try lia; try nia.
      destruct r_heap as (s & SL & HH). exists s. split; [|exact HH]. split.
      + apply spare_le in SL. etransitivity; [|exact SL]. apply mul_le. lia.
      + intros NF. exfalso. destruct GC as (A' & _). cbn [set_cap v_alloc] in A'.
        destruct (NF ltac:(congruence) (tick w)) as [fill NFE].
        rewrite (fr_orc _ _ _ _ GF), O in NFE. discriminate NFE.
    - exact GC.
    - destruct GF. split; auto.
  Qed.

  Lemma rep_reorc w v pre xs post o : vrep w v pre xs post -> ~ nofail (with_oracle w o) v -> vrep (with_oracle w o) v pre xs post.
  Proof.
    intros [] N. split; auto. destruct r_heap as (s & SL & HH). exists s. split; [|exact HH]. split; [now apply spare_le in SL|].
    now intros NF.
  Qed.
  Lemma with_oracle_back w o : with_oracle (with_oracle w o) (orc w) = w.
  Proof. now destruct w. Qed.

  (** A call whose request, if it makes one, is granted. *)
  Lemma run_op_granted w v pre xs post o :
    vrep w v pre xs post -> v_alloc v = true -> arg_ok (v_esz v) o -> fits (nlen xs + demand o) (v_esz v) ->
    (asked (cfg_of v) o (nlen xs) (v_cap v) = None \/ exists fill, orc w (tick w) = AOk fill) ->
    exists r w' v' xs', run_op v o w = Ok (r, v') w' /\ good w v w' v' pre xs' post /\
      vspec (cfg_of v) o (mkst xs (v_cap v) (dlog w)) r (mkst xs' (v_cap v') (dlog w')).
  Proof.
    intros R A AO F AK. destruct (orc w (tick w)) as [st|fill] eqn:O.
    2:{ apply run_op_ok; auto. intros _. eauto. }
    destruct AK as [AK|[? AK]]; [|discriminate AK].
    destruct (rep_cell _ _ _ _ _ R) as [l Ll]. pose proof (r_esz _ _ _ _ _ R) as EP.
    destruct l as [|c l]; [rewrite nlen_nil in Ll; lia|].
    pose (o' := fun t => if t =? tick w then AOk (fun _ => c) else AFail 0).
    assert (R1 : vrep (with_oracle w o') v pre xs post).
    { apply rep_reorc; [exact R|]. intros NF. destruct (NF A (tick w + 1)) as [fill E]. cbn [orc with_oracle] in E. unfold o' in E.
      destruct (N.eqb_spec (tick w + 1) (tick w)); [lia|discriminate E]. }
    destruct (run_op_ok (with_oracle w o') v pre xs post o R1) as (r & w2 & v' & xs' & E & G & S); auto.
    { intros _. cbn [orc tick with_oracle]. unfold o'. rewrite N.eqb_refl. eauto. }
    pose proof (run_op_asks _ _ _ _ _ o (dlog w) R1 A AO F _ _ _ E) as T. unfold requests in T. cbn [s_elems s_cap] in T. rewrite AK in T.
    destruct (lo_run_op _ _ _ _ _ E) as (O2 & _ & LO). specialize (LO (orc w)). rewrite with_oracle_back in LO.
    exists r, (with_oracle w2 (orc w)), v', xs'. split; [apply LO; intros; lia|]. split; [|exact S].
    destruct G as [GR GC GF]. destruct GC as (A' & GC'). split; [|split; [exact A'|exact GC']|].
    - apply rep_reorc; [exact GR|]. intros NF. destruct (NF ltac:(congruence) (tick w)) as [fill E']. cbn [orc with_oracle] in E'. congruence.
    - destruct GF. split; auto.
  Qed.

  Lemma asked_pos w v pre xs post o k :
    vrep w v pre xs post -> fits (nlen xs + demand o) (v_esz v) -> asked (cfg_of v) o (nlen xs) (v_cap v) = Some k -> 1 <= k.
  Proof.
    intros R F AK.
    pose proof (r_cap _ _ _ _ _ R) as CP. destruct (growth_bounds _ _ _ _ _ R) as [GB SB].
      unfold asked in AK. cbn [cfg_of c_growth c_shrink] in AK. cbv zeta in AK. destruct o;
      repeat match type of AK with
      | (if ?b then _ else _) = _ => destruct b eqn:?
      | None = Some _ => discriminate AK
      | Some _ = Some _ => injection AK as <-
      end; try discriminate AK; try nia.
  Qed.

  (** Any call, with any allocator. *)
  Theorem run_op_any w v xs o :
    vrep w v [] xs [] -> v_alloc v = true -> arg_ok (v_esz v) o -> fits (nlen xs + demand o) (v_esz v) ->
    exists r w' v' xs', let s := mkst xs (v_cap v) (dlog w) in let s' := mkst xs' (v_cap v') (dlog w') in
      run_op v o w = Ok (r, v') w' /\ vcall (cfg_of v) (orc w (tick w)) o s r s' /\
      tick w' = tick w + requests (cfg_of v) o s /\ orc w' = orc w /\
      (refuses (cfg_of v) (orc w (tick w)) o s -> 1 <= v_cap v' /\ good w v w' (set_cap v' (v_cap v)) [] xs' []) /\
      ((refuses (cfg_of v) (orc w (tick w)) o s -> usable s s') -> good w v w' v' [] xs' []).
  Proof.
    intros R A AO F. pose proof (run_op_asks w v [] xs [] o (dlog w) R A AO F) as AS.
    destruct (asked (cfg_of v) o (nlen xs) (v_cap v)) as [k|] eqn:AK.
    2:{ destruct (run_op_granted w v [] xs [] o R A AO F (or_introl AK)) as (r & w' & v' & xs' & E & G & S).
        exists r, w', v', xs'. cbv zeta. split; [exact E|]. unfold vcall, refuses. cbn [s_elems s_cap]. rewrite AK.
        split; [exact S|]. split; [now apply AS in E|]. split; [apply G|]. split; [intros []; congruence|auto]. }
    destruct (orc w (tick w)) as [st|fill] eqn:O.
    2:{ destruct (run_op_granted w v [] xs [] o R A AO F) as (r & w' & v' & xs' & E & G & S); [rewrite O; eauto|].
        exists r, w', v', xs'. cbv zeta. split; [exact E|]. unfold vcall, refuses. cbn [s_elems s_cap refusal]. rewrite AK.
        split; [exact S|]. split; [now apply AS in E|]. split; [apply G|]. split; [intros []; congruence|auto]. }
    destruct (run_op_refused w v [] xs [] o k st R A O AO F AK) as (w' & v' & xs' & E & OV & V).
    pose proof OV as [OC OG]. exists (err_status st), w', v', xs'. cbv zeta. split; [exact E|].
    unfold vcall, refuses. cbn [s_elems s_cap refusal]. rewrite AK, OC. split; [now split|].
    pose proof (asked_pos _ _ _ _ _ _ _ R F AK) as K1.
    split; [now apply AS in E|]. split; [apply OG|]. split; [auto|]. intros US.
    destruct US as [U1 U2]; [split; discriminate|]. cbn [s_elems s_cap] in U1, U2.
    eapply usable_rep; eauto.
  Qed.

  (** ---- histories ---- *)
  Lemma vrefused_len (c : vcfg C) o k (s s' : vstate C) : vrefused c o k s s' -> nlen (s_elems s') <= nlen (s_elems s).
  Proof.
    assert (HD : forall i n (xs : list (list C)), nlen (ldelete i n xs) <= nlen xs).
    { intros. unfold ldelete. nl. rewrite nlen_nfirst, nlen_nskip. lia. }
    assert (HC : forall n, (if n <? nlen (s_elems s)
      then s' = mkst (nfirst n (s_elems s) ++ (match c_dtor c with
                                               | Some f => map f (nskip n (s_elems s))
                                               | None => nskip n (s_elems s)
                                               end))
                     k (s_log s ++ destroyed c (nskip n (s_elems s)))
      else s' = mkst (s_elems s) k (s_log s)) -> nlen (s_elems s') <= nlen (s_elems s)).
    { intros n. destruct (n <? _); intros ->; cbn [s_elems]; [|lia]. nl.
      destruct (c_dtor c) as [f|]; [replace (nlen (map f (nskip n (s_elems s)))) with (nlen (nskip n (s_elems s))) by (unfold nlen; now rewrite map_length)|]; rewrite nlen_nfirst, nlen_nskip; lia. }
    destruct o; cbn [vrefused]; intros V; try (subst s'; cbn [s_elems]; auto; lia); eapply HC, V.
  Qed.
  Lemma vcall_len (c : vcfg C) ans o (s : vstate C) r s' : vcall c ans o s r s' -> nlen (s_elems s') <= nlen (s_elems s) + demand o.
  Proof.
    unfold vcall. destruct (asked _ _ _ _), (refusal ans); intros V; try now apply vspec_len in V.
    destruct V as [_ V]. apply vrefused_len in V. lia.
  Qed.

  (** A vector of which only the capacity is wrong can be read and destroyed. *)
  Definition untick w : world C := mkbuild (heap w) (nextb w) (orc w) (tick w - 1) (dlog w) (checked w).
  Lemma untick_rep w v pre xs post : vrep w v pre xs post -> vrep (untick w) v pre xs post.
  Proof. intros []. split; auto. Qed.
  Lemma untick_only_cap w v c : 1 <= tick w -> 1 <= v_cap v -> only_cap (untick w) (set_cap v c) w v.
  Proof.
    intros T C1. split; [exists (v_cap v); split; [now destruct v|exact C1]|]. repeat split; cbn; lia.
  Qed.
  Lemma wrong_cap_shows w v c xs : vrep w (set_cap v c) [] xs [] -> 1 <= tick w -> 1 <= v_cap v -> shows w v xs.
  Proof.
    intros R T C1. split.
    - unfold vget_size. pose proof (r_size _ _ _ _ _ R) as E. cbn [set_cap v_size] in E. now rewrite E.
    - intros i. eapply only_cap_read; [apply untick_rep, R|]. now apply untick_only_cap.
  Qed.
  Lemma wrong_cap_destroy w v c xs : vrep w (set_cap v c) [] xs [] -> 1 <= tick w -> 1 <= v_cap v -> v_alloc v = true ->
    exists w'' v'', vdestroy v w = Ok (ST_SUCCESS, v'') w'' /\ dlog w'' = dlog w ++ destroyed (cfg_of v) xs /\
      heap w'' (blk v) = None /\ (forall b, b <> blk v -> heap w'' b = heap w b).
  Proof.
    intros R T C1 A. destruct (only_cap_destroy (untick w) (set_cap v c) w v [] xs []) as (w2 & E & D & H1 & H2).
    { now apply untick_rep. } { exact A. } { now apply untick_only_cap. }
    exists w2, (set_data v None). auto.
  Qed.

  

  Lemma usable_dec (s s' : vstate C) : usable s s' \/ ~ usable s s'.
  Proof. unfold usable. lia. Qed.
  Lemma refuses_dec (c : vcfg C) ans o (s : vstate C) : refuses c ans o s \/ ~ refuses c ans o s.
  Proof.
    unfold refuses. destruct (asked _ _ _ _), (refusal ans); (left; split; discriminate) || (right; intros [? ?]; congruence).
  Qed.

  Theorem run_ops_any : forall ops w v xs,
    vrep w v [] xs [] -> v_alloc v = true -> Forall (arg_ok (v_esz v)) ops -> fits (nlen xs + demands ops) (v_esz v) ->
    exists ops1 ops2 rs w1 v1 xs1, ops = ops1 ++ ops2 /\ run_ops v ops1 w = Ok (rs, v1) w1 /\
      vcalls (cfg_of v) (orc w) (tick w) ops1 (mkst xs (v_cap v) (dlog w)) rs (mkst xs1 (v_cap v1) (dlog w1)) (tick w1) /\
      good w v w1 v1 [] xs1 [] /\
      (ops2 = [] \/ exists o rest r w2 v2 xs2, let s1 := mkst xs1 (v_cap v1) (dlog w1) in
         let s2 := mkst xs2 (v_cap v2) (dlog w2) in
         ops2 = o :: rest /\ run_op v1 o w1 = Ok (r, v2) w2 /\ vcall (cfg_of v) (orc w (tick w1)) o s1 r s2 /\
         refuses (cfg_of v) (orc w (tick w1)) o s1 /\ ~ usable s1 s2 /\ 1 <= tick w2 /\ 1 <= v_cap v2 /\
         good w1 v1 w2 (set_cap v2 (v_cap v1)) [] xs2 []).
  Proof.
    induction ops as [|o ops IH]; intros w v xs R A AO F.
    - exists [], [], [], w, v, xs. split; [reflexivity|]. split; [reflexivity|]. split; [constructor|].
      split; [now apply good_refl|now left].
    - inv AO. cbn [demands] in F.
      destruct (run_op_any w v xs o R A H1) as (r & w1 & v1 & xs1 & E & V & T & O1 & GR & GU).
      { eapply fits_le; [|exact F]. lia. }
      set (s := mkst xs (v_cap v) (dlog w)) in *. set (s1 := mkst xs1 (v_cap v1) (dlog w1)) in *.
      assert (D : (refuses (cfg_of v) (orc w (tick w)) o s -> usable s s1) \/
        refuses (cfg_of v) (orc w (tick w)) o s /\ ~ usable s s1).
      { destruct (usable_dec s s1); [left; auto|]. destruct (refuses_dec (cfg_of v) (orc w (tick w)) o s); [right; auto|].
        left. tauto. }
      destruct D as [U|[RF NU]].
      + specialize (GU U). pose proof (vcall_len _ _ _ _ _ _ V) as L. cbn [s_elems s s1] in L.
        destruct (g_cfg _ _ _ _ _ _ _ GU) as (CA & CG & CS & CE & CD).
        destruct (IH w1 v1 xs1) as (ops1 & ops2 & rs & w2 & v2 & xs2 & EO & ER & VC & G2 & REST).
        { apply GU. } { congruence. } { now rewrite CE. } { rewrite CE. eapply fits_le; [|exact F]. lia. }
        rewrite (cfg_of_same _ _ (g_cfg _ _ _ _ _ _ _ GU)), O1 in *.
        exists (o :: ops1), ops2, (r :: rs), w2, v2, xs2. split; [now rewrite EO|]. split; [|split; [|split]].
        * cbn [run_ops]. rewrite (bind_ok _ _ _ _ _ E). rewrite (bind_ok _ _ _ _ _ ER). reflexivity.
        * econstructor; [exact V|exact U|]. rewrite T in VC. exact VC.
        * eapply good_trans; [exact GU|apply R|exact G2].
        * exact REST.
      + exists [], (o :: ops), [], w, v, xs. split; [reflexivity|]. split; [reflexivity|]. split; [constructor|].
        split; [now apply good_refl|]. right. destruct (GR RF) as [K1 G1].
        exists o, ops, r, w1, v1, xs1. cbv zeta. split; [reflexivity|]. split; [exact E|]. split; [exact V|].
        split; [exact RF|]. split; [exact NU|]. split; [|auto].
        rewrite T. unfold requests. destruct RF as [RF _]. destruct (asked _ _ _ _); [lia|congruence].
  Qed.

  Lemma init_asks e cap (d : option (list C -> list C)) g s w v w' :
    vinit_ex e cap d true g s w = Ok (ST_SUCCESS, Some v) w' -> tick w' = tick w + 1.
  Proof.
    unfold vinit_ex, bind, alloc. destruct (_ || _); [discriminate|]. cbn [v_esz v_cap].
    destruct (_ && _); [discriminate|]. destruct (orc w (tick w)) as [st|fill]; intros H; injection H; intros; subst; reflexivity.
  Qed.

  Theorem any_allocator w0 e cap d g s ops fill :
    init_params_ok w0 e cap d g s -> Forall (arg_ok e) ops -> room (demands ops) e -> orc w0 (tick w0) = AOk fill ->
    exists v0 w1 ops1 ops2 rs v w xs, let c := mkcfg false g s e d in let s1 := mkst xs (snd (vget_capacity v)) (dlog w) in
      vinit_ex e cap d true g s w0 = Ok (ST_SUCCESS, Some v0) w1 /\
      ops = ops1 ++ ops2 /\ run_ops v0 ops1 w1 = Ok (rs, v) w /\
      vcalls c (orc w0) (tick w0 + 1) ops1 (mkst [] (N.max 1 cap) (dlog w0)) rs s1 (tick w) /\
      shows w v xs /\ destroys_back w0 c w v xs /\
      (ops2 = [] \/ exists o rest r v2 w2 xs2, let s2 := mkst xs2 (snd (vget_capacity v2)) (dlog w2) in
         ops2 = o :: rest /\ run_op v o w = Ok (r, v2) w2 /\
         refuses c (orc w0 (tick w)) o s1 /\ vcall c (orc w0 (tick w)) o s1 r s2 /\ ~ usable s1 s2 /\
         shows w2 v2 xs2 /\ destroys_back w0 c w2 v2 xs2).
  Proof.
    intros (W & E1 & DK & GB & SB & MM) A RM O.
    destruct (init_ok w0 e cap d g s fill W O E1 MM DK GB SB) as (w1 & v0 & EI & R & CP & ES & AL & CF & DL & OI & BL & NB & FR).
    pose proof (init_asks _ _ _ _ _ _ _ _ EI) as TI.
    destruct (run_ops_any ops w1 v0 [] R AL) as (ops1 & ops2 & rs & w & v & xs & EO & ER & VC & G & REST).
    { now rewrite ES. } { rewrite ES. eapply fits_le; [|exact RM]. rewrite nlen_nil. lia. }
    assert (HB : forall b, b <> blk v0 -> b <> blk v -> heap w b = heap w0 b).
    { intros b B1 B2. rewrite (fr_heap _ _ _ _ (g_frame _ _ _ _ _ _ _ G) b B1 B2). now apply FR. }
    assert (H0 : heap w0 (blk v0) = None) by (apply W; lia).
    assert (HO : blk v <> blk v0 -> heap w (blk v0) = None /\ heap w0 (blk v) = None).
    { intros N0. destruct (fr_old _ _ _ _ (g_frame _ _ _ _ _ _ _ G) N0) as (_ & ? & ?). split; [assumption|]. apply W. lia. }
    assert (BACK : forall w', heap w' (blk v) = None -> (forall b, b <> blk v -> heap w' b = heap w b) ->
      forall b, heap w' b = heap w0 b).
    { intros w' HV HN b. destruct (N.eq_dec b (blk v)) as [->|N1].
      - rewrite HV. destruct (N.eq_dec (blk v) (blk v0)) as [->|N0]; [congruence|]. now destruct (HO N0).
      - rewrite HN by assumption. destruct (N.eq_dec b (blk v0)) as [->|N0].
        + destruct HO; congruence.
        + now apply HB. }
    assert (BV : heap w0 (blk v) = None).
    { destruct (N.eq_dec (blk v) (blk v0)) as [->|N0]; [exact H0|]. now destruct (HO N0). }
    pose proof (cfg_of_same _ _ (g_cfg _ _ _ _ _ _ _ G)) as CV.
    pose proof (fr_alloc _ _ _ _ (g_frame _ _ _ _ _ _ _ G)) as AV.
    exists v0, w1, ops1, ops2, rs, v, w, xs. cbv zeta. rewrite CF, CP, DL, OI, TI in *.
    split; [exact EI|]. split; [exact EO|]. split; [exact ER|]. split; [exact VC|].
    split; [eapply rep_shows, G|]. split.
    { destruct (destroy_ok w v [] xs []) as (w' & E & D & H1 & _ & H2); [apply G|].
      eexists _, _. split; [exact E|]. rewrite CV in D. split; [exact D|]. apply BACK; auto. apply H1. congruence. }
    destruct REST as [->|(o & rest & r & w2 & v2 & xs2 & E2 & EV & V & RF & NU & T1 & C1 & G2)]; [now left|].
    right. exists o, rest, r, v2, w2, xs2. split; [exact E2|]. split; [exact EV|]. split; [exact RF|]. split; [exact V|].
    split; [exact NU|]. split; [eapply wrong_cap_shows; [apply G2|exact T1|exact C1]|].
    pose proof (cfg_of_same _ _ (g_cfg _ _ _ _ _ _ _ G2)) as CV2.
    pose proof (fr_alloc _ _ _ _ (g_frame _ _ _ _ _ _ _ G2)) as AV2. cbn [set_cap v_alloc] in AV2.
    destruct (wrong_cap_destroy w2 v2 (v_cap v) xs2) as (w' & v' & E & D & H1 & H2); [apply G2|exact T1|exact C1|congruence|].
    exists v', w'. split; [exact E|]. split.
    { change (cfg_of (set_cap v2 (v_cap v))) with (cfg_of v2) in CV2. rewrite CV2, CV in D. exact D. }
    pose proof (g_frame _ _ _ _ _ _ _ G2) as F2.
    intros b. destruct (N.eq_dec b (blk v2)) as [->|N2].
    - rewrite H1. destruct (N.eq_dec (blk v2) (blk v)) as [->|N3]; [symmetry; exact BV|]. symmetry. apply W.
      destruct (fr_old _ _ _ _ F2 N3) as (_ & _ & LB). change (blk (set_cap v2 (v_cap v))) with (blk v2) in LB.
      pose proof (fr_next _ _ _ _ (g_frame _ _ _ _ _ _ _ G)). lia.
    - rewrite H2 by assumption. destruct (N.eq_dec b (blk v)) as [->|N3].
      + rewrite BV. apply (fr_old _ _ _ _ F2). change (blk (set_cap v2 (v_cap v))) with (blk v2). congruence.
      + rewrite (fr_heap _ _ _ _ F2 b N3 N2). destruct (N.eq_dec b (blk v0)) as [->|N0].
        * destruct HO; congruence.
        * now apply HB.
  Qed.

  Lemma trimmed_usable (c : vcfg C) ans o (s : vstate C) r s' :
    trims o = true -> nlen (s_elems s) <= s_cap s -> 1 <= s_cap s -> 1 <= c_growth c -> c_growth c <= c_shrink c ->
    refuses c ans o s -> vcall c ans o s r s' -> usable s s'.
  Proof.
    intros TR LE C1 G1 GS [RF RA] V. unfold vcall in V. unfold usable.
    destruct (asked c o _ _) as [k|] eqn:AK; [|congruence]. destruct (refusal ans) as [st|]; [|congruence].
    destruct V as [_ V]. unfold asked in AK. cbv zeta in AK. destruct o; try discriminate TR; cbn [vrefused] in V; subst s'; cbn [s_elems s_cap];
      unfold ldelete; nl; rewrite ?nlen_nfirst, ?nlen_nskip;
      repeat match type of AK with
      | (if ?b then _ else _) = _ => destruct b eqn:?
      | None = Some _ => discriminate AK
      | Some _ = Some _ => injection AK as <-
      end; try discriminate AK; nia.
  Qed.
  Lemma extended_unusable (c : vcfg C) ans o (s : vstate C) r s' :
    extends o = true -> 1 <= c_growth c -> refuses c ans o s -> vcall c ans o s r s' -> ~ usable s s'.
  Proof.
    intros TR G1 [RF RA] V. unfold vcall in V. unfold usable.
    destruct (asked c o _ _) as [k|] eqn:AK; [|congruence]. destruct (refusal ans) as [st|]; [|congruence].
    destruct V as [_ V]. unfold asked in AK. cbv zeta in AK. destruct o; try discriminate TR; cbn [vrefused] in V; subst s'; cbn [s_elems s_cap];
      repeat match type of AK with
      | (if ?b then _ else _) = _ => destruct b eqn:?
      | None = Some _ => discriminate AK
      | Some _ = Some _ => injection AK as <-
      end; try discriminate AK; nia.
  Qed.
End Refused.

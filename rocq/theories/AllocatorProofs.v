(** The default allocator. *)
From Verif Require Import Base NListFacts Status Mem MemFacts AllocatorModel.
From Coq Require Import ZifyBool ZifyNat ZifyN.

Section Proofs.
  Context {C : Type}.
  Implicit Types (w : world C).

  Lemma asserts_pass {A} e n (k : M C A) w : e <> 0 -> n <> 0 ->
    (assert (negb (e =? 0)) ;;; assert (negb (n =? 0)) ;;; k) w = k w.
  Proof.
    intros E N0. apply N.eqb_neq in E, N0. rewrite E, N0. reflexivity.
  Qed.
  Lemma allocate_ok w e n fill : e <> 0 -> n <> 0 -> e * n < W64 -> orc w (tick w) = AOk fill ->
    heap w (nextb w) = None ->
    exists p buf w', default_allocate e n w = Ok (ST_SUCCESS, Some p) w' /\ po p = 0 /\
      heap w (pb p) = None /\ heap w' (pb p) = Some buf /\ nlen buf = e * n /\
      (forall b, b <> pb p -> heap w' b = heap w b).
  Proof.
    intros E N0 L O F. unfold default_allocate. rewrite asserts_pass by assumption.
    unfold bind at 1. unfold malloc. rewrite O, wmul_small by exact L.
    eexists (mkptr (nextb w) 0), (fresh fill (e * n)), _. split; [reflexivity|]. cbn [po pb heap].
    split; [reflexivity|]. split; [exact F|]. unfold hset. rewrite N.eqb_refl. split; [reflexivity|].
    split; [apply nlen_fresh|]. intros b B. apply N.eqb_neq in B. now rewrite B.
  Qed.
  Lemma allocate_fail w e n st : e <> 0 -> n <> 0 -> orc w (tick w) = AFail st ->
    exists w', default_allocate e n w = Ok (ST_NOT_ENOUGH_MEMORY, None) w' /\ forall b, heap w' b = heap w b.
  Proof.
    intros E N0 O. unfold default_allocate. rewrite asserts_pass by assumption.
    unfold bind at 1. unfold malloc. rewrite O. eexists. split; reflexivity.
  Qed.
  Lemma reallocate_ok w q buf e n fill : e <> 0 -> n <> 0 -> e * n < W64 -> orc w (tick w) = AOk fill ->
    heap w (nextb w) = None -> heap w q = Some buf ->
    exists p buf' w', default_reallocate (Some (mkptr q 0)) e n w = Ok (ST_SUCCESS, Some p) w' /\ po p = 0 /\
      heap w' (pb p) = Some buf' /\ nlen buf' = e * n /\
      nfirst (N.min (nlen buf) (e * n)) buf' = nfirst (N.min (nlen buf) (e * n)) buf /\
      heap w' q = None /\ (forall b, b <> pb p -> b <> q -> heap w' b = heap w b).
  Proof.
    intros E N0 L O F H. unfold default_reallocate. rewrite asserts_pass by assumption.
    unfold bind at 1. unfold c_realloc. cbn [pb po]. rewrite H, wmul_small by exact L.
    change (negb (0 =? 0)) with false. cbv iota.
    destruct (N.eqb_spec (e * n) 0) as [Z|_]; [lia|]. rewrite O.
    assert (NQ : q <> nextb w) by congruence.
    eexists (mkptr (nextb w) 0), _, _. split; [reflexivity|]. cbn [po pb heap].
    split; [reflexivity|]. unfold hset at 1. rewrite N.eqb_refl. split; [reflexivity|].
    split.
    { rewrite nlen_app, nlen_nfirst, nlen_nskip, nlen_fresh. lia. }
    split.
    { set (m := N.min (nlen buf) (e * n)).
      assert (X : nfirst (e * n) buf = nfirst m buf ++ nskip m (nfirst (e * n) buf)).
      { unfold m. destruct (N.le_gt_cases (nlen buf) (e * n)) as [G|G].
        - rewrite N.min_l by exact G. rewrite (nfirst_all (e * n)) by exact G.
          rewrite (nfirst_all (nlen buf)) by lia. rewrite nskip_all by lia. now rewrite app_nil_r.
        - rewrite N.min_r by lia. rewrite nskip_all by (rewrite nlen_nfirst; lia). now rewrite app_nil_r. }
      rewrite X, <- app_assoc. apply nfirst_app_l. rewrite nlen_nfirst. unfold m. lia. }
    split.
    { unfold hset. apply N.eqb_neq in NQ. rewrite NQ. now rewrite N.eqb_refl. }
    intros b B1 B2. unfold hset. apply N.eqb_neq in B1, B2. now rewrite B1, B2.
  Qed.
  Lemma reallocate_fail w q buf e n st : e <> 0 -> n <> 0 -> e * n < W64 -> orc w (tick w) = AFail st ->
    heap w q = Some buf ->
    exists w', default_reallocate (Some (mkptr q 0)) e n w = Ok (ST_NOT_ENOUGH_MEMORY, Some (mkptr q 0)) w' /\
      forall b, heap w' b = heap w b.
  Proof.
    intros E N0 L O H. unfold default_reallocate. rewrite asserts_pass by assumption.
    unfold bind at 1. unfold c_realloc. cbn [pb po]. rewrite H, wmul_small by exact L.
    change (negb (0 =? 0)) with false. cbv iota.
    destruct (N.eqb_spec (e * n) 0) as [Z|_]; [lia|]. rewrite O. eexists. split; reflexivity.
  Qed.
  Lemma deallocate_ok w q buf e n : e <> 0 -> n <> 0 -> heap w q = Some buf ->
    exists w', default_deallocate (Some (mkptr q 0)) e n w = Ok ST_SUCCESS w' /\
      heap w' q = None /\ forall b, b <> q -> heap w' b = heap w b.
  Proof.
    intros E N0 H. unfold default_deallocate. unfold bind at 1. cbn [assert ret].
    rewrite asserts_pass by assumption. unfold bind, c_free. cbn [pb po]. rewrite H.
    change (negb (0 =? 0)) with false. cbv iota. eexists. split; [reflexivity|]. cbn [heap set_heap].
    unfold hset. rewrite N.eqb_refl. split; [reflexivity|]. intros b B. apply N.eqb_neq in B. now rewrite B.
  Qed.

  (** The allocator interface the vector model uses is what the default allocator does. *)
  Definition refuses_with (st : status) (w : world C) : Prop :=
    forall k s, orc w k = AFail s -> err_status s = st.
  Lemma alloc_is_default w e n : refuses_with ST_NOT_ENOUGH_MEMORY w ->
    alloc e n w = default_allocate e n w.
  Proof.
    intros R. unfold alloc, default_allocate, bind, assert, malloc.
    destruct (e =? 0), (n =? 0), (checked w) eqn:K; cbn [negb orb andb]; unfold ret; rewrite ?K; try reflexivity;
    (destruct (orc w (tick w)) as [s|fill] eqn:O; [|reflexivity]); now rewrite (R _ _ O).
  Qed.
  Lemma realloc_is_default w q e n : refuses_with ST_NOT_ENOUGH_MEMORY w -> wmul e n <> 0 ->
    realloc (Some q) e n w = default_reallocate (Some q) e n w.
  Proof.
    intros R NZ. unfold realloc, default_reallocate, bind, assert, c_realloc.
    apply N.eqb_neq in NZ. rewrite NZ.
    destruct (e =? 0), (n =? 0), (checked w) eqn:K; cbn [negb orb andb]; unfold ret; rewrite ?K; try reflexivity;
    (destruct (heap w (pb q)); [|reflexivity]); (destruct (negb (po q =? 0)); [reflexivity|]);
    (destruct (orc w (tick w)) as [s|fill] eqn:O; [|reflexivity]); now rewrite (R _ _ O).
  Qed.
  Lemma dealloc_is_default w p e n : dealloc p e n w = default_deallocate p e n w.
  Proof.
    unfold dealloc, default_deallocate, bind, assert, c_free, ret.
    destruct p as [q|], (e =? 0), (n =? 0), (checked w) eqn:K; cbn [negb orb andb]; rewrite ?K; try reflexivity;
    (destruct (heap w (pb q)); [|reflexivity]); destruct (negb (po q =? 0)); reflexivity.
  Qed.
  (** The product of the sizes wraps around. *)
  Lemma allocate_wraps w e n fill : 0 < e -> W64 <= e * n -> orc w (tick w) = AOk fill ->
    exists p buf w', default_allocate e n w = Ok (ST_SUCCESS, Some p) w' /\ heap w' (pb p) = Some buf /\
      nlen buf = (e * n) mod W64 /\ nlen buf < e * n.
  Proof.
    intros E L O. assert (N0 : n <> 0) by (intros ->; rewrite N.mul_0_r in L; vm_compute in L; congruence).
    unfold default_allocate. rewrite asserts_pass by (assumption || lia).
    unfold bind at 1. unfold malloc. rewrite O.
    eexists (mkptr (nextb w) 0), (fresh fill (wmul e n)), _. split; [reflexivity|]. cbn [pb heap].
    unfold hset. rewrite N.eqb_refl. split; [reflexivity|]. rewrite nlen_fresh. unfold wmul.
    split; [reflexivity|]. pose proof (N.mod_lt (e * n) W64 ltac:(discriminate)). lia.
  Qed.
  Lemma reallocate_loses w q buf e n : e <> 0 -> n <> 0 -> (e * n) mod W64 = 0 -> heap w q = Some buf ->
    exists w', default_reallocate (Some (mkptr q 0)) e n w = Ok (ST_NOT_ENOUGH_MEMORY, Some (mkptr q 0)) w' /\
      heap w' q = None.
  Proof.
    intros E N0 L H. unfold default_reallocate. rewrite asserts_pass by assumption.
    unfold bind at 1. unfold c_realloc. cbn [pb po]. rewrite H.
    change (negb (0 =? 0)) with false. cbv iota.
    replace (wmul e n) with 0 by (symmetry; exact L). change (0 =? 0) with true. cbv iota.
    eexists. split; [reflexivity|]. cbn [heap set_heap]. unfold hset. now rewrite N.eqb_refl.
  Qed.
End Proofs.

Lemma allocator_init_ok F (ok : bool) (a r d : option F) :
  (forall x y z, ok = true -> a = Some x -> r = Some y -> d = Some z ->
     allocator_init ok a r d = (ST_SUCCESS, Some (x, y, z))) /\
  (ok = false \/ a = None \/ r = None \/ d = None -> allocator_init ok a r d = (ST_INVALID_ARGUMENT, None)).
Proof.
  split.
  - intros x y z -> -> -> ->. reflexivity.
  - intros H. destruct ok, a, r, d; try reflexivity. destruct H as [H|[H|[H|H]]]; discriminate H.
Qed.

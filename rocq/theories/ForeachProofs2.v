(** Particular loops. *)
From Verif Require Import Base NListFacts Status Mem MemFacts VectorModel VectorSpec VectorDriver
  VectorRep VectorProofs VectorProofs2 VectorProofs3 VectorRefine VectorSearch VectorFail VectorMore
  VectorFinal VectorFinal2 ListModel ListSpec ListDriver ForeachModel ForeachSpec ForeachProofs.
From Coq Require Import ZifyBool ZifyNat ZifyN.

Section Visits.
  Context {C A : Type}.
  Variable calls : A -> list C -> list (vop C).
  Variable after : A -> list C -> list status -> bool * A.

  (** Calls that never leave fewer elements. *)
  Lemma visits_safe c size i a s r s' : visits calls after c size i a s r s' ->
    (forall a x s rs s', vspecs c (calls a x) s rs s' -> nlen (s_elems s) <= nlen (s_elems s')) ->
    size <= nlen (s_elems s) -> r <> None.
  Proof.
    intros V K. induction V as [| i a s I NX | | i a s x rs s1 a1 r s2 I NX S AF V IH]; intros L; try discriminate.
    - destruct (nnth_exists i (s_elems s)); [lia|congruence].
    - apply IH. pose proof (K _ _ _ _ _ S). lia.
  Qed.
  Lemma visits_grow c size i a s r s' : visits calls after c size i a s r s' ->
    (forall a x s rs s', vspecs c (calls a x) s rs s' -> nlen (s_elems s) <= nlen (s_elems s')) ->
    nlen (s_elems s) <= nlen (s_elems s').
  Proof.
    intros V K. induction V as [| i a s I NX | i a s x rs s1 a1 I NX S AF | i a s x rs s1 a1 r s2 I NX S AF V IH]; try lia;
      pose proof (K _ _ _ _ _ S); lia.
  Qed.
  (** Calls that always leave fewer elements. *)
  Lemma visits_less c size i a s r s' : visits calls after c size i a s r s' ->
    (forall a x rs, fst (after a x rs) = false) ->
    (forall a x s rs s', s_elems s <> [] -> vspecs c (calls a x) s rs s' -> nlen (s_elems s') < nlen (s_elems s)) ->
    2 <= size -> i + nlen (s_elems s) <= size -> (i < size) -> r = None.
  Proof.
    intros V NS K B. induction V as [| i a s I NX | i a s x rs s1 a1 I NX S AF | i a s x rs s1 a1 r s2 I NX S AF V IH]; intros L G.
    - lia.
    - reflexivity.
    - specialize (NS a x rs). rewrite AF in NS. discriminate.
    - assert (NE : s_elems s <> []). { intros E. rewrite E in NX. unfold nnth in NX. now destruct (N.to_nat i). }
      specialize (K _ _ _ _ _ NE S). pose proof (nnth_lt _ _ _ NX). apply IH; lia.
  Qed.
End Visits.

Section Loops.
  Context {C A : Type}.
  Notation vec := (vector C).
  Implicit Types (w : Mem.world C) (v : vec).

  Lemma nskip_nnth (xs : list (list C)) i x : nnth i xs = Some x -> nskip i xs = x :: nskip (i + 1) xs.
  Proof.
    intros H. apply nnth_some in H as (a & c & -> & L). subst i.
    rewrite nskip_app_l by reflexivity. change (a ++ x :: c) with (a ++ [x] ++ c). rewrite app_assoc.
    rewrite nskip_app_l; [reflexivity|]. rewrite nlen_app. reflexivity.
  Qed.

  (** A body that only looks at the item. *)
  Lemma look_loop (f : A -> list C -> A) p w v pre xs post : vrep w v pre xs post -> nlen xs < W64 ->
    forall fuel i a, nlen xs <= i + N.of_nat fuel ->
    foreach_loop (nlen xs) (fun a v x => ret (p a x, f a x, v)) fuel i a v w = Ok (fold_until f p (nskip i xs) a, v) w.
  Proof.
    intros R SW. induction fuel as [|fuel IH]; intros i a L; cbn [foreach_loop].
    - replace (i <? nlen xs) with false by lia. rewrite nskip_all by lia. reflexivity.
    - destruct (N.ltb_spec i (nlen xs)) as [I|I]; [|rewrite nskip_all by lia; reflexivity].
      destruct (nnth_exists _ _ I) as [x NX]. pose proof (vector_get_ok w v pre xs post i R) as VG. rewrite NX in VG.
      rewrite (bind_ok _ _ _ _ _ VG). unfold bind, ret. rewrite (nskip_nnth _ _ _ NX). cbn [fold_until].
      destruct (p a x); [reflexivity|]. rewrite wadd_small by lia. apply IH. lia.
  Qed.
  Lemma reached_small w v xs : reached w v xs -> nlen xs < W64.
  Proof.
    intros H. destruct (reached_rep _ _ _ H) as (pre & post & R & F & NF). unfold fits in F. pose proof (r_esz _ _ _ _ _ R). nia.
  Qed.
  Lemma look_reached (f : A -> list C -> A) p w v xs a : reached w v xs ->
    foreach (fun a v x => ret (p a x, f a x, v)) a v w = Ok (fold_until f p xs a, v) w.
  Proof.
    intros H. pose proof (reached_small _ _ _ H). destruct (reached_rep _ _ _ H) as (pre & post & R & F & NF).
    unfold foreach. rewrite (r_size _ _ _ _ _ R). rewrite (look_loop f p w v pre xs post R) by lia. reflexivity.
  Qed.

  (** A body that changes the item in place. *)
  Lemma change_loop (h : A -> list C -> A) (f : list C -> list C) pre post : (forall x, nlen (f x) = nlen x) ->
    forall fuel xs ys a w v, vrep w v pre (ys ++ xs) post -> nlen (ys ++ xs) < W64 -> nlen xs <= N.of_nat fuel ->
    exists w',
    foreach_mut_loop (nlen (ys ++ xs)) (fun a v p => let* x := mread p (v_esz v) in mwrite p (f x) ;;; ret (false, h a x, v))
      fuel (nlen ys) a v w = Ok (fold_left h xs a, v) w' /\ vrep w' v pre (ys ++ map f xs) post /\ dlog w' = dlog w.
  Proof.
    intros LF. induction fuel as [|fuel IH]; intros xs ys a w v R SW L; cbn [foreach_mut_loop].
    - destruct xs; [|rewrite nlen_cons in L; lia]. rewrite app_nil_r in *. replace (_ <? _) with false by lia.
      exists w. split; [reflexivity|]. now rewrite app_nil_r.
    - destruct xs as [|x xs].
      { rewrite app_nil_r in *. replace (_ <? _) with false by lia. exists w. split; [reflexivity|]. now rewrite app_nil_r. }
      assert (I : nlen ys < nlen (ys ++ x :: xs)) by (rewrite nlen_app, nlen_cons; lia).
      assert (NX : nnth (nlen ys) (ys ++ x :: xs) = Some x) by now apply nnth_mid.
      replace (nlen ys <? nlen (ys ++ x :: xs)) with true by lia.
      rewrite (bind_ok _ _ _ _ _ (vget_ok w v pre _ post (nlen ys) R)).
      replace (nlen ys <? nlen (ys ++ x :: xs)) with true by lia.
      pose proof (elem_read _ _ _ _ _ _ _ R NX) as ER.
      destruct (elem_write w v pre _ post (nlen ys) (f x) R I) as (w1 & EW & G & D).
      { rewrite LF. exact (chunked_nnth _ _ _ _ (r_chunk _ _ _ _ _ R) NX). }
      assert (E : lset (nlen ys) (f x) (ys ++ x :: xs) = (ys ++ [f x]) ++ xs).
      { unfold lset. rewrite nfirst_app_l by reflexivity.
        replace (nskip (nlen ys + 1) (ys ++ x :: xs)) with xs; [now rewrite !app_assoc|].
        change (ys ++ x :: xs) with (ys ++ [x] ++ xs). rewrite (app_assoc ys [x] xs).
        rewrite nskip_app_l; [reflexivity|]. rewrite nlen_app. reflexivity. }
      rewrite E in G.
      assert (LE : nlen (ys ++ x :: xs) = nlen ((ys ++ [f x]) ++ xs)) by (rewrite !nlen_app, nlen_cons; change (nlen [f x]) with 1; lia).
      destruct (IH xs (ys ++ [f x]) (h a x) w1 v) as (w2 & E2 & R2 & D2).
      { apply G. } { rewrite LE in SW. exact SW. } { rewrite nlen_cons in L. lia. }
      exists w2. split; [|split; [|congruence]].
      + rewrite (bind_ok _ _ w (false, h a x, v) w1).
        2:{ rewrite (bind_ok _ _ _ _ _ ER). now rewrite (bind_ok _ _ _ _ _ EW). }
        cbv beta iota. rewrite wadd_small by lia. rewrite LE. replace (nlen ys + 1) with (nlen (ys ++ [f x])) by (rewrite nlen_app; reflexivity). exact E2.
      + cbn [map]. now rewrite <- app_assoc in R2.
  Qed.
  Lemma change_reached (h : A -> list C -> A) (f : list C -> list C) w v xs a :
    reached w v xs -> (forall x, nlen (f x) = nlen x) ->
    exists w', foreach_mut (fun a v p => let* x := mread p (v_esz v) in mwrite p (f x) ;;; ret (false, h a x, v)) a v w =
        Ok (fold_left h xs a, v) w' /\ shows w' v (map f xs) /\ dlog w' = dlog w.
  Proof.
    intros H LF. pose proof (reached_small _ _ _ H). destruct (reached_rep _ _ _ H) as (pre & post & R & F & NF).
    destruct (change_loop h f pre post LF (N.to_nat (nlen xs)) xs [] a w v R) as (w' & E & R' & D); cbn [app]; [assumption|lia|].
    exists w'. unfold foreach_mut. rewrite (r_size _ _ _ _ _ R). split; [exact E|]. split; [eapply rep_shows, R'|exact D].
  Qed.

  Variable calls : A -> list C -> list (vop C).
  Variable after : A -> list C -> list status -> bool * A.

  Lemma safe_reached d w v xs a : reached w v xs ->
    (forall a x, nlen x = v_esz v -> Forall (arg_ok (v_esz v)) (calls a x) /\ demands (calls a x) <= d) ->
    (forall c a x s rs s', vspecs c (calls a x) s rs s' -> nlen (s_elems s) <= nlen (s_elems s')) ->
    room (nlen xs * (1 + d)) (v_esz v) ->
    exists a' v' w' ys, foreach (caller calls after) a v w = Ok (a', v') w' /\ shows w' v' ys /\ nlen xs <= nlen ys.
  Proof.
    intros H K S F. destruct (foreach_reached calls after d (fun _ _ => True) w v xs a H I (fun _ a x _ _ => K a x) (fun _ _ _ _ _ _ => I) F) as (r & s' & V & X).
    pose proof (visits_safe _ _ _ _ _ _ _ _ _ V (S _)) as NN. cbn [s_elems] in NN.
    destruct r as [a'|]; [|exfalso; apply NN; [lia|reflexivity]].
    destruct X as (w' & v' & E & SH & _). exists a', v', w', (s_elems s'). split; [exact E|]. split; [exact SH|].
    pose proof (visits_grow _ _ _ _ _ _ _ _ _ V (S _)) as L. exact L.
  Qed.
  Lemma less_reached d w v xs a : reached w v xs -> 2 <= nlen xs ->
    (forall a x, nlen x = v_esz v -> Forall (arg_ok (v_esz v)) (calls a x) /\ demands (calls a x) <= d) ->
    (forall a x rs, fst (after a x rs) = false) ->
    (forall c a x s rs s', s_elems s <> [] -> vspecs c (calls a x) s rs s' -> nlen (s_elems s') < nlen (s_elems s)) ->
    room (nlen xs * (1 + d)) (v_esz v) ->
    foreach (caller calls after) a v w = Fault NullDeref.
  Proof.
    intros H L2 K NS S F. destruct (foreach_reached calls after d (fun _ _ => True) w v xs a H I (fun _ a x _ _ => K a x) (fun _ _ _ _ _ _ => I) F) as (r & s' & V & X).
    assert (r = None) as ->. { eapply visits_less; [exact V|exact NS|apply S|exact L2| |]; cbn [s_elems]; lia. }
    exact X.
  Qed.
End Loops.

Lemma vspecs_one {C} (c : vcfg C) o s rs s' : vspecs c [o] s rs s' -> exists r, rs = [r] /\ vspec c o s r s'.
Proof. intros V. inversion V as [|o' ops s0 r s1 rs0 s2 V1 V2]; subst. inversion V2; subst. eauto. Qed.

Section Cases.
  Context {C : Type}.
  Lemma nlen_ldelete i n (l : list (list C)) : i + n <= nlen l -> nlen (ldelete i n l) = nlen l - n.
  Proof. intros. unfold ldelete. rewrite nlen_app, nlen_nfirst, nlen_nskip. lia. Qed.

  Notation vec := (vector C).
  Implicit Types (w : Mem.world C) (v : vec).

  Lemma pop_back_less c (s : vstate C) rs s' : s_elems s <> [] -> vspecs c [OPopBack] s rs s' ->
    nlen (s_elems s') < nlen (s_elems s).
  Proof.
    intros NE V. apply vspecs_one in V as (r & _ & H2). cbn [vspec] in H2. unfold spec_delete in H2.
    assert (1 <= nlen (s_elems s)) by (destruct (s_elems s); [congruence|rewrite nlen_cons; lia]).
    replace (nlen (s_elems s) =? 0) with false in H2 by lia. change (1 =? 0) with false in H2.
    replace (nlen (s_elems s) <? nlen (s_elems s) - 1 + 1) with false in H2 by lia.
    destruct H2 as [_ ->]. cbn [s_elems]. rewrite nlen_ldelete by lia. lia.
  Qed.
  Lemma clear_less c (s : vstate C) rs s' : s_elems s <> [] -> vspecs c [OClear] s rs s' ->
    nlen (s_elems s') < nlen (s_elems s).
  Proof.
    intros NE V. apply vspecs_one in V as (r & _ & H2). cbn [vspec] in H2. unfold spec_resize in H2.
    assert (1 <= nlen (s_elems s)) by (destruct (s_elems s); [congruence|rewrite nlen_cons; lia]).
    replace (0 =? nlen (s_elems s)) with false in H2 by lia.
    replace (0 <? nlen (s_elems s)) with true in H2 by lia.
    destruct H2 as [_ ->]. cbn [s_elems]. rewrite nfirst_0, nlen_nil. lia.
  Qed.

  (** Deleting the current item. *)
  Lemma visits_delete c size i (s : vstate C) (r : option N) s' :
    visits (fun a _ => [ODelete a]) (fun a _ _ => (false, a + 1)) c size i i s r s' ->
    2 <= size -> i + nlen (s_elems s) <= size -> i < size -> r = None.
  Proof.
    remember i as a eqn:EA in |- * at 2. intros V B. revert EA.
    induction V as [| | i a s x rs s1 a1 I NX S AF | i a s x rs s1 a1 r s2 I NX S AF V IH]; intros EA L G.
    - lia.
    - reflexivity.
    - discriminate.
    - subst a. injection AF as <-. pose proof (nnth_lt _ _ _ NX) as LT. apply vspecs_one in S as (k & _ & H2). cbn [vspec] in H2. unfold spec_delete in H2.
      change (1 =? 0) with false in H2. replace (nlen (s_elems s) <? i + 1) with false in H2 by lia.
      destruct H2 as [_ ->]. cbn [s_elems] in IH. rewrite nlen_ldelete in IH by lia. apply IH; lia.
  Qed.
  Lemma delete_reached w v xs : reached w v xs -> 2 <= nlen xs ->
    foreach (caller (fun a _ => [ODelete a]) (fun a _ _ => (false, a + 1))) 0 v w = Fault NullDeref.
  Proof.
    intros H L2. pose proof (reached_small _ _ _ H) as SW.
    destruct (foreach_reached (fun a _ => [ODelete a]) (fun a _ _ => (false, a + 1)) 0 (fun i a => a = i) w v xs 0 H eq_refl)
      as (r & s' & V & X).
    - intros i a x I -> LX. split; [|cbn; lia]. constructor; [|constructor]. cbn [arg_ok]. lia.
    - intros i a x rs I ->. reflexivity.
    - destruct (reached_rep _ _ _ H) as (pre & post & R & F & NF). unfold fits, room in *. rewrite N.add_0_r, N.mul_1_r. exact F.
    - assert (r = None) as ->. { eapply visits_delete; [exact V|exact L2| |]; cbn [s_elems]; lia. } exact X.
  Qed.

  (** Pushing an element for each item. *)
  Lemma visits_push (g : list C -> list C) c size : c_fixed c = false -> forall i a (s : vstate C) r s' xs,
    visits (fun _ x => [OPushBack (g x)]) (fun a x _ => (false, a ++ [x])) c size i a s r s' ->
    size = nlen xs -> a = nfirst i xs -> s_elems s = xs ++ map g (nfirst i xs) -> i <= size ->
    r = Some xs /\ s_elems s' = xs ++ map g xs.
  Proof.
    intros FX i a s r s' xs V SZ. 
    induction V as [i a s I | i a s I NX | i a s x rs s1 a1 I NX S AF | i a s x rs s1 a1 r s2 I NX S AF V IH]; intros EA ES L.
    - subst a. rewrite nfirst_all in * by lia. auto.
    - destruct (nnth_exists i (s_elems s)); [|congruence]. rewrite ES, nlen_app. lia.
    - discriminate.
    - injection AF as <-. rewrite ES, nnth_app1 in NX by lia. apply vspecs_one in S as (k & _ & H2). cbn [vspec] in H2. unfold spec_insert in H2.
      rewrite N.ltb_irrefl in H2.
      assert (NF : nfirst (i + 1) xs = nfirst i xs ++ [x]).
      { apply nnth_some in NX as (b & d & -> & LB). subst i. rewrite (nfirst_app_l (nlen b) b (x :: d)) by reflexivity.
        change (b ++ x :: d) with (b ++ [x] ++ d). rewrite (app_assoc b [x] d). apply nfirst_app_l. rewrite nlen_app. reflexivity. }
      unfold regrow in H2. rewrite FX in H2.
      assert (SE : s_elems s1 = xs ++ map g (nfirst (i + 1) xs)).
      { rewrite NF, map_app, app_assoc, <- ES. destruct (_ <=? _); destruct H2 as [_ ->]; cbn [s_elems];
          unfold linsert; rewrite nfirst_all, nskip_all by lia; reflexivity. }
      apply IH; auto; [|lia]. now rewrite NF, EA.
  Qed.
  Lemma push_reached (g : list C -> list C) w v xs : reached_own w v xs -> (forall x, nlen (g x) = nlen x) ->
    room (2 * nlen xs) (v_esz v) ->
    exists v' w', foreach (caller (fun _ x => [OPushBack (g x)]) (fun a x _ => (false, a ++ [x]))) [] v w = Ok (xs, v') w' /\
      shows w' v' (xs ++ map g xs).
  Proof.
    intros H LG F. pose proof (reached_own_rep _ _ _ H) as (_ & _ & AL & _).
    destruct (foreach_reached (fun _ x => [OPushBack (g x)]) (fun a x _ => (false, a ++ [x])) 1 (fun _ _ => True) w v xs [] (or_introl H) I)
      as (r & s' & V & X).
    - intros i a x _ _ LX. split; [|cbn; lia]. constructor; [|constructor]. cbn [arg_ok]. now rewrite LG.
    - auto.
    - unfold room in *. now rewrite N.mul_comm with (n := nlen xs).
    - destruct (visits_push g (cfg_of v) (nlen xs)) with (1 := eq_trans (f_equal negb AL) eq_refl) (2 := V) (xs := xs) as [-> ES].
      + reflexivity. + symmetry. apply nfirst_0. + cbn [s_elems]. now rewrite nfirst_0, app_nil_r. + lia.
      + destruct X as (w' & v' & E & SH & _). exists v', w'. split; [exact E|]. now rewrite <- ES.
  Qed.

  Lemma get_reached w v xs i : reached w v xs ->
    vector_get v i w = match nnth i xs with Some x => Ok x w | None => Fault NullDeref end.
  Proof. intros H. destruct (reached_rep _ _ _ H) as (pre & post & R & F & NF). eapply vector_get_ok; eauto. Qed.
  Lemma room_0 w v xs : reached w v xs -> room (nlen xs * (1 + 0)) (v_esz v).
  Proof.
    intros H. destruct (reached_rep _ _ _ H) as (pre & post & R & F & NF). unfold fits, room in *.
    rewrite N.add_0_r, N.mul_1_r. exact F.
  Qed.
  Lemma pop_reached w v xs : reached w v xs -> 2 <= nlen xs ->
    foreach (caller (fun (_ : unit) _ => [OPopBack]) (fun a _ _ => (false, a))) tt v w = Fault NullDeref.
  Proof.
    intros H L2. apply (less_reached _ _ 0 w v xs tt H L2); [|reflexivity| |exact (room_0 _ _ _ H)].
    - intros _ x _. split; [constructor; [exact I|constructor]|cbn; lia].
    - intros c _ x s rs s' NE V. eapply pop_back_less; eauto.
  Qed.
  Lemma clear_reached w v xs : reached w v xs -> 2 <= nlen xs ->
    foreach (caller (fun (_ : unit) _ => [OClear]) (fun a _ _ => (false, a))) tt v w = Fault NullDeref.
  Proof.
    intros H L2. apply (less_reached _ _ 0 w v xs tt H L2); [|reflexivity| |exact (room_0 _ _ _ H)].
    - intros _ x _. split; [constructor; [exact I|constructor]|cbn; lia].
    - intros c _ x s rs s' NE V. eapply clear_less; eauto.
  Qed.
  Lemma push_grows c x (s : vstate C) rs s' : vspecs c [OPushBack x] s rs s' -> nlen (s_elems s) <= nlen (s_elems s').
  Proof.
    intros V. apply vspecs_one in V as (r & _ & H). cbn [vspec] in H. unfold spec_insert in H. rewrite N.ltb_irrefl in H.
    destruct (regrow _ _ _); destruct H as [_ ->]; [|lia]. cbn [s_elems]. unfold linsert. rewrite !nlen_app, nlen_nfirst, nlen_nskip. lia.
  Qed.
End Cases.

(** Proofs about lists whose elements own memory: the client's calls. *)
From Coq Require Import Permutation.
From Verif Require Import Base NListFacts Status Mem MemFacts VectorModel VectorDriver ListModel ListSpec ListDriver ListHeap
  ListRep ListProofs ListProofs2 ListFinal OwnDriver OwnListModel OwnListDriver OwnListProofs.
From Coq Require Import ZifyBool ZifyNat ZifyN.
Implicit Types (w : world) (h : memory) (p q : ptr).

Section OwnListProofs2.
  Variables (e : N) (m : mode) (name : N -> list cell) (own : list cell -> N).
  Hypothesis NM : names_ok e name own.
  Notation lrep := (lrep e None m).
  Notation pool := (pool e m).
  Notation step := (step m).
  Notation limit := (limit_of e m).
  Notation d := (release e own).
  Notation objs := (objs m).
  Notation apart := (apart m).
  Notation elems := (elems name).
  Implicit Types (os : list (N * list cell)) (base : memory).

  Lemma pool_ext base base' h un ps us : (forall k, base' k = base k) -> pool base h un ps us -> pool base' h un ps us.
  Proof.
    intros X P. unfold ListRep.pool in *. destruct m as [|b pre post cap].
    - destruct P as (P1 & P2 & P3 & P4 & P5). split; [exact P1|]. split; [exact P2|]. split; [exact P3|]. split.
      + intros p I. rewrite X. now apply P4.
      + intros k NI. rewrite X. now apply P5.
    - destruct P as (P1 & P2 & P3 & P4 & P5). split; [exact P1|]. split; [exact P2|]. split; [exact P3|]. split; [exact P4|].
      intros k NI. rewrite X. now apply P5.
  Qed.
  Lemma lrep_ext base base' w l ps xs us : (forall k, base' k = base k) -> lrep base w l ps xs us -> lrep base' w l ps xs us.
  Proof.
    intros X (WO & CF & SZ & SZW & HD & TL & CH & P). split; [exact WO|]. split; [exact CF|]. split; [exact SZ|]. split; [exact SZW|].
    split; [exact HD|]. split; [exact TL|]. split; [exact CH|]. eapply pool_ext; eauto.
  Qed.

  (** A new object. *)
  Lemma new_object_eq buf w : new_object buf w = Ok (nextb w) (argw w buf).
  Proof. reflexivity. Qed.
  Lemma enter_object base w l ps xs us buf : lrep base w l ps xs us ->
    lrep (hset base (nextb w) (Some buf)) (argw w buf) l ps xs us /\ base (nextb w) = None /\ apart (nextb w).
  Proof.
    intros (WO & CF & SZ & SZW & HD & TL & CH & P). destruct (pool_blocks e m _ _ _ _ _ WO P) as (NB & BN & MB).
    assert (A : apart (nextb w)) by (unfold OwnListProofs.apart; destruct m; [exact Logic.I|congruence]).
    split; [|split; [exact BN|exact A]]. split.
    { intros k K. unfold argw in *. cbn [heap nextb] in *. unfold hset. destruct (N.eqb_spec k (nextb w)); [lia|]. apply WO. lia. }
    split; [exact CF|]. split; [exact SZ|]. split; [exact SZW|]. split; [exact HD|]. split; [exact TL|]. unfold argw. cbn [heap]. split.
    - apply hset_chain; [|exact CH]. intros q I. apply NB. apply in_or_app. now left.
    - now apply pool_block.
  Qed.
  Lemma apart_mode k : apart k -> match m with Grow => True | Fixed b _ _ _ => b <> k end.
  Proof. unfold OwnListProofs.apart. destruct m; [trivial|congruence]. Qed.

  (** The state between two calls: the objects [os] exist, and apart from them everything is as in [w0]. *)
  Definition inv w0 w (l : zlist) os : Prop :=
    exists base ps us, lrep base w l ps (elems os) us /\ objs base os /\ Forall (fun o => heap w0 (fst o) = None) os /\
      (forall k, ~ In k (map fst os) -> base k = heap w0 k) /\ orc w = orc w0.

  Lemma inv_new w0 w l os buf base ps us : lrep base w l ps (elems os) us -> objs base os -> Forall (fun o => heap w0 (fst o) = None) os ->
    (forall k, ~ In k (map fst os) -> base k = heap w0 k) ->
    let base1 := hset base (nextb w) (Some buf) in
    ~ In (nextb w) (map fst os) /\ objs base1 ((nextb w, buf) :: os) /\ heap w0 (nextb w) = None /\
    (forall k, ~ In k (map fst ((nextb w, buf) :: os)) -> base1 k = heap w0 k).
  Proof.
    intros REP [ND OB] FR BA base1. destruct (enter_object _ _ _ _ _ _ buf REP) as (_ & BN & A).
    assert (NI : ~ In (nextb w) (map fst os)).
    { intros I. apply in_map_iff in I as (o & E & I). rewrite Forall_forall in OB. destruct (OB o I) as [X _]. congruence. }
    split; [exact NI|]. split; [|split].
    - split; [cbn [map fst]; now constructor|]. constructor.
      + split; [|exact A]. cbn [fst snd]. unfold base1, hset. now rewrite N.eqb_refl.
      + rewrite Forall_forall in *. intros o I. destruct (OB o I) as [X Y]. split; [|exact Y]. unfold base1, hset.
        destruct (N.eqb_spec (fst o) (nextb w)) as [E|E]; [|exact X]. congruence.
    - now rewrite <- BA.
    - intros k NK. cbn [map fst In] in NK. unfold base1, hset. destruct (N.eqb_spec k (nextb w)); [subst; tauto|]. apply BA. tauto.
  Qed.

  Lemma inv_len w0 w l os : inv w0 w l os -> nlen os < W64 /\ l_size l = nlen os.
  Proof. intros (base & ps & us & (_ & _ & SZ & SZW & _) & _). rewrite elems_len in *. now split. Qed.
  Lemma fails_orc w w0 : orc w = orc w0 -> fails w = fails w0.
  Proof. unfold fails. now intros ->. Qed.

  (** The client's release of an object that was not taken. *)
  Lemma taken_no base w l ps xs us b buf r : lrep (hset base b (Some buf)) w l ps xs us -> base b = None -> apart b -> st_success r = false ->
    lunless_taken b (r, l) w = Ok (r, l) (dropw w b) /\ lrep base (dropw w b) l ps xs us.
  Proof.
    intros REP BN A R. split; [|eapply leave; eauto; now apply apart_mode]. unfold lunless_taken. cbn [fst]. rewrite R.
    pose proof REP as (_ & _ & _ & _ & _ & _ & _ & P).
    assert (HB : heap w b = Some buf).
    { rewrite (pool_at e m _ _ _ _ _ b P); [|unfold hset; now rewrite N.eqb_refl|exact A]. unfold hset. now rewrite N.eqb_refl. }
    unfold bind, dealloc. cbn [N.eqb orb andb pb po negb]. rewrite HB. reflexivity.
  Qed.
  Lemma err_not st : st_success (err_status st) = false.
  Proof. apply st_success_err. Qed.
  Lemma refused_not f n r : refusal limit f n r -> st_success r = false.
  Proof. unfold refusal. destruct (full limit n); [now intros ->|]. intros (_ & _ & st & ->). apply err_not. Qed.

  Lemma push_case (o : lop cell) (side : N * list cell -> list (N * list cell) -> list (N * list cell)) w0 w l os buf :
    (o = LPushBack (name (nextb w)) \/ o = LEmplaceBack None (Some (name (nextb w)))) /\ side = (fun x ys => ys ++ [x]) \/
    (o = LPushFront (name (nextb w)) \/ o = LEmplaceFront None (Some (name (nextb w)))) /\ side = (fun x ys => x :: ys) ->
    inv w0 w l os -> nlen os + 1 < W64 ->
    exists r l' w' os', (let* b := new_object buf in let* rl := run_lop l o in lunless_taken b rl) w = Ok (r, l') w' /\ inv w0 w' l' os' /\
      if st_success r then r = ST_SUCCESS /\ full limit (nlen os) = false /\ os' = side (nextb w, buf) os
      else refusal limit (fails w0) (nlen os) r /\ os' = os.
  Proof.
    intros HO (base & ps & us & REP & OB & FR & BA & OR) SW.
    destruct (inv_new w0 w l os buf base ps us REP OB FR BA) as (NI & OB1 & FN & BA1).
    destruct (enter_object _ _ _ _ _ _ buf REP) as (REP1 & BN & A). destruct NM as [NL NO].
    assert (AO : larg_ok e o) by (destruct HO as [[[->| ->] _]|[[->| ->] _]]; cbn [larg_ok ListSpec.ctor_ok size_ok]; rewrite ?NL; now repeat split).
    assert (SW1 : nlen (elems os) + ldemand o < W64) by (rewrite elems_len; destruct HO as [[[->| ->] _]|[[->| ->] _]]; exact SW).
    destruct (run_lop_ok e None m _ _ l ps _ us o REP1 AO SW1) as (w2 & l2 & r & ps2 & us2 & xs2 & gone & new & E & SP & REP2 & S2 & _).
    change (fails (argw w buf)) with (fails w) in SP. rewrite (fails_orc _ _ OR) in SP.
    assert (AD : added limit (fails w0) (elems os) (elems (side (nextb w, buf) os)) (name (nextb w)) r xs2 new).
    { destruct HO as [[[->| ->] ->]|[[->| ->] ->]]; cbn [lspec emplaced] in SP.
      - destruct SP as [SP _]. unfold OwnListProofs.elems in *. rewrite map_app. exact SP.
      - destruct SP as (_ & x & -> & SP). unfold OwnListProofs.elems in *. rewrite map_app. exact SP.
      - destruct SP as [SP _]. exact SP.
      - destruct SP as (_ & x & -> & SP). exact SP. }
    unfold bind at 1. rewrite new_object_eq. rewrite (bind_ok _ _ _ _ _ E). destruct S2 as (OR2 & _). cbn in OR2.
    destruct AD as [(FU & -> & -> & _)|(RF & -> & _)].
    - exists ST_SUCCESS, l2, w2, (side (nextb w, buf) os). split; [reflexivity|]. split.
      + exists (hset base (nextb w) (Some buf)), ps2, us2. split; [exact REP2|].
        assert (PM : Permutation ((nextb w, buf) :: os) (side (nextb w, buf) os)).
        { destruct HO as [[_ ->]|[_ ->]]; [apply (Permutation_app_comm [(nextb w, buf)] os)|reflexivity]. }
        split; [eapply objs_perm; eauto|]. split; [|split; [|congruence]].
        * rewrite Forall_forall in *. intros x I. apply (Permutation_in _ (Permutation_sym PM)) in I. destruct I as [<-|I]; [exact FN|now apply FR].
        * intros k NK. apply BA1. intros I. apply NK. eapply Permutation_in; [apply Permutation_map; exact PM|exact I].
      + change (st_success ST_SUCCESS) with true. cbv iota. rewrite elems_len in FU. auto.
    - pose proof (refused_not _ _ _ RF) as RN. destruct (taken_no _ _ _ _ _ _ _ _ _ REP2 BN A RN) as [ET REP3].
      exists r, l2, (dropw w2 (nextb w)), os. split; [exact ET|]. split.
      + exists base, ps2, us2. split; [exact REP3|]. split; [exact OB|]. split; [exact FR|]. split; [exact BA|]. unfold dropw, set_heap. cbn [orc]. congruence.
      + rewrite RN. rewrite elems_len in RF. now split.
  Qed.

  Lemma less_base w0 base base' os os' ks : objs base (os' ++ os) -> less base base' ks -> (forall k, In k ks <-> In k (map fst os)) ->
    Forall (fun o => heap w0 (fst o) = None) (os' ++ os) -> (forall k, ~ In k (map fst (os' ++ os)) -> base k = heap w0 k) ->
    forall k, ~ In k (map fst os') -> base' k = heap w0 k.
  Proof.
    intros OB [LA LB] KS FR BA k NK. destruct (in_dec N.eq_dec k ks) as [I|I].
    - rewrite LA by exact I. apply KS in I. apply in_map_iff in I as (o & <- & I). rewrite Forall_forall in FR. symmetry. apply FR.
      apply in_or_app. now right.
    - rewrite LB by exact I. apply BA. rewrite map_app, in_app_iff. rewrite <- KS. tauto.
  Qed.

  Lemma pop_back_case w0 w l os o : inv w0 w l (os ++ [o]) -> exists l' w', olpop_back d l w = Ok (ST_SUCCESS, l') w' /\ inv w0 w' l' os.
  Proof.
    intros (base & ps & us & REP & OB & FR & BA & OR).
    destruct (pop_back_step e m name own NM _ _ _ _ _ _ _ REP OB) as (w' & l' & ps' & us' & E & REP' & OB' & S').
    exists l', w'. split; [exact E|]. exists (hset base (fst o) None), ps', us'. split; [exact REP'|]. split; [exact OB'|].
    split; [now apply Forall_app in FR as [FR _]|]. split; [|destruct S'; congruence].
    eapply (less_base w0 base _ [o] os [fst o]); eauto; [apply less_one|reflexivity].
  Qed.
  Lemma pop_front_case w0 w l os o : inv w0 w l (o :: os) -> exists l' w', olpop_front d l w = Ok (ST_SUCCESS, l') w' /\ inv w0 w' l' os.
  Proof.
    intros (base & ps & us & REP & OB & FR & BA & OR).
    destruct (pop_front_step e m name own NM _ _ _ _ _ _ _ REP OB) as (w' & l' & ps' & us' & E & REP' & OB' & S').
    exists l', w'. split; [exact E|]. exists (hset base (fst o) None), ps', us'. split; [exact REP'|]. split; [exact OB'|].
    split; [now apply Forall_cons_iff in FR as [_ FR]|]. split; [|destruct S'; congruence].
    assert (PM : Permutation (o :: os) (os ++ [o])) by apply Permutation_cons_append.
    eapply (less_base w0 base _ [o] os [fst o]).
    - eapply objs_perm; eauto.
    - apply less_one.
    - reflexivity.
    - rewrite Forall_forall in *. intros x I. apply FR. eapply Permutation_in; [symmetry; exact PM|exact I].
    - intros k NK. apply BA. intros I. apply NK. eapply Permutation_in; [apply Permutation_map; exact PM|exact I].
  Qed.
  Lemma pop_back_none w0 w l : inv w0 w l [] -> olpop_back d l w = Ok (ST_INVALID_OPERATION, l) w.
  Proof.
    intros (base & ps & us & (_ & _ & _ & _ & _ & TL & CH & _) & _). destruct ps; [|contradiction]. unfold olpop_back. rewrite TL. reflexivity.
  Qed.
  Lemma pop_front_none w0 w l : inv w0 w l [] -> olpop_front d l w = Ok (ST_INVALID_OPERATION, l) w.
  Proof.
    intros (base & ps & us & (_ & _ & _ & _ & HD & _ & CH & _) & _). destruct ps; [|contradiction]. unfold olpop_front. rewrite HD. reflexivity.
  Qed.

  Lemma resize_case w0 w l os n : inv w0 w l os -> n <= nlen os -> exists l' w', olresize d l n w = Ok (ST_SUCCESS, l') w' /\ inv w0 w' l' (nfirst n os).
  Proof.
    intros IV LE. pose proof IV as (base & ps & us & REP & OB & FR & BA & OR). pose proof REP as (WO & CF & SZ & SZW & HD & TL & CH & P).
    rewrite elems_len in SZ. unfold olresize. rewrite SZ. destruct (N.eqb_spec n (nlen os)) as [->|NE].
    { exists l, w. split; [reflexivity|]. now rewrite nfirst_all by lia. }
    destruct (N.eqb_spec n 0) as [->|NZ].
    { destruct (destroy_all_own e m name own NM _ _ _ _ _ _ REP OB) as (w' & base' & E & WO' & P' & LS & S').
      unfold bind at 1. rewrite E. cbv beta iota. change (st_success ST_SUCCESS) with true. cbn [negb]. eexists. exists w'. split; [reflexivity|].
      change (nfirst 0 os) with (@nil (N * list cell)). exists base', [], []. split.
      - split; [exact WO'|]. split; [exact CF|]. split; [reflexivity|]. split; [reflexivity|]. split; [reflexivity|]. split; [reflexivity|].
        split; [exact Logic.I|exact P'].
      - split; [split; constructor|]. split; [constructor|]. split; [|destruct S'; congruence].
        eapply (less_base w0 base base' os [] (map fst os)); eauto; reflexivity. }
    replace (nlen os <? n) with false by lia.
    destruct (shrink_step e m name own NM (N.to_nat (nlen os - n)) base w l ps os us (N.to_nat n)) as (w' & l' & us' & base' & E & REP' & OB' & LS & S').
    { unfold nlen in *. lia. } { lia. }
    { split; [exact WO|]. split; [exact CF|]. split; [cbn; now rewrite elems_len|]. split; [exact SZW|]. split; [exact HD|]. split; [exact TL|].
      split; [exact CH|exact P]. } { exact OB. }
    unfold bind at 1. rewrite E. cbv beta iota. change (st_success ST_SUCCESS) with true. cbn [negb]. eexists. exists w'. split; [reflexivity|].
    rewrite N2Nat.id in REP'. exists base'. eexists. exists us'. split; [exact REP'|]. split; [exact OB'|].
    assert (SPL : os = firstn (N.to_nat n) os ++ skipn (N.to_nat n) os) by (symmetry; apply firstn_skipn).
    split; [rewrite SPL in FR; now apply Forall_app in FR as [FR _]|]. split; [|destruct S'; congruence].
    eapply (less_base w0 base base' (skipn (N.to_nat n) os) (firstn (N.to_nat n) os)); [rewrite <- SPL; exact OB|exact LS|reflexivity| |]; rewrite <- SPL; assumption.
  Qed.

  (** ** SetNodeData *)
  Lemma set_same l p q w : l_dtor l = None -> olset_node_data d l (Some p) (Some q) w = (d (node_data (Some p)) ;;; lset_node_data l (Some p) (Some q)) w.
  Proof.
    intros D. unfold olset_node_data, lset_node_data. cbn [nonnull negb orb]. unfold bind at 1. symmetry. unfold bind at 1.
    destruct (d (node_data (Some p)) w) as [u w1|f]; [|reflexivity].
    rewrite (bind_ok _ _ _ _ _ (destroy_node_none l (Some p) w1 D)). reflexivity.
  Qed.
  Lemma hset_swap h a b x y k : a <> b -> hset (hset h a x) b y k = hset (hset h b y) a x k.
  Proof. intros NE. unfold hset. destruct (N.eqb_spec k b), (N.eqb_spec k a); congruence. Qed.

  Definition set_body l i b : M (status * zlist) :=
    let* node := nth_node l i in
    let* rl := with_arg (name b) (fun a => let* st := olset_node_data d l node a in ret (st, l)) in
    lunless_taken b rl.
  Lemma set_case w0 w l os1 o os2 buf : inv w0 w l (os1 ++ o :: os2) ->
    exists w', (let* b := new_object buf in set_body l (nlen os1) b) w = Ok (ST_SUCCESS, l) w' /\ inv w0 w' l (os1 ++ (nextb w, buf) :: os2).
  Proof.
    intros (base & ps & us & REP & OB & FR & BA & OR).
    destruct (inv_new w0 w l _ buf base ps us REP OB FR BA) as (NI & OB1 & FN & BA1).
    destruct (enter_object _ _ _ _ _ _ buf REP) as (REP1 & BN & A). destruct NM as [NL NO].
    set (b := nextb w) in *. set (base1 := hset base b (Some buf)) in *. set (w1 := argw w buf) in *.
    pose proof REP1 as (_ & CF & _ & _ & HD & _ & CH & _). pose proof (chain_length _ _ _ _ _ _ CH) as LP.
    unfold OwnListProofs.elems in LP. rewrite map_length, app_length in LP. cbn [length] in LP.
    destruct (nth_error ps (length os1)) as [p|] eqn:EP; [|apply nth_error_None in EP; lia].
    assert (EP' := EP). apply nth_error_split in EP' as (ps1 & ps2 & -> & LP1).
    unfold bind at 1. rewrite new_object_eq. fold b w1. unfold set_body, nth_node, lget_head. cbn [snd]. rewrite HD.
    rewrite (bind_ok _ _ _ _ _ (walk_ok e _ w1 _ _ _ CH)). replace (N.to_nat (nlen os1)) with (length os1) by (unfold nlen; lia). rewrite EP.
    (* the argument *)
    destruct (enter_object _ _ _ _ _ _ (name b) REP1) as (REP2 & BN2 & A2). set (b2 := nextb w1) in *. set (w2 := argw w1 (name b)) in *.
    assert (OB2 : objs (hset base1 b2 (Some (name b))) ((b2, name b) :: (b, buf) :: os1 ++ o :: os2)).
    { assert (NI2 : ~ In b2 (map fst ((b, buf) :: os1 ++ o :: os2))).
      { intros I. destruct OB1 as [_ F]. apply in_map_iff in I as (x & E & I). rewrite Forall_forall in F. destruct (F x I) as [X _]. congruence. }
      destruct OB1 as [ND F]. split; [cbn [map fst]; now constructor|]. constructor.
      - split; [|exact A2]. unfold hset. cbn [fst snd]. now rewrite N.eqb_refl.
      - rewrite Forall_forall in *. intros x I. destruct (F x I) as [X Y]. split; [|exact Y]. unfold hset.
        destruct (N.eqb_spec (fst x) b2) as [E|]; [|exact X]. exfalso. apply NI2. rewrite <- E. now apply in_map. }
    set (base2 := hset base1 b2 (Some (name b))) in *.
    assert (OBO : objs base2 (os1 ++ o :: os2)).
    { destruct OB2 as [ND F]. cbn [map] in ND. apply NoDup_cons_iff in ND as [_ ND]. apply NoDup_cons_iff in ND as [_ ND].
      apply Forall_cons_iff in F as [_ F]. apply Forall_cons_iff in F as [_ F]. now split. }
    destruct (release_rep e m name own NM base2 w2 l ps1 p ps2 os1 o os2 us LP1 REP2 OBO) as (E3 & REP3 & OB3 & S3).
    set (base3 := hset base2 (fst o) None) in *. set (w3 := dropw w2 (fst o)) in *.
    assert (OB4 : objs base3 ((b2, name b) :: (b, buf) :: os1 ++ os2)).
    { apply (objs_drop m base2 o). eapply objs_perm; [|exact OB2].
      change ((b2, name b) :: (b, buf) :: os1 ++ o :: os2) with (((b2, name b) :: (b, buf) :: os1) ++ o :: os2).
      change (o :: (b2, name b) :: (b, buf) :: os1 ++ os2) with (o :: ((b2, name b) :: (b, buf) :: os1) ++ os2).
      symmetry. apply Permutation_middle. }
    pose proof OB4 as [ND4 F4]. apply Forall_cons_iff in F4 as [[X4 _] F4].
    assert (OUT : outside e m base3 (mkptr b2 0) (name b)).
    { split; [exact X4|]. split; [reflexivity|]. split; [apply NL|]. unfold OwnListProofs.apart in A2. destruct m; [exact Logic.I|exact A2]. }
    assert (LE : length ps1 = length (elems os1)) by (unfold OwnListProofs.elems; now rewrite map_length).
    rewrite elems_app in REP3.
    destruct (set_data_ok e None m base3 w3 l ps1 p ps2 (elems os1) _ (elems os2) us (mkptr b2 0) (name b) LE REP3 OUT) as (w4 & E4 & REP4 & S4).
    assert (EW : with_arg (name b) (fun a => let* st := olset_node_data d l (Some p) a in ret (st, l)) w1 = Ok (ST_SUCCESS, l) (dropw w4 b2)).
    { apply with_arg_ok. fold b2 w2. unfold bind at 1. rewrite set_same by apply CF. rewrite (bind_ok _ _ _ _ _ E3), E4. reflexivity. }
    rewrite (bind_ok _ _ _ _ _ EW). exists (dropw w4 b2). split; [reflexivity|].
    set (base4 := hset base1 (fst o) None).
    assert (NE : b2 <> fst o).
    { intros E. destruct OB2 as [ND _]. cbn [map fst] in ND. apply NoDup_cons_iff in ND as [ND _]. apply ND. right. rewrite E.
      rewrite map_app. apply in_or_app. right. now left. }
    assert (REP5 : lrep base4 (dropw w4 b2) l (ps1 ++ p :: ps2) (elems os1 ++ name b :: elems os2) us).
    { apply (leave e None m base4 b2 (name b)).
      - unfold base4, hset. destruct (N.eqb_spec b2 (fst o)); [reflexivity|exact BN2].
      - eapply lrep_ext; [|exact REP4]. intros k. unfold base4, base3, base2. apply hset_swap. congruence.
      - now apply apart_mode. }
    assert (OB5 : objs base4 ((b, buf) :: os1 ++ os2)).
    { apply (objs_drop m base1 o). eapply objs_perm; [|exact OB1].
      change ((b, buf) :: os1 ++ o :: os2) with (((b, buf) :: os1) ++ o :: os2).
      change (o :: (b, buf) :: os1 ++ os2) with (o :: ((b, buf) :: os1) ++ os2). symmetry. apply Permutation_middle. }
    assert (PM : Permutation ((b, buf) :: os1 ++ os2) (os1 ++ (b, buf) :: os2)) by apply Permutation_middle.
    exists base4, (ps1 ++ p :: ps2), us. split; [rewrite elems_app; exact REP5|]. split; [eapply objs_perm; eauto|].
    split; [|split].
    - rewrite Forall_forall in *. intros x I. apply (Permutation_in _ (Permutation_sym PM)) in I. destruct I as [<-|I]; [exact FN|].
      apply FR. apply in_or_app. apply in_app_or in I as [I|I]; [now left|right; now right].
    - intros k NK. unfold base4, hset. destruct (N.eqb_spec k (fst o)) as [->|NKO].
      + rewrite Forall_forall in FR. symmetry. apply FR. apply in_or_app. right. now left.
      + apply BA1. intros I. apply NK. cbn [map fst In] in I. rewrite map_app in *. cbn [map fst] in *. rewrite in_app_iff in *. cbn [In] in *.
        destruct I as [I|[I|[I|I]]]; [right; left; exact I|left; exact I|congruence|right; right; exact I].
    - unfold dropw, set_heap. cbn [orc]. destruct S4 as (O4 & _), S3 as (O3 & _). rewrite O4, O3. exact OR.
  Qed.
  Lemma set_none w0 w l os i buf : inv w0 w l os -> nlen os <= i ->
    exists w', (let* b := new_object buf in set_body l i b) w = Ok (ST_INVALID_ARGUMENT, l) w' /\ inv w0 w' l os.
  Proof.
    intros (base & ps & us & REP & OB & FR & BA & OR) LE. destruct (enter_object _ _ _ _ _ _ buf REP) as (REP1 & BN & A).
    pose proof REP1 as (_ & _ & _ & _ & HD & _ & CH & _). pose proof (chain_length _ _ _ _ _ _ CH) as LP.
    unfold OwnListProofs.elems in LP. rewrite map_length in LP.
    unfold bind at 1. rewrite new_object_eq. unfold set_body, nth_node, lget_head. cbn [snd]. rewrite HD.
    rewrite (bind_ok _ _ _ _ _ (walk_ok e _ _ _ _ _ CH)).
    replace (nth_error ps (N.to_nat i)) with (@None ptr) by (symmetry; apply nth_error_None; unfold nlen in LE; lia).
    destruct (enter_object _ _ _ _ _ _ (name (nextb w)) REP1) as (REP2 & BN2 & A2).
    assert (REP3 : lrep (hset base (nextb w) (Some buf)) (dropw (argw (argw w buf) (name (nextb w))) (nextb (argw w buf))) l ps (elems os) us).
    { eapply leave; [exact BN2|exact REP2|now apply apart_mode]. }
    rewrite (bind_ok _ _ _ (ST_INVALID_ARGUMENT, l) (dropw (argw (argw w buf) (name (nextb w))) (nextb (argw w buf)))) by (now apply with_arg_ok).
    destruct (taken_no _ _ _ _ _ _ _ _ ST_INVALID_ARGUMENT REP3 BN A eq_refl) as [ET REP4]. eexists. split; [exact ET|].
    exists base, ps, us. split; [exact REP4|]. split; [exact OB|]. split; [exact FR|]. split; [exact BA|exact OR].
  Qed.

  (** ** One call *)
  Definition conts os : list (list cell) := map snd os.
  Lemma conts_len os : nlen (conts os) = nlen os.
  Proof. unfold nlen, conts. now rewrite map_length. Qed.
  Lemma conts_first n os : conts (nfirst n os) = nfirst n (conts os).
  Proof. unfold conts, nfirst. now rewrite firstn_map. Qed.
  Definition qdemand (o : qop) : N := match o with QPushBack _ | QPushFront _ | QEmplaceBack _ | QEmplaceFront _ => 1 | _ => 0 end.
  Lemma run_qop_ok w0 w l os (o : qop) : inv w0 w l os -> nlen os + qdemand o < W64 ->
    exists r l' w' os', run_qop e name own l o w = Ok (r, l') w' /\ inv w0 w' l' os' /\ qspec limit (fails w0) o (conts os) r (conts os').
  Proof.
    intros IV SW. destruct o as [buf|buf|buf|buf| | |i buf|n|]; cbn [run_qop qspec qdemand] in *.
    - destruct (push_case (LPushBack (name (nextb w))) _ w0 w l os buf (or_introl (conj (or_introl eq_refl) eq_refl)) IV SW) as (r & l' & w' & os' & E & IV' & SP).
      exists r, l', w', os'. split; [exact E|]. split; [exact IV'|]. rewrite conts_len. destruct (st_success r).
      + destruct SP as (-> & F & ->). split; [reflexivity|]. split; [exact F|]. unfold conts. now rewrite map_app.
      + destruct SP as (RF & ->). now split.
    - destruct (push_case (LPushFront (name (nextb w))) _ w0 w l os buf (or_intror (conj (or_introl eq_refl) eq_refl)) IV SW) as (r & l' & w' & os' & E & IV' & SP).
      exists r, l', w', os'. split; [exact E|]. split; [exact IV'|]. rewrite conts_len. destruct (st_success r).
      + destruct SP as (-> & F & ->). split; [reflexivity|]. split; [exact F|]. reflexivity.
      + destruct SP as (RF & ->). now split.
    - destruct (push_case (LEmplaceBack None (Some (name (nextb w)))) _ w0 w l os buf (or_introl (conj (or_intror eq_refl) eq_refl)) IV SW) as (r & l' & w' & os' & E & IV' & SP).
      exists r, l', w', os'. split; [exact E|]. split; [exact IV'|]. rewrite conts_len. destruct (st_success r).
      + destruct SP as (-> & F & ->). split; [reflexivity|]. split; [exact F|]. unfold conts. now rewrite map_app.
      + destruct SP as (RF & ->). now split.
    - destruct (push_case (LEmplaceFront None (Some (name (nextb w)))) _ w0 w l os buf (or_intror (conj (or_intror eq_refl) eq_refl)) IV SW) as (r & l' & w' & os' & E & IV' & SP).
      exists r, l', w', os'. split; [exact E|]. split; [exact IV'|]. rewrite conts_len. destruct (st_success r).
      + destruct SP as (-> & F & ->). split; [reflexivity|]. split; [exact F|]. reflexivity.
      + destruct SP as (RF & ->). now split.
    - destruct (snoc_case os) as [->|(os0 & o & ->)].
      + exists ST_INVALID_OPERATION, l, w, []. split; [now apply (pop_back_none w0)|]. split; [exact IV|]. now split.
      + destruct (pop_back_case _ _ _ _ _ IV) as (l' & w' & E & IV'). exists ST_SUCCESS, l', w', os0. split; [exact E|]. split; [exact IV'|].
        assert (X : conts (os0 ++ [o]) = conts os0 ++ [snd o]) by (unfold conts; now rewrite map_app). rewrite X.
        destruct (conts os0 ++ [snd o]) eqn:Y; [now destruct (conts os0)|]. rewrite <- Y. split; [reflexivity|].
        rewrite nlen_app. change (nlen [snd o]) with 1. rewrite nfirst_app_l; [reflexivity|lia].
    - destruct os as [|o os].
      + exists ST_INVALID_OPERATION, l, w, []. split; [now apply (pop_front_none w0)|]. split; [exact IV|]. now split.
      + destruct (pop_front_case _ _ _ _ _ IV) as (l' & w' & E & IV'). exists ST_SUCCESS, l', w', os. split; [exact E|]. split; [exact IV'|]. now split.
    - rewrite conts_len. destruct (N.leb_spec (nlen os) i) as [LE|LT].
      + destruct (set_none w0 w l os i buf IV LE) as (w' & E & IV'). exists ST_INVALID_ARGUMENT, l, w', os. now repeat split.
      + destruct (nnth i os) as [o|] eqn:EN.
        2: { unfold nnth in EN. apply nth_error_None in EN. unfold nlen in LT. lia. }
        apply nnth_some in EN as (os1 & os2 & -> & <-).
        destruct (set_case w0 w l os1 o os2 buf IV) as (w' & E & IV'). exists ST_SUCCESS, l, w', (os1 ++ (nextb w, buf) :: os2).
        split; [exact E|]. split; [exact IV'|]. split; [reflexivity|].
        assert (X : conts (os1 ++ o :: os2) = conts os1 ++ snd o :: conts os2) by (unfold conts; now rewrite map_app). rewrite X.
        rewrite <- (conts_len os1). rewrite nfirst_app_l by reflexivity.
        change (conts os1 ++ snd o :: conts os2) with (conts os1 ++ [snd o] ++ conts os2). rewrite (app_assoc (conts os1) [snd o] (conts os2)), nskip_app_l.
        * unfold conts. rewrite map_app. reflexivity.
        * rewrite nlen_app. reflexivity.
    - destruct (inv_len _ _ _ _ IV) as [_ SZ]. unfold lget_size. cbn [snd]. rewrite SZ.
      destruct (resize_case w0 w l os (N.min n (nlen os)) IV ltac:(lia)) as (l' & w' & E & IV'). exists ST_SUCCESS, l', w', (nfirst (N.min n (nlen os)) os).
      split; [exact E|]. split; [exact IV'|]. split; [reflexivity|]. rewrite conts_first.
      destruct (N.le_gt_cases n (nlen os)) as [LE|GT]; [now rewrite N.min_l by exact LE|]. rewrite N.min_r by lia.
      rewrite !nfirst_all; [reflexivity| |]; rewrite conts_len; lia.
    - destruct (resize_case w0 w l os 0 IV ltac:(lia)) as (l' & w' & E & IV'). exists ST_SUCCESS, l', w', []. split; [exact E|]. split; [exact IV'|]. now split.
  Qed.
  Lemma qspec_len f (o : qop) l r l' : qspec limit f o l r l' -> nlen l' <= nlen l + qdemand o.
  Proof.
    destruct o as [buf|buf|buf|buf| | |i buf|n|]; cbn [qspec qdemand].
    - destruct (st_success r); [intros (_ & _ & ->); rewrite nlen_app; change (nlen [buf]) with 1; lia|intros (_ & ->); lia].
    - destruct (st_success r); [intros (_ & _ & ->); rewrite nlen_cons; lia|intros (_ & ->); lia].
    - destruct (st_success r); [intros (_ & _ & ->); rewrite nlen_app; change (nlen [buf]) with 1; lia|intros (_ & ->); lia].
    - destruct (st_success r); [intros (_ & _ & ->); rewrite nlen_cons; lia|intros (_ & ->); lia].
    - destruct l; [intros (_ & ->); lia|]. intros (_ & ->). rewrite nlen_nfirst. lia.
    - destruct l; [intros (_ & ->); lia|]. intros (_ & ->). rewrite nlen_cons. lia.
    - destruct (N.leb_spec (nlen l) i); [intros (_ & ->); lia|]. intros (_ & ->). rewrite !nlen_app, nlen_nfirst, nlen_nskip. change (nlen [buf]) with 1. lia.
    - intros (_ & ->). rewrite nlen_nfirst. lia.
    - intros (_ & ->). change (nlen (@nil (list cell))) with 0. lia.
  Qed.
  Lemma run_qops_ok w0 (ops : list qop) : forall w l os, inv w0 w l os -> nlen os + nlen ops < W64 ->
    exists rs l' w' os', run_qops e name own l ops w = Ok (rs, l') w' /\ inv w0 w' l' os' /\ qspecs limit (fails w0) ops (conts os) rs (conts os').
  Proof.
    induction ops as [|o ops IH]; intros w l os IV SW.
    - exists [], l, w, os. split; [reflexivity|]. split; [exact IV|constructor].
    - rewrite nlen_cons in SW. assert (QD : qdemand o <= 1) by (destruct o; cbn; lia).
      destruct (run_qop_ok w0 w l os o IV) as (r & l1 & w1 & os1 & E1 & IV1 & SP1); [lia|].
      pose proof (qspec_len _ _ _ _ _ SP1) as LQ. rewrite !conts_len in LQ.
      destruct (IH w1 l1 os1 IV1) as (rs & l2 & w2 & os2 & E2 & IV2 & SP2); [lia|].
      exists (r :: rs), l2, w2, os2. split; [|split; [exact IV2|econstructor; eauto]].
      cbn [run_qops]. rewrite (bind_ok _ _ _ _ _ E1). cbv beta iota. now rewrite (bind_ok _ _ _ _ _ E2).
  Qed.

  (** ** What the state means *)
  Lemma inv_owns w0 w l os : inv w0 w l os -> lowns own w l (conts os).
  Proof.
    intros (base & ps & us & REP & [ND F] & FR & BA & OR). exists ps, (elems os). split; [eapply lrep_shows; eauto|].
    pose proof REP as (_ & _ & _ & _ & _ & _ & _ & P). unfold OwnListProofs.elems, conts. rewrite !map_map. apply map_ext_in. intros o I. destruct NM as [_ NO].
    rewrite NO. rewrite Forall_forall in F. destruct (F o I) as [B A]. rewrite (pool_at e m _ _ _ _ _ _ P); [exact B|congruence|exact A].
  Qed.
  Lemma inv_destroy w0 w l os : inv w0 w l os ->
    exists w', oldestroy d l w = Ok (ST_SUCCESS, l) w' /\ forall k, apart k -> heap w' k = heap w0 k.
  Proof.
    intros (base & ps & us & REP & OB & FR & BA & OR). destruct (destroy_all_own e m name own NM _ _ _ _ _ _ REP OB) as (w' & base' & E & WO' & P' & LS & S').
    exists w'. split.
    - destruct REP as (_ & (EE & _ & _ & E0 & _) & _). unfold oldestroy. rewrite EE. replace (negb (e =? 0)) with true by lia.
      unfold assert. unfold bind at 1. unfold ret at 1. cbv beta iota. now rewrite (bind_ok _ _ _ _ _ E).
    - intros k A. assert (B : base' k = heap w0 k) by (eapply (less_base w0 base base' os [] (map fst os)); eauto; try reflexivity; tauto).
      rewrite <- B. unfold ListRep.pool in P'. unfold OwnListProofs.apart in A. destruct m as [|b pre post cap].
      + destruct P' as (_ & _ & _ & _ & P'). now apply P'.
      + destruct P' as (_ & _ & _ & _ & P'). now apply P'.
  Qed.
End OwnListProofs2.

(** Argument parser: the vector of parsed arguments. *)
From Verif Require Import Base NListFacts Status Mem MemFacts VectorModel VectorSpec VectorRep VectorDriver VectorProofs VectorProofs2
  VectorProofs3 VectorRefine VectorFail StringModel StringDriver ArgModel ArgSpec ArgDriver ArgText.
From Coq Require Import ZifyBool ZifyNat ZifyN.
Implicit Types (w : world acell) (v : avec) (q : ptr).

(** ** Elements *)
Lemma nlen_zero n : nlen (zero_cells n) = n.
Proof. unfold zero_cells, nlen. rewrite repeat_length. lia. Qed.
Lemma nlen_enc a : nlen (enc_word a) = 8.
Proof. destruct a; reflexivity. Qed.
Lemma word_eqb_refl a : word_eqb a a = true.
Proof. destruct a; cbn [word_eqb]; rewrite ?N.eqb_refl; reflexivity. Qed.
Lemma dec_enc a : dec_word (enc_word a) = Some a.
Proof.
  destruct a; [reflexivity| | |]; cbn [enc_word map dec_word]; unfold acells_eqb, acell_eqb; cbn [enc_word map];
    rewrite !word_eqb_refl; reflexivity.
Qed.
(** The bytes of a parsed argument: definition, has_value, size and data of the view. *)
Definition cells (d : word) (h : N) (s p : word) : list acell :=
  enc_word d ++ [AByte h] ++ zero_cells 7 ++ zero_cells 24 ++ enc_word s ++ zero_cells 24 ++ enc_word p.
Lemma cells_0 : zero_cells ARG_SIZE = cells WZero 0 WZero WZero.
Proof. reflexivity. Qed.

(** The vectors of the parser. *)
Definition avrep w v (xs : list (list acell)) : Prop :=
  vrep w v [] xs [] /\ v_alloc v = true /\ v_growth v = 2 /\ v_esz v = 80 /\ v_dtor v = None.
(** Since the moment [t0] every request was for an entry without room, and none was refused. *)
Definition account (room t0 : N) w v : Prop :=
  v_cap v = room_after room (N.to_nat (v_size v)) /\ tick w = t0 + grown room (N.to_nat (v_size v)) /\
  forall t, t0 <= t -> t < tick w -> exists fill, orc w t = AOk fill.
Definition agood w v w' v' (xs : list (list acell)) : Prop :=
  avrep w' v' xs /\ frame w w' v v' /\ forall room t0, account room t0 w v -> account room t0 w' v'.
Lemma agood_refl w v xs : avrep w v xs -> agood w v w v xs.
Proof. intros R. split; [exact R|]. split; [apply frame_refl|auto]. Qed.
Lemma agood_trans w1 v1 w2 v2 w3 v3 xs ys :
  wfw w1 -> agood w1 v1 w2 v2 xs -> agood w2 v2 w3 v3 ys -> agood w1 v1 w3 v3 ys.
Proof. intros W (_ & F1 & K1) (R & F2 & K2). split; [exact R|]. split; [eapply frame_trans; eauto|auto]. Qed.
Lemma avrep_wfw w v xs : avrep w v xs -> wfw w.
Proof. intros (R & _). apply R. Qed.
Lemma avrep_size w v xs : avrep w v xs -> v_size v = nlen xs.
Proof. intros (R & _). apply R. Qed.
Lemma good_avrep w v w' v' xs ys : avrep w v xs -> good w v w' v' [] ys [] -> avrep w' v' ys /\ frame w w' v v'.
Proof.
  intros (_ & A & G & E & D) [R (A' & G' & _ & E' & D') F]. split; [|exact F]. split; [exact R|]. repeat split; congruence.
Qed.
Lemma good_agood w v w' v' xs ys : avrep w v xs -> good w v w' v' [] ys [] -> v_cap v' = v_cap v -> v_size v' = v_size v ->
  tick w' = tick w -> agood w v w' v' ys.
Proof.
  intros R G C S T. destruct (good_avrep _ _ _ _ _ _ R G) as [R' F]. split; [exact R'|]. split; [exact F|].
  intros room t0 (K1 & K2 & K3). unfold account. rewrite C, S, T, (fr_orc _ _ _ _ F). auto.
Qed.
Lemma vreallocate_tick w v xs c r w' : vrep w v [] xs [] -> v_alloc v = true -> 1 <= c -> vreallocate v c w = Ok r w' -> tick w' = tick w + 1.
Proof.
  intros R A C. unfold vreallocate. pose proof (r_cap _ _ _ _ _ R) as CP.
  replace (VECTOR_MIN_CAPACITY <=? v_cap v) with true by (unfold VECTOR_MIN_CAPACITY; lia).
  unfold bind at 1. cbn [assert]. unfold ret at 1.
  rewrite (bind_ok _ _ w _ w (rep_assert_valid _ _ _ _ _ R)). rewrite A. cbn [negb].
  replace (c <? VECTOR_MIN_CAPACITY) with false by (unfold VECTOR_MIN_CAPACITY; lia).
  unfold vreallocate_to, bind, realloc. cbn [set_cap v_data v_esz v_cap]. rewrite (r_data _ _ _ _ _ R). cbn [pb po].
  destruct (r_heap _ _ _ _ _ R) as (s & _ & ->). destruct (_ && _); [discriminate|]. destruct (negb _); [discriminate|].
  destruct (orc w (tick w)).
  all: intros E; injection E as <- <-; reflexivity.
Qed.

(** Reading and writing inside an element. *)
Lemma elem_heap w v xs1 x xs2 : avrep w v (xs1 ++ x :: xs2) ->
  exists s, heap w (blk v) = Some (concat xs1 ++ x ++ concat xs2 ++ s) /\ nlen (concat xs1) = nlen xs1 * 80 /\ nlen x = 80 /\
    spare (nofail w v) ((v_cap v - nlen (xs1 ++ x :: xs2)) * 80) (nlen s).
Proof.
  intros (R & _ & _ & E & _). destruct (r_heap _ _ _ _ _ R) as (s & S & H). rewrite E in S. pose proof (r_chunk _ _ _ _ _ R) as K. rewrite E in K.
  apply chunked_app in K as [K1 K2]. apply chunked_cons in K2 as [KX _].
  exists s. split; [|split; [now apply nlen_concat|split; [exact KX|exact S]]].
  rewrite H. cbn [app]. rewrite concat_app. cbn [concat]. rewrite app_nil_r. now rewrite <- !app_assoc.
Qed.
Definition elem v (n k : N) : option ptr := Some (mkptr (blk v) (n * 80 + k)).
Lemma elem_read w v xs1 a b c xs2 : avrep w v (xs1 ++ (a ++ b ++ c) :: xs2) ->
  mread (elem v (nlen xs1) (nlen a)) (nlen b) w = Ok b w.
Proof.
  intros R. destruct (elem_heap _ _ _ _ _ R) as (s & H & L & _).
  apply (mread_mid w _ _ _ (concat xs1 ++ a) b (c ++ concat xs2 ++ s)); [|rewrite nlen_app; lia|reflexivity].
  rewrite H. now rewrite <- !app_assoc.
Qed.
Lemma elem_write w v xs1 a b c xs2 b' : avrep w v (xs1 ++ (a ++ b ++ c) :: xs2) -> nlen b' = nlen b ->
  exists w', mwrite (elem v (nlen xs1) (nlen a)) b' w = Ok tt w' /\ agood w v w' v (xs1 ++ (a ++ b' ++ c) :: xs2).
Proof.
  intros R LB. destruct (elem_heap _ _ _ _ _ R) as (s & H & L & LX & S).
  eexists. split.
  { apply (mwrite_mid w (blk v) _ (concat xs1 ++ a) b b' (c ++ concat xs2 ++ s)); [|rewrite nlen_app; lia|now symmetry].
    rewrite H. now rewrite <- !app_assoc. }
  apply (good_agood _ _ _ _ _ _ R); [|reflexivity|reflexivity|reflexivity]. destruct R as (R & A & G & E & D).
  assert (LY : nlen (a ++ b' ++ c) = 80) by (rewrite !nlen_app in *; lia).
  assert (LN : nlen (xs1 ++ (a ++ b' ++ c) :: xs2) = nlen (xs1 ++ (a ++ b ++ c) :: xs2)) by (rewrite !nlen_app, !nlen_cons; reflexivity).
  split; [|apply same_cfg_refl|apply frame_upd; reflexivity].
  assert (R' : vrep (upd w (blk v) ((concat xs1 ++ a) ++ b' ++ c ++ concat xs2 ++ s)) (set_size v (nlen (xs1 ++ (a ++ b' ++ c) :: xs2))) []
    (xs1 ++ (a ++ b' ++ c) :: xs2) []).
  { eapply (rep_upd w v [] _ [] _ s); [exact R| | | |].
    - f_equal. cbn [app]. rewrite concat_app. cbn [concat]. rewrite app_nil_r. now rewrite <- !app_assoc.
    - pose proof (r_chunk _ _ _ _ _ R) as K. rewrite E in *. apply chunked_app in K as [K1 K2]. apply chunked_cons in K2 as [_ K2].
      apply chunked_app. split; [exact K1|]. apply chunked_cons. now split.
    - rewrite LN. apply R.
    - rewrite LN, E. exact S. }
  rewrite set_size_self in R'; [exact R'|]. rewrite LN. apply R.
Qed.

(** ** New arguments *)
Lemma new_arg_ok w v xs : avrep w v xs -> (nlen xs + 1) * 160 < W64 ->
  (exists w' v', new_arg v w = Ok (ST_SUCCESS, v', elem v' (nlen xs) 0) w' /\ agood w v w' v' (xs ++ [zero_cells ARG_SIZE])) \/
  (exists st v' w' p, new_arg v w = Ok (err_status st, v', p) w' /\ orc w (tick w) = AFail st /\ only_cap w v w' v' /\ v_cap v < nlen xs + 1).
Proof.
  intros RA SM. pose proof RA as (R & A & G & E & D). pose proof (r_size _ _ _ _ _ R) as RS.
  assert (S2 : nlen xs + 1 < W64) by nia.
  unfold new_arg, vemplace, vemplace_ex. rewrite RS. rewrite N.ltb_irrefl.
  assert (GR : (exists w1 v1, vgrow v 1 w = Ok (ST_SUCCESS, v1) w1 /\ good w v w1 v1 [] xs [] /\ nlen xs + 1 <= v_cap v1 /\
                  (if v_cap v <? nlen xs + 1 then v_cap v1 = (nlen xs + 1) * 2 /\ tick w1 = tick w + 1 /\ exists fill, orc w (tick w) = AOk fill
                   else v_cap v1 = v_cap v /\ tick w1 = tick w)) \/
               (exists st v1 w1, vgrow v 1 w = Ok (err_status st, v1) w1 /\ orc w (tick w) = AFail st /\ only_cap w v w1 v1 /\ v_cap v < nlen xs + 1)).
  { destruct (N.ltb_spec (v_cap v) (nlen xs + 1)) as [L|L].
    - assert (EG : vgrow v 1 w = vreallocate v (N.max 1 ((nlen xs + 1) * 2)) w).
      { unfold vgrow, should_grow. rewrite RS, G. rewrite wadd_small by lia. rewrite wmul_small by lia.
        destruct (N.ltb_spec (v_cap v) (nlen xs + 1)); [reflexivity|lia]. }
      rewrite EG. destruct (orc w (tick w)) as [st|fill] eqn:O.
      + right. destruct (vreallocate_fail' w v [] xs [] (N.max 1 ((nlen xs + 1) * 2)) st R A O) as (v1 & w1 & E1 & OC); [left; lia|].
        exists st, v1, w1. auto.
      + left.
        destruct (vreallocate_ok w v [] xs [] (N.max 1 ((nlen xs + 1) * 2)) fill R A O)
          as (w1 & v1 & E1 & R1 & SC & F & CC & _); [lia|rewrite E; lia|].
        exists w1, v1. split; [exact E1|]. split; [now split|]. split; [lia|]. split; [lia|]. split; [|now exists fill].
        eapply vreallocate_tick; [exact R|exact A| |exact E1]. lia.
    - left. exists w, v. split; [|split; [now apply good_refl|split; [exact L|auto]]]. unfold vgrow, should_grow.
      rewrite RS, wadd_small by lia. destruct (N.ltb_spec (v_cap v) (nlen xs + 1)); [lia|reflexivity]. }
  destruct GR as [(w1 & v1 & EG & GD & L & KK)|(st & v1 & w1 & EG & O & OC & LC)].
  2:{ right. exists st, v1, w1, None. split; [|split; [exact O|split; assumption]]. unfold bind at 1. unfold bind at 1.
      rewrite (rep_assert_valid _ _ _ _ _ R). rewrite (bind_ok _ _ _ _ _ EG). rewrite st_success_err. cbn [negb]. unfold ret. cbv beta iota.
      rewrite st_success_err. reflexivity. }
  left. destruct (good_avrep _ _ _ _ _ _ RA GD) as [RA1 F1]. pose proof RA1 as (R1 & A1 & G1 & E1 & D1).
  pose proof (r_size _ _ _ _ _ R1) as RS1.
  unfold bind at 1. unfold bind at 1. rewrite (rep_assert_valid _ _ _ _ _ R). rewrite (bind_ok _ _ _ _ _ EG). okst. cbv iota.
  rewrite RS1, N.ltb_irrefl. unfold ret, bind at 1. cbv beta iota. okst. cbv iota. unfold bind at 1. cbv beta iota. okst. cbv iota.
  rewrite wadd_small by lia. rewrite (rep_offset _ _ _ _ _ _ R1) by lia. rewrite E1. change (nlen (@nil acell)) with 0. rewrite N.add_0_l.
  (* the slack behind the elements *)
  destruct (r_heap _ _ _ _ _ R1) as (s & S & H). rewrite E1 in S. cbn [app] in H. rewrite app_nil_r in H.
  destruct (nsplit 80 s) as (j & s' & -> & LJ); [apply spare_le in S; nia|].
  pose proof (r_chunk _ _ _ _ _ R1) as K. rewrite E1 in K. pose proof (nlen_concat _ _ K) as LC.
  set (z := zero_cells ARG_SIZE). assert (LZ : nlen z = 80) by reflexivity.
  assert (WR : mwrite (Some (mkptr (blk v1) (nlen xs * 80))) z w1 = Ok tt (upd w1 (blk v1) (concat xs ++ z ++ s'))).
  { apply (mwrite_mid w1 (blk v1) _ (concat xs) j z s'); [exact H|exact LC|congruence]. }
  change (negb (st_success ST_SUCCESS)) with false. cbv iota. fold z. unfold bind. rewrite WR. cbv beta iota. exists (upd w1 (blk v1) (concat xs ++ z ++ s')), (set_size v1 (nlen xs + 1)). split; [unfold elem; rewrite N.add_0_r; reflexivity|].
  assert (LN : nlen (xs ++ [z]) = nlen xs + 1) by (rewrite nlen_app; reflexivity).
  assert (X : good w1 v1 (upd w1 (blk v1) (concat xs ++ z ++ s')) (set_size v1 (nlen xs + 1)) [] (xs ++ [z]) []).
  2:{ destruct (good_avrep _ _ _ _ _ _ RA1 X) as [RA2 F2]. split; [exact RA2|]. split; [eapply frame_trans; [apply R|exact F1|exact F2]|].
      intros room t0 (K1 & K2 & K3). unfold account. cbn [set_size v_cap v_size]. change (tick (upd w1 (blk v1) (concat xs ++ z ++ s'))) with (tick w1).
      change (orc (upd w1 (blk v1) (concat xs ++ z ++ s'))) with (orc w1). rewrite (fr_orc _ _ _ _ F1). rewrite RS in K1, K2.
      replace (N.to_nat (nlen xs + 1)) with (Datatypes.S (N.to_nat (nlen xs))) by lia. cbn [room_after grown].
      replace (N.of_nat (Datatypes.S (N.to_nat (nlen xs)))) with (nlen xs + 1) by lia. rewrite <- K1.
      destruct (v_cap v <? nlen xs + 1).
      - destruct KK as (-> & -> & fill & O). split; [reflexivity|]. split; [lia|]. intros t T0 T1.
        destruct (N.eq_dec t (tick w)) as [->|]; [now exists fill|]. apply K3; lia.
      - destruct KK as (-> & ->). split; [reflexivity|]. split; [lia|exact K3]. }
  split; [|apply same_cfg_set_size|apply frame_upd; reflexivity].
  rewrite <- LN. eapply (rep_upd w1 v1 [] xs [] (xs ++ [z]) s'); [exact R1| | | |].
  - f_equal. cbn [app]. rewrite concat_app. cbn [concat]. rewrite !app_nil_r. now rewrite <- !app_assoc.
  - rewrite E1. apply chunked_app. split; [exact K|]. apply chunked_cons. split; [exact LZ|apply chunked_nil].
  - rewrite LN. exact L.
  - rewrite LN, E1. rewrite nlen_app in S. eapply (spare_minus _ _ _ _ _ 80); [exact S|nia|lia].
Qed.

(** ** Fields *)
Section Fields.
  Variable tw : world N.
  Lemma load_def_ok w v xs1 d h s p xs2 : avrep w v (xs1 ++ cells d h s p :: xs2) ->
    match d with WZero => True | WDef _ => True | _ => False end ->
    load_def (elem v (nlen xs1) 0) w = Ok (match d with WDef d => Some d | _ => None end) w.
  Proof.
    intros R OK. pose proof (elem_read w v xs1 [] (enc_word d) _ xs2 R) as RD. rewrite nlen_enc in RD. change (nlen (@nil acell)) with 0 in RD.
    unfold load_def, load_word. unfold bind at 1 2. rewrite RD, dec_enc. destruct d; try destruct OK; reflexivity.
  Qed.
  Lemma store_def_ok w v xs1 h s p xs2 e : avrep w v (xs1 ++ cells WZero h s p :: xs2) ->
    exists w', store_def (elem v (nlen xs1) 0) e w = Ok tt w' /\ agood w v w' v (xs1 ++ cells (WDef e) h s p :: xs2).
  Proof. intros R. exact (elem_write w v xs1 [] (enc_word WZero) _ xs2 (enc_word (WDef e)) R eq_refl). Qed.
  Lemma put_def_ok w v xs h s p found : avrep w v (xs ++ [cells WZero h s p]) ->
    exists w', put_def (elem v (nlen xs) 0) found w = Ok found w' /\
      agood w v w' v (xs ++ [cells (match found with Some d => WDef d | None => WZero end) h s p]).
  Proof.
    intros R. unfold put_def. destruct found as [d|].
    - destruct (store_def_ok w v xs h s p [] d R) as (w' & E & GD). exists w'. split; [|exact GD].
      rewrite (bind_ok _ _ _ _ _ E). now rewrite (load_def_ok w' v xs (WDef d) h s p []) by (exact (proj1 GD) || exact I).
    - exists w. split; [|now apply agood_refl]. unfold bind, ret.
      now rewrite (load_def_ok w v xs WZero h s p []) by (exact R || exact I).
  Qed.
  Lemma put_value_ok w v xs d q x : avrep w v (xs ++ [cells d 0 WZero WZero]) -> cstring_at tw q x ->
    exists w', put_value tw (elem v (nlen xs) 0) q w = Ok ST_SUCCESS w' /\
      agood w v w' v (xs ++ [cells d 1 (WNum (nlen x + 1)) (WPtr q)]).
  Proof.
    intros R0 Q. unfold put_value, store_has_value, aview_inside_buffer, arg_value, store_word.
    assert (EQ : forall k, padd (elem v (nlen xs) 0) k = elem v (nlen xs) k).
    { intros k. unfold elem. cbn [padd pb po]. now rewrite N.add_0_r. }
    assert (EQ' : forall k j, padd (elem v (nlen xs) j) k = elem v (nlen xs) (j + k)).
    { intros k j. unfold elem. cbn [padd pb po]. now rewrite N.add_assoc. }
    rewrite !EQ, !EQ'. change (16 + 56) with 72. change (16 + 24) with 40.
    pose (z8 := zero_cells 8). pose (z24 := zero_cells 24).
    (* has_value *)
    destruct (elem_write w v xs (enc_word d) [AByte 0] (zero_cells 7 ++ z24 ++ z8 ++ z24 ++ z8) [] [AByte 1]) as (w1 & E1 & G1); [exact R0|reflexivity|].
    rewrite nlen_enc in E1. rewrite (bind_ok _ _ _ _ _ E1). pose proof (proj1 G1) as R1.
    (* data *)
    replace (enc_word d ++ [AByte 1] ++ zero_cells 7 ++ z24 ++ z8 ++ z24 ++ z8) with ((enc_word d ++ [AByte 1] ++ zero_cells 7 ++ z24 ++ z8 ++ z24) ++ z8 ++ []) in R1
      by now rewrite <- !app_assoc, app_nil_r.
    destruct (elem_write w1 v xs _ z8 [] [] (enc_word (WPtr q)) R1 eq_refl) as (w2 & E2 & G2).
    replace (nlen (enc_word d ++ [AByte 1] ++ zero_cells 7 ++ z24 ++ z8 ++ z24)) with 72 in E2 by (unfold z8, z24; rewrite !nlen_app, !nlen_zero, nlen_enc; reflexivity).
    rewrite (bind_ok _ _ _ _ _ E2). rewrite (bind_ok _ _ _ _ _ (astrlen_ok tw _ _ w2 Q)). pose proof (proj1 G2) as R2.
    (* size *)
    replace ((enc_word d ++ [AByte 1] ++ zero_cells 7 ++ z24 ++ z8 ++ z24) ++ enc_word (WPtr q) ++ []) with
      ((enc_word d ++ [AByte 1] ++ zero_cells 7 ++ z24) ++ z8 ++ z24 ++ enc_word (WPtr q)) in R2 by now rewrite <- !app_assoc, app_nil_r.
    destruct (elem_write w2 v xs _ z8 _ [] (enc_word (WNum (nlen x + 1))) R2 eq_refl) as (w3 & E3 & G3).
    replace (nlen (enc_word d ++ [AByte 1] ++ zero_cells 7 ++ z24)) with 40 in E3 by (unfold z24; rewrite !nlen_app, !nlen_zero, nlen_enc; reflexivity).
    rewrite wadd_small by apply Q. rewrite (bind_ok _ _ _ _ _ E3). exists w3. split; [reflexivity|].
    replace ((enc_word d ++ [AByte 1] ++ zero_cells 7 ++ z24) ++ enc_word (WNum (nlen x + 1)) ++ z24 ++ enc_word (WPtr q)) with
      (cells d 1 (WNum (nlen x + 1)) (WPtr q)) in G3 by (unfold cells; now rewrite <- !app_assoc).
    eapply agood_trans; [exact (avrep_wfw _ _ _ R0)|exact G1|]. eapply agood_trans; [apply G1|exact G2|exact G3].
  Qed.
End Fields.

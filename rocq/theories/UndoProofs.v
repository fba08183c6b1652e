(** Undoing calls on vectors. *)
From Verif Require Import Base NListFacts Status Mem MemFacts VectorModel VectorSpec VectorDriver
  VectorRep VectorProofs VectorProofs2 VectorProofs3 VectorRefine VectorSearch VectorFail VectorMore
  VectorFinal VectorFinal2 StringSpec BitsetSpec UndoSpec.
From Coq Require Import ZifyBool ZifyNat ZifyN.

Lemma nlen_pos {A} (l : list A) : l <> [] -> 0 < nlen l.
Proof. destruct l; [congruence|]. intros _. rewrite nlen_cons. lia. Qed.
Lemma nskip_add_app {A} (a b c : list A) n : n = nlen a + nlen b -> nskip n (a ++ b ++ c) = c.
Proof. intros ->. rewrite app_assoc. apply nskip_app_l. now rewrite nlen_app. Qed.

Section Steps.
  Context {C : Type}.
  Implicit Types (c : vcfg C) (s : vstate C).

  Lemma ins_facts c a b ms s r s' : spec_insert c (nlen a) ms s r s' -> s_elems s = a ++ b ->
    (r = ST_SUCCESS -> s_elems s' = a ++ ms ++ b) /\
    (c_fixed c = false \/ nlen (a ++ ms ++ b) <= s_cap s -> r = ST_SUCCESS) /\
    (c_fixed c = true -> s_cap s' = s_cap s /\ (r = ST_SUCCESS -> nlen (a ++ ms ++ b) <= s_cap s)).
  Proof.
    unfold spec_insert. intros S E. rewrite E in S. rewrite !nlen_app in *.
    replace (nlen a + nlen b <? nlen a) with false in S by lia. unfold regrow in S.
    replace (nlen a + (nlen ms + nlen b)) with (nlen a + nlen b + nlen ms) by lia.
    assert (LI : linsert (nlen a) ms (a ++ b) = a ++ ms ++ b).
    { unfold linsert. now rewrite nfirst_app_l, nskip_app_l. }
    rewrite LI in S. destruct (N.leb_spec (nlen a + nlen b + nlen ms) (s_cap s)) as [L|L].
    - destruct S as [-> ->]. cbn [s_elems s_cap]. auto.
    - destruct (c_fixed c) eqn:F; destruct S as [-> ->]; cbn [s_elems s_cap].
      + split; [discriminate|]. split; [intros [X|X]; [discriminate|lia]|]. intros _. split; [reflexivity|discriminate].
      + split; [reflexivity|]. split; [reflexivity|discriminate].
  Qed.
  Lemma del_facts c a b ms s r s' : spec_delete c (nlen a) (nlen ms) s r s' -> s_elems s = a ++ ms ++ b -> ms <> [] ->
    r = ST_SUCCESS /\ s_elems s' = a ++ b /\ (c_fixed c = true -> s_cap s' = s_cap s).
  Proof.
    unfold spec_delete. intros S E NE. rewrite E in S. apply nlen_pos in NE.
    replace (nlen ms =? 0) with false in S by lia. rewrite !nlen_app in S.
    replace (nlen a + (nlen ms + nlen b) <? nlen a + nlen ms) with false in S by lia.
    destruct S as [-> ->]. cbn [s_elems s_cap]. split; [reflexivity|]. split.
    - unfold ldelete. rewrite nfirst_app_l by reflexivity. now rewrite nskip_add_app.
    - intros F. unfold reshrink. now rewrite F.
  Qed.
  Lemma shorter_facts c a b new s r s' : spec_resize c (nlen a) new s r s' -> s_elems s = a ++ b -> b <> [] ->
    r = ST_SUCCESS /\ s_elems s' = a /\ (c_fixed c = true -> s_cap s' = s_cap s).
  Proof.
    unfold spec_resize. intros S E NE. rewrite E in S. apply nlen_pos in NE. rewrite nlen_app in S.
    replace (nlen a =? nlen a + nlen b) with false in S by lia.
    replace (nlen a <? nlen a + nlen b) with true in S by lia.
    destruct S as [-> ->]. cbn [s_elems s_cap]. split; [reflexivity|]. split; [now apply nfirst_app_l|].
    intros F. unfold reshrink. now rewrite F.
  Qed.
  Lemma longer_facts c a n new s r s' : spec_resize c (nlen a + n) new s r s' -> s_elems s = a -> 0 < n ->
    (r = ST_SUCCESS -> s_elems s' = a ++ new) /\ (c_fixed c = false -> r = ST_SUCCESS) /\
    (c_fixed c = true -> s_cap s' = s_cap s /\ (r = ST_SUCCESS -> nlen a + n <= s_cap s)).
  Proof.
    unfold spec_resize. intros S E L. rewrite E in S. replace (nlen a + n =? nlen a) with false in S by lia.
    replace (nlen a + n <? nlen a) with false in S by lia. unfold regrow in S.
    destruct (N.leb_spec (nlen a + n) (s_cap s)) as [K|K].
    - destruct S as [-> ->]. cbn [s_elems s_cap]. split; [reflexivity|]. split; [reflexivity|].
      intros F. unfold reshrink. rewrite F. auto.
    - destruct (c_fixed c) eqn:F; destruct S as [-> ->]; cbn [s_elems s_cap].
      + split; [discriminate|]. split; [discriminate|]. intros _. split; [reflexivity|discriminate].
      + split; [reflexivity|]. split; [reflexivity|discriminate].
  Qed.
  Lemma set_facts c a b x y s r s' : vspec c (OSet (nlen a) y) s r s' -> s_elems s = a ++ [x] ++ b ->
    r = ST_SUCCESS /\ s_elems s' = a ++ [y] ++ b /\ s_cap s' = s_cap s.
  Proof.
    cbn [vspec]. intros S E. rewrite E in S. cbn [app] in S. rewrite nnth_mid in S by reflexivity.
    destruct S as [-> ->]. cbn [s_elems s_cap]. split; [reflexivity|]. split; [|reflexivity].
    unfold lset. rewrite nfirst_app_l by reflexivity. change (a ++ x :: b) with (a ++ [x] ++ b).
    now rewrite nskip_add_app.
  Qed.
  Lemma pop_facts c a x s r s' : vspec c OPopBack s r s' -> s_elems s = a ++ [x] ->
    r = ST_SUCCESS /\ s_elems s' = a /\ (c_fixed c = true -> s_cap s' = s_cap s).
  Proof.
    cbn [vspec]. intros S E. assert (L : nlen (s_elems s) = nlen a + 1) by (rewrite E, nlen_app; reflexivity).
    rewrite L in S. replace (nlen a + 1 =? 0) with false in S by lia. replace (nlen a + 1 - 1) with (nlen a) in S by lia.
    change 1 with (nlen [x]) in S. destruct (del_facts c a [] [x] s r s' S) as (X & Y & Z).
    { now rewrite app_nil_r. } { discriminate. } rewrite app_nil_r in Y. auto.
  Qed.
  Lemma push_facts c a x s r s' : vspec c (OPushBack x) s r s' -> s_elems s = a ->
    (r = ST_SUCCESS -> s_elems s' = a ++ [x]) /\
    (c_fixed c = false \/ nlen (a ++ [x]) <= s_cap s -> r = ST_SUCCESS) /\
    (c_fixed c = true -> s_cap s' = s_cap s /\ (r = ST_SUCCESS -> nlen (a ++ [x]) <= s_cap s)).
  Proof.
    cbn [vspec]. intros S E. rewrite E in S. pose proof (ins_facts c a [] [x] s r s' S) as X.
    rewrite !app_nil_r in X. auto.
  Qed.

  (** The call itself. *)
  Lemma vundo_forth c xs o u ys s r s' : vundo xs o u ys -> s_elems s = xs -> vspec c o s r s' ->
    (r = ST_SUCCESS -> s_elems s' = ys) /\ (c_fixed c = false -> r = ST_SUCCESS) /\
    (c_fixed c = true -> s_cap s' = s_cap s /\ (r = ST_SUCCESS -> nlen xs <= s_cap s -> nlen ys <= s_cap s)).
  Proof.
    intros U E S. destruct U.
    - destruct (push_facts _ _ _ _ _ _ S E) as (X & Y & Z). split; [exact X|]. split; [auto|].
      intros F. destruct (Z F). auto.
    - destruct (pop_facts _ _ _ _ _ _ S E) as (X & Y & Z). rewrite nlen_app. split; [auto|]. split; [auto|].
      intros F. split; [auto|]. lia.
    - destruct (ins_facts _ _ _ _ _ _ _ S E) as (X & Y & Z). split; [exact X|]. split; [auto|].
      intros F. destruct (Z F). auto.
    - cbn [vspec] in S. change 1 with (nlen [x]) in S. destruct (del_facts _ _ _ _ _ _ _ S E) as (X & Y & Z); [discriminate|].
      rewrite !nlen_app. split; [auto|]. split; [auto|]. intros F. split; [auto|]. lia.
    - cbn [vspec] in S. destruct ms as [|m ms]; [congruence|].
      destruct (ins_facts _ _ _ _ _ _ _ S E) as (X & Y & Z). split; [exact X|]. split; [auto|].
      intros F. destruct (Z F). auto.
    - cbn [vspec] in S. destruct (del_facts _ _ _ _ _ _ _ S E) as (X & Y & Z); [assumption|].
      rewrite !nlen_app. split; [auto|]. split; [auto|]. intros F. split; [auto|]. lia.
    - destruct (set_facts _ _ _ _ _ _ _ _ S E) as (X & Y & Z). split; [auto|]. split; [auto|].
      intros F. split; [auto|]. rewrite !nlen_app. auto.
    - cbn [vspec] in S. change 0 with (nlen (@nil (list C))) in S.
      destruct (shorter_facts c [] xs [] s r s' S E H) as (X & Y & Z).
      split; [auto|]. split; [auto|]. intros F. split; [auto|]. rewrite nlen_nil. lia.
    - cbn [vspec] in S. destruct S as (new & _ & _ & S).
      destruct (shorter_facts c xs ys new s r s' S E H) as (X & Y & Z).
      split; [auto|]. split; [auto|]. intros F. split; [auto|]. rewrite nlen_app. lia.
    - cbn [vspec] in S. rewrite E in S. replace (nlen xs + n - nlen xs) with n in S by lia.
      destruct (longer_facts c xs n _ s r s' S E H) as (X & Y & Z).
      split; [auto|]. split; [auto|]. intros F. destruct (Z F) as [Z1 Z2]. split; [auto|]. rewrite nlen_app, nlen_repeat. auto.
    - cbn [vspec] in S. destruct (_ <=? _); [destruct S as [-> ->]; auto|].
      destruct (c_fixed c); destruct S as [-> ->]; cbn [s_elems s_cap]; (split; [auto|]); (split; [congruence|]); try congruence.
      intros _. split; [reflexivity|discriminate].
  Qed.
  (** The call that takes it back. *)
  Lemma vundo_back c xs o u ys s r s' : vundo xs o u ys -> s_elems s = ys -> (c_fixed c = true -> nlen xs <= s_cap s) ->
    vspec c u s r s' -> r = ST_SUCCESS /\ s_elems s' = xs /\ (c_fixed c = true -> s_cap s' = s_cap s).
  Proof.
    intros U E K S.
    assert (D : forall P : Prop, (c_fixed c = false \/ nlen xs <= s_cap s -> P) -> P).
    { intros P Q. apply Q. destruct (c_fixed c); auto. }
    destruct U.
    - destruct (pop_facts _ _ _ _ _ _ S E) as (X & Y & Z). auto.
    - destruct (push_facts _ _ _ _ _ _ S E) as (X & Y & Z). apply D in Y. split; [exact Y|]. split; [auto|]. intros F. now destruct (Z F).
    - cbn [vspec] in S. change 1 with (nlen [x]) in S. destruct (del_facts _ _ _ _ _ _ _ S E) as (X & Y & Z); [discriminate|]. auto.
    - destruct (ins_facts _ _ _ _ _ _ _ S E) as (X & Y & Z). apply D in Y. split; [exact Y|]. split; [auto|]. intros F. now destruct (Z F).
    - cbn [vspec] in S. destruct (del_facts _ _ _ _ _ _ _ S E) as (X & Y & Z); [assumption|]. auto.
    - cbn [vspec] in S. destruct ms as [|m ms]; [congruence|].
      destruct (ins_facts _ _ _ _ _ _ _ S E) as (X & Y & Z). apply D in Y. split; [exact Y|]. split; [auto|]. intros F. now destruct (Z F).
    - destruct (set_facts _ _ _ _ _ _ _ _ S E) as (X & Y & Z). auto.
    - cbn [vspec] in S. destruct xs as [|m ms]; [congruence|]. change 0 with (nlen (@nil (list C))) in S.
      destruct (ins_facts c [] [] (m :: ms) s r s' S E) as (X & Y & Z). rewrite app_nil_r in *. cbn [app] in *.
      apply D in Y. split; [exact Y|]. split; [auto|]. intros F. now destruct (Z F).
    - cbn [vspec] in S. destruct ys as [|m ms]; [congruence|].
      destruct (ins_facts c xs [] (m :: ms) s r s' S) as (X & Y & Z). { now rewrite app_nil_r. } rewrite app_nil_r in *.
      apply D in Y. split; [exact Y|]. split; [auto|]. intros F. now destruct (Z F).
    - cbn [vspec] in S. destruct S as (new & _ & _ & S). destruct (shorter_facts c xs _ new s r s' S E) as (X & Y & Z); auto.
      intros X. apply (f_equal nlen) in X. rewrite nlen_repeat, nlen_nil in X. lia.
    - cbn [vspec] in S. destruct S as [-> ->]. split; [reflexivity|]. destruct (c_fixed c); cbn [s_elems s_cap]; auto.
      split; [auto|discriminate].
  Qed.

  Lemma vspecs_nil_inv c s rs s' : vspecs c [] s rs s' -> rs = [] /\ s' = s.
  Proof. intros H. now inv H. Qed.
  Lemma vspecs_cons_inv c o ops s rs s' : vspecs c (o :: ops) s rs s' ->
    exists r s1 rs1, rs = r :: rs1 /\ vspec c o s r s1 /\ vspecs c ops s1 rs1 s'.
  Proof. intros H. inv H. eauto 10. Qed.
  Lemma vspecs_app c ops1 ops2 s rs s' : vspecs c (ops1 ++ ops2) s rs s' ->
    exists rs1 s1 rs2, rs = rs1 ++ rs2 /\ vspecs c ops1 s rs1 s1 /\ vspecs c ops2 s1 rs2 s'.
  Proof.
    revert s rs. induction ops1 as [|o ops1 IH]; intros s rs H.
    - exists [], s, rs. split; [reflexivity|]. split; [constructor|exact H].
    - cbn [app] in H. apply vspecs_cons_inv in H as (r & s1 & rs0 & -> & H1 & H2).
      destruct (IH _ _ H2) as (rs1 & s2 & rs2 & -> & A & B).
      exists (r :: rs1), s2, rs2. split; [reflexivity|]. split; [econstructor; eauto|exact B].
  Qed.

  Lemma session_back c xs ops us ys : session vundo xs ops us ys ->
    forall s rs s1, s_elems s = xs -> (c_fixed c = true -> nlen xs <= s_cap s) -> vspecs c ops s rs s1 ->
    (c_fixed c = false \/ Forall (eq ST_SUCCESS) rs) ->
    Forall (eq ST_SUCCESS) rs /\ s_elems s1 = ys /\ (c_fixed c = true -> s_cap s1 = s_cap s) /\
    forall s2 rs2 s3, s_elems s2 = ys -> (c_fixed c = true -> s_cap s2 = s_cap s) -> vspecs c us s2 rs2 s3 ->
      Forall (eq ST_SUCCESS) rs2 /\ s_elems s3 = xs /\ (c_fixed c = true -> s_cap s3 = s_cap s).
  Proof.
    induction 1 as [xs|xs o u ys ops us zs U _ IH]; intros s rs s1 E K S OK.
    - apply vspecs_nil_inv in S as [-> ->]. split; [constructor|]. split; [exact E|]. split; [reflexivity|].
      intros s2 rs2 s3 E2 K2 S2. apply vspecs_nil_inv in S2 as [-> ->]. split; [constructor|]. auto.
    - apply vspecs_cons_inv in S as (r & sm & rs' & -> & S0 & S1).
      destruct (vundo_forth _ _ _ _ _ _ _ _ U E S0) as (A1 & A2 & A3).
      assert (r = ST_SUCCESS) as ->. { destruct OK as [OK|OK]; [auto|]. now inv OK. }
      specialize (A1 eq_refl).
      destruct (IH sm rs' s1 A1) as (B1 & B2 & B3 & B4); [|exact S1| |].
      { intros F. destruct (A3 F) as [-> A4]. apply A4; auto. }
      { destruct OK as [OK|OK]; [auto|]. inv OK. auto. }
      split; [constructor; auto|]. split; [exact B2|].
      split. { intros F. rewrite B3 by exact F. now apply A3. }
      intros s2 rs2 s3 E2 K2 S2. apply vspecs_app in S2 as (ra & sn & rb & -> & Sa & Sb).
      destruct (B4 s2 ra sn E2) as (C1 & C2 & C3); [intros F; rewrite K2 by exact F; symmetry; now apply A3|exact Sa|].
      apply vspecs_cons_inv in Sb as (r2 & s4 & r3 & -> & Sb & Sc). apply vspecs_nil_inv in Sc as [-> ->].
      destruct (vundo_back c xs o u ys sn r2 s4 U C2) as (D1 & D2 & D3); [|exact Sb|].
      { intros F. rewrite C3 by exact F. destruct (A3 F) as [-> _]. auto. }
      split. { apply Forall_app. split; [exact C1|]. constructor; auto. }
      split; [exact D2|]. intros F. rewrite D3, C3 by exact F. now apply A3.
  Qed.

  (** The noted calls have legal arguments. *)
  Lemma vundo_args e xs o u ys : @vundo C xs o u ys -> arg_ok e o -> chunked e xs -> nlen xs < W64 -> nlen ys < W64 ->
    arg_ok e u /\ chunked e ys.
  Proof.
    intros U A H L M.
    assert (ONE : forall x : list C, nlen [x] = 1) by reflexivity.
    destruct U; cbn [arg_ok] in *; rewrite ?chunked_app, ?chunked_cons in *; rewrite ?nlen_app, ?ONE in *;
      repeat split; try tauto; try lia; try apply chunked_nil.
    apply Forall_forall. intros z I. apply repeat_spec in I. now subst z.
  Qed.
  Lemma vundo_len xs o u ys : @vundo C xs o u ys -> nlen ys <= nlen xs + demand o.
  Proof.
    intros U. assert (ONE : forall x : list C, nlen [x] = 1) by reflexivity.
    destruct U; cbn [demand]; rewrite ?nlen_app, ?nlen_repeat, ?ONE, ?nlen_nil; lia.
  Qed.
  Lemma demands_app (a b : list (vop C)) : demands (a ++ b) = demands a + demands b.
  Proof. induction a as [|o a IH]; cbn [app demands]; [reflexivity|]. rewrite IH. lia. Qed.
  Lemma session_args e xs ops us ys : session (@vundo C) xs ops us ys -> Forall (arg_ok e) ops -> chunked e xs ->
    nlen xs + demands ops < W64 -> Forall (arg_ok e) us /\ nlen ys <= nlen xs + demands ops.
  Proof.
    induction 1 as [xs|xs o u ys ops us zs U _ IH]; intros A H L.
    - split; [constructor|]. cbn [demands]. lia.
    - cbn [demands] in *. inv A. pose proof (vundo_len _ _ _ _ U).
      destruct (vundo_args e _ _ _ _ U) as [A1 A2]; auto; try lia.
      destruct IH as [B1 B2]; auto; try lia. split; [|lia]. apply Forall_app. auto.
  Qed.

  (** A vector a history of calls leads to. *)
  Lemma undo_reached (w : world C) v xs ops us ys rs v1 w1 :
    reached w v xs -> session vundo xs ops us ys -> Forall (arg_ok (v_esz v)) ops ->
    room (nlen xs + demands (ops ++ us)) (v_esz v) ->
    run_ops v ops w = Ok (rs, v1) w1 -> Forall (eq ST_SUCCESS) rs ->
    shows w1 v1 ys /\
    exists rs2 v2 w2, run_ops v1 us w1 = Ok (rs2, v2) w2 /\ Forall (eq ST_SUCCESS) rs2 /\ shows w2 v2 xs.
  Proof.
    intros H X A RM ER OK. destruct (reached_rep _ _ _ H) as (pre & post & R & F0 & NF).
    rewrite demands_app in RM. change (fits (nlen xs + (demands ops + demands us)) (v_esz v)) in RM.
    pose proof (r_esz _ _ _ _ _ R) as EP.
    destruct (session_args (v_esz v) _ _ _ _ X A) as [AU LY]. { apply R. } { unfold fits in RM. nia. }
    destruct (run_ops_ok ops w v pre xs post R NF A) as (rs' & w' & v' & xs' & E & G & S).
    { eapply fits_le; [|exact RM]. lia. }
    rewrite ER in E. injection E as <- <- <-.
    destruct (session_back _ _ _ _ _ X (mkst xs (v_cap v) (dlog w)) _ _ eq_refl (fun _ => r_le _ _ _ _ _ R) S) as (_ & B2 & B3 & B4).
    { now right. }
    cbn [s_elems] in B2. subst xs'. split; [eapply rep_shows, G|].
    destruct (g_cfg _ _ _ _ _ _ _ G) as (CA & CG & CS & CE & CD).
    destruct (run_ops_ok us w1 v1 pre ys post) as (rs2 & w2 & v2 & xs2 & E2 & G2 & S2).
    { apply G. } { eapply nofail_frame; [exact NF|apply G|apply G]. } { now rewrite CE. }
    { rewrite CE. eapply fits_le; [|exact RM]. lia. }
    exists rs2, v2, w2. split; [exact E2|].
    rewrite (cfg_of_same _ _ (g_cfg _ _ _ _ _ _ _ G)) in S2.
    destruct (B4 (mkst ys (v_cap v1) (dlog w1)) _ _ eq_refl B3 S2) as (C1 & C2 & _).
    split; [exact C1|]. cbn [s_elems] in C2. subst xs2. eapply rep_shows, G2.
  Qed.
  (** Growable vectors: nothing is refused. *)
  Lemma undo_growable (w : world C) v xs ops us ys :
    reached_own w v xs -> session vundo xs ops us ys -> Forall (arg_ok (v_esz v)) ops ->
    room (nlen xs + demands (ops ++ us)) (v_esz v) ->
    exists rs v1 w1, run_ops v ops w = Ok (rs, v1) w1 /\ Forall (eq ST_SUCCESS) rs.
  Proof.
    intros H X A RM. destruct (reached_own_rep _ _ _ H) as (R & F & AL & O).
    rewrite demands_app in RM. change (fits (nlen xs + (demands ops + demands us)) (v_esz v)) in RM.
    destruct (run_ops_ok ops w v [] xs [] R) as (rs & w' & v' & xs' & E & G & S); auto.
    { intros _. exact O. } { eapply fits_le; [|exact RM]. lia. }
    exists rs, v', w'. split; [exact E|].
    refine (proj1 (session_back _ _ _ _ _ X (mkst xs (v_cap v) (dlog w)) _ _ eq_refl _ S _)).
    - cbn [cfg_of c_fixed]. rewrite AL. discriminate.
    - left. cbn [cfg_of c_fixed]. now rewrite AL.
  Qed.
  (** A swap cannot be taken back once the vector is full. *)
  Lemma swap_shrink (w : world C) v xs i j :
    reached_own w v xs -> i < nlen xs -> j < nlen xs -> i <> j -> nlen xs < snd (vget_capacity v) ->
    exists v' w', run_ops v [OSwap i j; OShrinkToFit; OSwap i j] w =
        Ok ([ST_SUCCESS; ST_SUCCESS; ST_INSUFFICIENT_BUFFER_SIZE], v') w' /\ shows w' v' (lswap i j xs).
  Proof.
    intros H I J NE FULL. destruct (reached_own_rep _ _ _ H) as (R & F & AL & O). cbn [vget_capacity snd] in FULL.
    destruct (run_ops_ok [OSwap i j; OShrinkToFit; OSwap i j] w v [] xs [] R) as (rs & w' & v' & xs' & E & G & S).
    { intros _. exact O. } { repeat constructor; exact NE. } { cbn [demands demand]. now rewrite !N.add_0_r. }
    exists v', w'. apply vspecs_cons_inv in S as (r1 & s1 & rs1 & -> & S1 & S).
    apply vspecs_cons_inv in S as (r2 & s2 & rs2 & -> & S2 & S). apply vspecs_cons_inv in S as (r3 & s3 & rs3 & -> & S3 & S).
    apply vspecs_nil_inv in S as [-> <-]. cbn [vspec s_elems s_cap s_log cfg_of c_fixed] in *. rewrite AL in *. cbn [negb] in *.
    replace (nlen xs <=? i) with false in S1 by lia. replace (nlen xs <=? j) with false in S1 by lia.
    replace (nlen xs =? v_cap v) with false in S1 by lia. cbn [orb] in S1. destruct S1 as [-> ->].
    destruct S2 as [-> ->]. cbn [s_elems s_cap s_log] in S3.
    assert (LS : nlen (lswap i j xs) = nlen xs).
    { unfold lswap. destruct (nnth_exists _ _ I) as [x NX]. destruct (nnth_exists _ _ J) as [y NY]. rewrite NX, NY.
      rewrite !nlen_lset; auto. now rewrite nlen_lset. }
    rewrite LS in S3. replace (nlen xs <=? i) with false in S3 by lia. replace (nlen xs <=? j) with false in S3 by lia.
    replace (nlen xs =? N.max 1 (nlen xs)) with true in S3 by lia. cbn [orb] in S3. destruct S3 as [-> S3]. injection S3 as S3 _ _.
    split; [exact E|]. rewrite <- S3. eapply rep_shows, G.
  Qed.
End Steps.

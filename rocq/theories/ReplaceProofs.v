(** Replacing all occurrences. *)
From Verif Require Import Base NListFacts Status MemFacts VectorModel VectorSpec VectorDriver VectorRep StringModel StringSpec StringDriver
  StringBytes StringSearch StringProofs StringFinal StringFinal2 FormatRun CaseProofs UndoProofs2 ReplaceDriver Mem.
From Coq Require Import ZifyBool ZifyNat ZifyN.

Lemma occurs_split xs needle i : occurs eq xs needle i <-> exists a c, xs = a ++ needle ++ c /\ nlen a = i.
Proof.
  unfold occurs. rewrite f2_eq. split.
  - intros [L E]. destruct (nsplit3 i (nlen needle) xs L) as (a & b & c & -> & LA & LB). rewrite nsub_mid in E by assumption. subst b. eauto.
  - intros (a & c & -> & L). rewrite !nlen_app. split; [lia|]. now apply nsub_mid.
Qed.
Lemma occurs_shift don xs needle i : occurs eq (don ++ xs) needle (nlen don + i) <-> occurs eq xs needle i.
Proof.
  unfold occurs. rewrite nlen_app. replace (nsub (nlen don + i) (nlen needle) (don ++ xs)) with (nsub i (nlen needle) xs).
  - split; intros [A B]; split; auto; lia.
  - unfold nsub, nskip, nfirst, nlen. rewrite Nnat.N2Nat.inj_add, !Nnat.Nat2N.id, skipn_app. rewrite (skipn_all2 don) by lia. cbn [app].
    now replace (length don + N.to_nat i - length don)%nat with (N.to_nat i) by lia.
Qed.
Lemma occurs_dec xs needle i : occurs eq xs needle i \/ ~ occurs eq xs needle i.
Proof.
  unfold occurs. rewrite f2_eq. destruct (N.le_gt_cases (i + nlen needle) (nlen xs)); [|right; lia].
  destruct (list_eq_dec N.eq_dec (nsub i (nlen needle) xs) needle); [left|right]; tauto.
Qed.
Lemma first_dec xs needle : (forall i, ~ occurs eq xs needle i) \/
  exists a c, xs = a ++ needle ++ c /\ forall i, i < nlen a -> ~ occurs eq xs needle i.
Proof.
  assert (H : forall n, (forall i, i < n -> ~ occurs eq xs needle i) \/
    exists a c, xs = a ++ needle ++ c /\ forall i, i < nlen a -> ~ occurs eq xs needle i).
  { intros n. induction n as [|n IH] using N.peano_ind; [left; lia|]. destruct IH as [IH|IH]; [|now right].
    destruct (occurs_dec xs needle n) as [O|O].
    - right. apply occurs_split in O as (a & c & E & L). exists a, c. split; [exact E|]. rewrite L. exact IH.
    - left. intros i I. destruct (N.eq_dec i n) as [->|NI]; [exact O|]. apply IH. lia. }
  destruct (H (nlen xs + 1)) as [K|K]; [left|now right]. intros i O. apply (K i); [|exact O]. destruct O. lia.
Qed.
Lemma replaced_total needle repl : needle <> [] -> forall xs, exists ys, replaced needle repl xs ys.
Proof.
  intros NE xs. assert (H : forall n xs, (length xs < n)%nat -> exists ys, replaced needle repl xs ys).
  { clear xs. induction n as [|n IH]; intros xs L; [lia|]. destruct (first_dec xs needle) as [K|(a & c & E & K)].
    - exists xs. now constructor.
    - destruct (IH c) as (ys & R); [subst xs; rewrite !app_length in L; destruct needle; [easy|]; cbn [length] in L; lia|].
      exists (a ++ repl ++ ys). subst xs. now constructor. }
  apply (H (S (length xs))). lia.
Qed.
Lemma replaced_unique needle repl xs ys zs : replaced needle repl xs ys -> replaced needle repl xs zs -> ys = zs.
Proof.
  intros H. revert zs. induction H as [xs N1|a c c' F1 R1 IH]; intros zs H.
  - inversion H as [u N2|u r r' F2 R2 E1 E2]; subst; [reflexivity|]. destruct (N1 (nlen u)). apply occurs_split. now exists u, r.
  - inversion H as [u N2 E1|u r r' F2 R2 E1 E2]; subst.
    + destruct (N2 (nlen a)). apply occurs_split. now exists a, c.
    + assert (L : nlen a = nlen u).
      { destruct (N.lt_trichotomy (nlen a) (nlen u)) as [K|[K|K]]; [|exact K|].
        - destruct (F2 _ K). rewrite E1. apply occurs_split. now exists a, c.
        - destruct (F1 _ K). rewrite <- E1. apply occurs_split. now exists u, r. }
      apply app_inj_len in E1 as [-> E1]; [|unfold nlen in L; lia]. apply app_inv_head in E1. subst r. now rewrite (IH _ R2).
Qed.
Lemma replaced_longer needle repl xs ys : replaced needle repl xs ys -> nlen needle <= nlen repl -> nlen xs <= nlen ys.
Proof. intros H L. induction H as [|a c c' F R IH]; [lia|]. rewrite !nlen_app. lia. Qed.

Definition term_view w (q : view) (x : list N) (b : N) : Prop :=
  exists p, sdata q = Some p /\ ssize q = nlen x + 1 /\ nlen x + 1 < W64 /\ src w p (x ++ [0]) /\ pb p <> b.
Lemma term_view_good w s w' s' pre cs cs' post q x : srep w s pre cs post -> sgood w s w' s' pre cs' post ->
  term_view w q x (blk (s_vec s)) -> term_view w' q x (blk (s_vec s')).
Proof.
  intros [R _] [[_ _ F _] _] (p & A & B & L & Q & NB).
  destruct (src_frame _ _ _ _ _ _ Q NB (brep_wf _ _ _ _ _ R) F) as (Q' & NB'). now exists p.
Qed.
Lemma term_views w q x b : term_view w q x b -> views w q x.
Proof.
  intros (p & A & B & L & Q & NB). split; [exact B|]. split; [exact L|]. rewrite A. apply src_read in Q.
  rewrite nlen_app in Q. exact Q.
Qed.
Lemma views_term w q x b : views w q x -> (forall p, sdata q = Some p -> pb p <> b) -> term_view w q x b.
Proof.
  intros (A & B & R) NB. unfold mread in R. destruct (sdata q) as [p|] eqn:PD; [|discriminate]. exists p. split; [exact PD|].
  split; [exact A|]. split; [exact B|]. split; [|now apply NB].
  destruct (heap w (pb p)) as [buf|] eqn:HB; [|discriminate].
  destruct (N.leb_spec (po p + (nlen x + 1)) (nlen buf)) as [LE|]; [|discriminate]. injection R as R.
  destruct (nsplit3 (po p) (nlen x + 1) buf LE) as (u & v & z & -> & LU & LV). rewrite nsub_mid in R by assumption. subst v.
  exists u, z. now split.
Qed.

Lemma deleted don a needle c :
  nfirst (nlen don + nlen a) (don ++ a ++ needle ++ c) ++ nskip (nlen don + nlen a + nlen needle) (don ++ a ++ needle ++ c) = (don ++ a) ++ c :> list N.
Proof.
  f_equal.
  - rewrite app_assoc. apply nfirst_app_l. now rewrite nlen_app.
  - replace (don ++ a ++ needle ++ c) with ((don ++ a ++ needle) ++ c) by now rewrite <- !app_assoc.
    apply nskip_app_l. rewrite !nlen_app. lia.
Qed.
Lemma inserted limit don a c repl r cs : (nlen repl =? 0) = false ->
  sspec_insert limit (nlen don + nlen a) repl 0 (nlen repl) ((don ++ a) ++ c) r cs =
  become limit ((don ++ a ++ repl) ++ c) ((don ++ a) ++ c) r cs.
Proof.
  intros Z. unfold sspec_insert.
  replace (nlen don + nlen a =? nlen ((don ++ a) ++ c) + 1) with false by (rewrite !nlen_app in *; lia).
  replace (nlen ((don ++ a) ++ c) <? nlen don + nlen a) with false by (rewrite !nlen_app in *; lia).
  replace (nlen repl <? 0 + nlen repl) with false by lia. rewrite Z. f_equal.
  rewrite nfirst_app_l, nskip_app_l by (rewrite nlen_app; lia). unfold nsub. rewrite nskip_0, nfirst_all by lia. now rewrite <- !app_assoc.
Qed.

Section Loop.
  Context (needle repl : list N) (nq rq : view) (NE : needle <> []) (NZ : ~ In 0 needle).
  Definition ready w s pre cs post : Prop :=
    srep w s pre cs post /\ snofail w s /\ term_view w nq needle (blk (s_vec s)) /\ is_view w rq repl (blk (s_vec s)).
  Lemma ready_good w s pre cs post w' s' cs' : ready w s pre cs post -> sgood w s w' s' pre cs' post ->
    ready w' s' pre cs' post /\ limit_of s' = limit_of s.
  Proof.
    intros (R & NF & VN & VR) G. split; [|eapply sgood_limit; eauto]. split; [eapply sgood_rep; eauto|].
    split; [eapply bnofail; [exact NF|apply G]|]. split; [eapply term_view_good; eauto|eapply is_view_good; eauto].
  Qed.
  Lemma needle_pos : 1 <= nlen needle.
  Proof. destruct needle; [easy|rewrite nlen_cons; lia]. Qed.
  Lemma get_sizes q x : (exists w b, term_view w q x b) \/ (exists w b, is_view w q x b) /\ nlen x + 1 < W64 ->
    forall w, view_get_size q w = Ok (ST_SUCCESS, nlen x) w.
  Proof.
    intros V w. assert (S1 : ssize q = nlen x + 1 /\ nlen x + 1 < W64).
    { destruct V as [(u & b & p & _ & A & B & _)|((u & b & p & _ & A & _) & B)]; auto. }
    unfold view_get_size. destruct S1 as [-> S1]. unfold assert. replace (1 <=? nlen x + 1) with true by lia.
    cbn [bind]. unfold bind, ret. rewrite wsub_small by lia. now rewrite N.add_sub.
  Qed.
  (** Nothing left to replace. *)
  Lemma loop_end fuel don xs w s pre post : (forall i, ~ occurs eq xs needle i) -> ready w s pre (don ++ xs) post ->
    replace_from s nq rq (nlen don) (S fuel) w = Ok (ST_FALSE, s) w.
  Proof.
    intros NO (R & NF & VN & VR). pose proof needle_pos as LN. cbn [replace_from].
    rewrite (bind_ok _ _ _ _ _ (proj1 (srep_shows _ _ _ _ _ R))). pose proof (srep_lt _ _ _ _ _ R) as SL.
    rewrite wsub_small by (rewrite ?nlen_app in *; lia).
    destruct (lpos_ex_cs w s nq (don ++ xs) needle (nlen don) (nlen (don ++ xs) - nlen don) (srep_views _ _ _ _ _ R) (term_views _ _ _ _ VN) NZ)
      as (st & r & E & Q); [rewrite nlen_app in *; lia|]. rewrite (bind_ok _ _ _ _ _ E). unfold lpos_result in Q.
    replace (nlen (don ++ xs) <? nlen don + (nlen (don ++ xs) - nlen don)) with false in Q by (rewrite nlen_app in *; lia).
    replace (nlen needle =? 0) with false in Q by lia. destruct Q as [F Q]. destruct r as [i|].
    - destruct Q as (Q1 & _ & Q3 & _). replace i with (nlen don + (i - nlen don)) in Q3 by lia. apply occurs_shift in Q3. destruct (NO _ Q3).
    - cbn [found] in F. now subst st.
  Qed.
  (** One replacement. *)
  Lemma loop_step fuel don a c w s pre post : (forall i, i < nlen a -> ~ occurs eq (a ++ needle ++ c) needle i) ->
    ready w s pre (don ++ a ++ needle ++ c) post -> (nlen don + nlen a + nlen needle + nlen c + nlen repl + 1) * 256 < W64 ->
    repl = [] \/ holds_chars (limit_of s) (nlen ((don ++ a ++ repl) ++ c)) = true ->
    exists w2 s2, replace_from s nq rq (nlen don) (S fuel) w = replace_from s2 nq rq (nlen (don ++ a ++ repl)) fuel w2 /\
      ready w2 s2 pre ((don ++ a ++ repl) ++ c) post /\ limit_of s2 = limit_of s.
  Proof using NE NZ.
    intros FI RD RM HO. pose proof RD as (R & NF & VN & VR). pose proof needle_pos as LN.
    cbn [replace_from]. rewrite (bind_ok _ _ _ _ _ (proj1 (srep_shows _ _ _ _ _ R))). pose proof (srep_lt _ _ _ _ _ R) as SL.
    rewrite wsub_small by (rewrite ?nlen_app in *; lia).
    destruct (lpos_ex_cs w s nq (don ++ a ++ needle ++ c) needle (nlen don) (nlen (don ++ a ++ needle ++ c) - nlen don)
      (srep_views _ _ _ _ _ R) (term_views _ _ _ _ VN) NZ)
      as (st & r & E & Q); [rewrite nlen_app in *; lia|]. rewrite (bind_ok _ _ _ _ _ E). unfold lpos_result in Q.
    replace (nlen (don ++ a ++ needle ++ c) <? nlen don + (nlen (don ++ a ++ needle ++ c) - nlen don)) with false in Q by (rewrite nlen_app in *; lia).
    replace (nlen needle =? 0) with false in Q by lia. destruct Q as [F Q].
    assert (r = Some (nlen don + nlen a)) as ->.
    { eapply first_unique; [exact Q|]. cbn [first_occurrence]. split; [lia|]. split; [rewrite !nlen_app; lia|]. split.
      - apply occurs_shift, occurs_split. now exists a, c.
      - intros j J. replace j with (nlen don + (j - nlen don)) by lia. rewrite occurs_shift. apply FI. lia. }
    clear E Q F st. rewrite (bind_ok _ _ _ _ _ (get_sizes _ _ (or_introl (ex_intro _ _ (ex_intro _ _ VN))) w)).
    destruct (delete_ok w s pre (don ++ a ++ needle ++ c) post (nlen don + nlen a) (nlen needle) R (nofail_grants _ _ NF)) as (r & w1 & s1 & cs1 & E & G & Q);
      [rewrite !nlen_app in *; lia|rewrite !nlen_app in *; lia|].
    rewrite (bind_ok _ _ _ _ _ E). clear E. unfold sspec_delete in Q.
    replace (_ <? _) with false in Q by (rewrite !nlen_app in *; lia). replace (nlen needle =? 0) with false in Q by lia.
    destruct Q as [-> ->]. rewrite N.eqb_refl. cbn [negb].
    rewrite deleted in G. assert (RL : nlen repl + 1 < W64) by lia.
    rewrite (bind_ok _ _ _ _ _ (get_sizes _ _ (or_intror (conj (ex_intro _ _ (ex_intro _ _ VR)) RL)) w1)).
    destruct (ready_good _ _ _ _ _ _ _ _ RD G) as [RD1 LI]. pose proof RD1 as (R1 & NF1 & VN1 & VR1).
    destruct (nlen repl =? 0) eqn:Z.
    - assert (RN : repl = []) by (destruct repl; [reflexivity|rewrite nlen_cons in Z; lia]).
      exists w1, s1. rewrite RN, app_nil_r, nlen_app. auto.
    - destruct HO as [HO|HO]; [rewrite HO in Z; discriminate|].
      destruct (insert_ok w1 s1 pre ((don ++ a) ++ c) post (nlen don + nlen a) rq repl R1 (nofail_grants _ _ NF1)) as (r & w2 & s2 & cs2 & E & G2 & Q);
        [rewrite !nlen_app in *; lia|exact VR1|].
      rewrite (bind_ok _ _ _ _ _ E). clear E. rewrite (inserted _ _ _ _ _ _ _ Z) in Q. rewrite LI in Q.
      unfold become in Q. rewrite HO in Q. destruct Q as [-> ->]. rewrite N.eqb_refl. cbn [negb].
      destruct (ready_good _ _ _ _ _ _ _ _ RD1 G2) as [RD2 LI2].
      exists w2, s2. rewrite wadd_small by (rewrite !nlen_app in *; lia). rewrite !nlen_app, N.add_assoc. split; [reflexivity|]. split; [exact RD2|congruence].
  Qed.
  (** One replacement that does not fit. *)
  Lemma loop_stop fuel don a c w s pre post : (forall i, i < nlen a -> ~ occurs eq (a ++ needle ++ c) needle i) ->
    ready w s pre (don ++ a ++ needle ++ c) post -> (nlen don + nlen a + nlen needle + nlen c + nlen repl + 1) * 256 < W64 ->
    repl <> [] -> holds_chars (limit_of s) (nlen ((don ++ a ++ repl) ++ c)) = false ->
    exists w2 s2, replace_from s nq rq (nlen don) (S fuel) w = Ok (ST_INSUFFICIENT_BUFFER_SIZE, s2) w2 /\
      ready w2 s2 pre ((don ++ a) ++ c) post /\ limit_of s2 = limit_of s.
  Proof using NE NZ.
    intros FI RD RM RN HO. pose proof RD as (R & NF & VN & VR). pose proof needle_pos as LN.
    cbn [replace_from]. rewrite (bind_ok _ _ _ _ _ (proj1 (srep_shows _ _ _ _ _ R))). pose proof (srep_lt _ _ _ _ _ R) as SL.
    rewrite wsub_small by (rewrite ?nlen_app in *; lia).
    destruct (lpos_ex_cs w s nq (don ++ a ++ needle ++ c) needle (nlen don) (nlen (don ++ a ++ needle ++ c) - nlen don)
      (srep_views _ _ _ _ _ R) (term_views _ _ _ _ VN) NZ)
      as (st & r & E & Q); [rewrite nlen_app in *; lia|]. rewrite (bind_ok _ _ _ _ _ E). unfold lpos_result in Q.
    replace (nlen (don ++ a ++ needle ++ c) <? nlen don + (nlen (don ++ a ++ needle ++ c) - nlen don)) with false in Q by (rewrite nlen_app in *; lia).
    replace (nlen needle =? 0) with false in Q by lia. destruct Q as [F Q].
    assert (r = Some (nlen don + nlen a)) as ->.
    { eapply first_unique; [exact Q|]. cbn [first_occurrence]. split; [lia|]. split; [rewrite !nlen_app; lia|]. split.
      - apply occurs_shift, occurs_split. now exists a, c.
      - intros j J. replace j with (nlen don + (j - nlen don)) by lia. rewrite occurs_shift. apply FI. lia. }
    clear E Q F st. rewrite (bind_ok _ _ _ _ _ (get_sizes _ _ (or_introl (ex_intro _ _ (ex_intro _ _ VN))) w)).
    destruct (delete_ok w s pre (don ++ a ++ needle ++ c) post (nlen don + nlen a) (nlen needle) R (nofail_grants _ _ NF)) as (r & w1 & s1 & cs1 & E & G & Q);
      [rewrite !nlen_app in *; lia|rewrite !nlen_app in *; lia|].
    rewrite (bind_ok _ _ _ _ _ E). clear E. unfold sspec_delete in Q.
    replace (_ <? _) with false in Q by (rewrite !nlen_app in *; lia). replace (nlen needle =? 0) with false in Q by lia.
    destruct Q as [-> ->]. rewrite N.eqb_refl. cbn [negb].
    rewrite deleted in G. assert (RL : nlen repl + 1 < W64) by lia.
    rewrite (bind_ok _ _ _ _ _ (get_sizes _ _ (or_intror (conj (ex_intro _ _ (ex_intro _ _ VR)) RL)) w1)).
    destruct (ready_good _ _ _ _ _ _ _ _ RD G) as [RD1 LI]. pose proof RD1 as (R1 & NF1 & VN1 & VR1).
    assert (Z : (nlen repl =? 0) = false) by (destruct repl; [easy|rewrite nlen_cons; lia]). rewrite Z.
    destruct (insert_ok w1 s1 pre ((don ++ a) ++ c) post (nlen don + nlen a) rq repl R1 (nofail_grants _ _ NF1)) as (r & w2 & s2 & cs2 & E & G2 & Q);
      [rewrite !nlen_app in *; lia|exact VR1|].
    rewrite (bind_ok _ _ _ _ _ E). clear E. rewrite (inserted _ _ _ _ _ _ _ Z) in Q. rewrite LI in Q.
    unfold become in Q. rewrite HO in Q. destruct Q as [-> ->]. change (ST_INSUFFICIENT_BUFFER_SIZE =? ST_SUCCESS) with false. cbn [negb].
    destruct (ready_good _ _ _ _ _ _ _ _ RD1 G2) as [RD2 LI2].
    exists w2, s2. split; [reflexivity|]. split; [exact RD2|congruence].
  Qed.
  Lemma replace_loop xs ys : replaced needle repl xs ys ->
    forall fuel don w s pre post, ready w s pre (don ++ xs) post ->
    nlen xs < N.of_nat fuel -> (nlen don + nlen xs + nlen ys + 1) * 256 < W64 ->
    holds_chars (limit_of s) (nlen (don ++ xs)) = true -> holds_chars (limit_of s) (nlen (don ++ ys)) = true ->
    exists w' s', replace_from s nq rq (nlen don) fuel w = Ok (ST_FALSE, s') w' /\ ready w' s' pre (don ++ ys) post.
  Proof using NE NZ.
    intros H. pose proof needle_pos as LN.
    induction H as [xs NO|a c c' FI RP IH]; intros fuel don w s pre post R LF RM H1 H2; (destruct fuel as [|fuel]; [lia|]).
    - rewrite (loop_end fuel don xs w s pre post NO R). eauto.
    - assert (HH : holds_chars (limit_of s) (nlen ((don ++ a ++ repl) ++ c)) = true).
      { destruct (N.le_gt_cases (nlen needle) (nlen repl)) as [K|K].
        - pose proof (replaced_longer _ _ _ _ RP K). eapply holds_chars_le; [|exact H2]. rewrite !nlen_app. lia.
        - eapply holds_chars_le; [|exact H1]. rewrite !nlen_app. lia. }
      destruct (loop_step fuel don a c w s pre post FI R) as (w2 & s2 & -> & R2 & LI); [rewrite !nlen_app in *; lia|now right|].
      destruct (IH fuel (don ++ a ++ repl) w2 s2 pre post R2) as (w' & s' & E' & R').
      + rewrite !nlen_app in *. lia.
      + rewrite !nlen_app in *. lia.
      + now rewrite LI.
      + rewrite LI, <- !app_assoc. exact H2.
      + rewrite <- !app_assoc in R'. eauto.
  Qed.
  Lemma replace_stops xs ys : replaced needle repl xs ys ->
    forall fuel don w s pre post, ready w s pre (don ++ xs) post ->
    nlen xs < N.of_nat fuel -> (nlen don + nlen xs + nlen ys + nlen repl + 1) * 256 < W64 ->
    holds_chars (limit_of s) (nlen (don ++ xs)) = true -> holds_chars (limit_of s) (nlen (don ++ ys)) = false ->
    exists zs w' s', replace_from s nq rq (nlen don) fuel w = Ok (ST_INSUFFICIENT_BUFFER_SIZE, s') w' /\ ready w' s' pre (don ++ zs) post /\
      stopped needle repl xs zs.
  Proof using NE NZ.
    intros H. pose proof needle_pos as LN.
    induction H as [xs NO|a c c' FI RP IH]; intros fuel don w s pre post R LF RM H1 H2; (destruct fuel as [|fuel]; [lia|]); [congruence|].
    destruct (holds_chars (limit_of s) (nlen ((don ++ a ++ repl) ++ c))) eqn:HH.
    - destruct (loop_step fuel don a c w s pre post FI R) as (w2 & s2 & -> & R2 & LI); [rewrite !nlen_app in *; lia|now right|].
      destruct (IH fuel (don ++ a ++ repl) w2 s2 pre post R2) as (zs & w' & s' & E' & R' & ST).
      + rewrite !nlen_app in *. lia.
      + rewrite !nlen_app in *. lia.
      + now rewrite LI.
      + rewrite LI, <- !app_assoc. exact H2.
      + rewrite <- !app_assoc in R'. exists (a ++ repl ++ zs), w', s'. split; [exact E'|]. split; [exact R'|]. now constructor.
    - assert (RN : repl <> []).
      { intros RN. rewrite (holds_chars_le _ (nlen (don ++ a ++ needle ++ c)) (nlen ((don ++ a ++ repl) ++ c))) in HH; [discriminate| |exact H1]. rewrite RN, !nlen_app.
        change (nlen (@nil N)) with 0. lia. }
      destruct (loop_stop fuel don a c w s pre post FI R) as (w2 & s2 & -> & R2 & LI); [rewrite !nlen_app in *; lia|exact RN|exact HH|].
      exists (a ++ c), w2, s2. rewrite <- app_assoc in R2. split; [reflexivity|]. split; [exact R2|]. now constructor.
  Qed.
End Loop.
Lemma data_blk w s pre cs post q : srep w s pre cs post -> beside q s -> forall p, sdata q = Some p -> pb p <> blk (s_vec s).
Proof.
  intros [(VR & _) _] B p P. pose proof (r_data _ _ _ _ _ VR) as D. specialize (B p (mkptr (blk (s_vec s)) (nlen pre)) P).
  apply B. exact D.
Qed.
Lemma ready_reached w s pre cs post needle repl nq rq : srep w s pre cs post -> snofail w s ->
  views w nq needle -> views_part w rq repl -> beside nq s -> beside rq s -> ready needle repl nq rq w s pre cs post.
Proof.
  intros R NF VN VR B1 B2. split; [exact R|]. split; [exact NF|]. split.
  - apply views_term; [exact VN|]. eapply data_blk; eauto.
  - eapply views_is_view; [exact VR|reflexivity|]. eapply data_blk; eauto.
Qed.
Lemma buf_limit w s cs c : sreached_buf w s cs -> sget_capacity s w = Ok (ST_SUCCESS, c) w ->
  exists pre post, srep w s pre cs post /\ snofail w s /\ limit_of s = Some c /\ nlen cs <= c.
Proof.
  intros O C. apply sreached_buf_rep in O as (pre & post & R & NF & A). exists pre, post. split; [exact R|]. split; [exact NF|].
  unfold limit_of. rewrite A.
  unfold sget_capacity in C. pose proof R as [(VV & ES & _) _]. pose proof (r_cap _ _ _ _ _ VV). pose proof (r_mem _ _ _ _ _ VV).
  rewrite ES in *. pose proof (r_le _ _ _ _ _ VV) as LE. rewrite nlen_cells, nlen_app in LE. change (nlen [0]) with 1 in LE.
  unfold assert in C. replace (1 <=? v_cap (s_vec s)) with true in C by lia. unfold bind, ret in C. rewrite wsub_small in C by lia.
  injection C as <-. split; [reflexivity|lia].
Qed.
Lemma replace_own w s cs needle repl nq rq ys :
  sreached_own w s cs -> needle <> [] -> ~ In 0 needle -> views w nq needle -> views_part w rq repl -> beside nq s -> beside rq s ->
  replaced needle repl cs ys -> sroom (nlen cs + nlen ys) ->
  exists w' s', replace_all s nq rq w = Ok (ST_FALSE, s') w' /\ sshows w' s' ys /\ (exists limit, behaves_as limit w' s' ys).
Proof.
  intros H NE NZ VN VR B1 B2 RP RM. apply sreached_own_rep in H as (R & NF & A).
  destruct (replace_loop needle repl nq rq NE NZ cs ys RP (N.to_nat (nlen cs) + 1) [] w s [] []
    (ready_reached _ _ _ _ _ _ _ _ _ R NF VN VR B1 B2)) as (w' & s' & E & R' & NF' & _).
  - lia.
  - change (nlen (@nil N)) with 0. unfold sroom in RM. lia.
  - unfold limit_of. now rewrite A.
  - unfold limit_of. now rewrite A.
  - exists w', s'. unfold replace_all. rewrite (bind_ok _ _ _ _ _ (proj1 (srep_shows _ _ _ _ _ R))). split; [exact E|].
    split; [eapply srep_shows; eauto|]. eexists. eapply srep_behaves; eauto.
Qed.
Lemma replace_buf w s cs c needle repl nq rq ys :
  sreached_buf w s cs -> sget_capacity s w = Ok (ST_SUCCESS, c) w ->
  needle <> [] -> ~ In 0 needle -> views w nq needle -> views_part w rq repl -> beside nq s -> beside rq s ->
  replaced needle repl cs ys -> sroom (nlen cs + nlen ys + nlen repl) ->
  exists st w' s' zs, replace_all s nq rq w = Ok (st, s') w' /\ sshows w' s' zs /\ (exists limit, behaves_as limit w' s' zs) /\
    if nlen ys <=? c then st = ST_FALSE /\ zs = ys else st = ST_INSUFFICIENT_BUFFER_SIZE /\ stopped needle repl cs zs.
Proof.
  intros H C NE NZ VN VR B1 B2 RP RM. destruct (buf_limit _ _ _ _ H C) as (pre & post & R & NF & L & LC).
  assert (H1 : holds_chars (limit_of s) (nlen ([] ++ cs)) = true) by (rewrite L; cbn [holds_chars app]; lia).
  unfold replace_all. rewrite (bind_ok _ _ _ _ _ (proj1 (srep_shows _ _ _ _ _ R))).
  destruct (nlen ys <=? c) eqn:F.
  - destruct (replace_loop needle repl nq rq NE NZ cs ys RP (N.to_nat (nlen cs) + 1) [] w s pre post
      (ready_reached _ _ _ _ _ _ _ _ _ R NF VN VR B1 B2)) as (w' & s' & E & R' & NF' & _);
      [lia|change (nlen (@nil N)) with 0; unfold sroom in RM; lia|exact H1|rewrite L; exact F|].
    exists ST_FALSE, w', s', ys. split; [exact E|]. split; [eapply srep_shows; eauto|]. split; [eexists; eapply srep_behaves; eauto|auto].
  - destruct (replace_stops needle repl nq rq NE NZ cs ys RP (N.to_nat (nlen cs) + 1) [] w s pre post
      (ready_reached _ _ _ _ _ _ _ _ _ R NF VN VR B1 B2)) as (zs & w' & s' & E & (R' & NF' & _) & ST);
      [lia|change (nlen (@nil N)) with 0; unfold sroom in RM; lia|exact H1|rewrite L; exact F|].
    exists ST_INSUFFICIENT_BUFFER_SIZE, w', s', zs. split; [exact E|]. split; [eapply srep_shows; eauto|]. split; [eexists; eapply srep_behaves; eauto|auto].
Qed.

(** Splitting and joining texts. *)
From Verif Require Import Base NListFacts Status MemFacts VectorModel VectorSpec VectorDriver VectorRep StringModel StringSpec StringDriver
  StringBytes StringSearch StringProofs StringFinal StringFinal2 FormatRun CaseProofs UndoProofs2 ReplaceDriver ReplaceProofs SplitDriver Mem.
From Coq Require Import ZifyBool ZifyNat ZifyN.

(** ** Pieces *)
Lemma pieces_total sep : sep <> [] -> forall xs, exists ps, pieces sep xs ps.
Proof.
  intros NE xs. assert (H : forall n xs, (length xs < n)%nat -> exists ps, pieces sep xs ps).
  { clear xs. induction n as [|n IH]; intros xs L; [lia|]. destruct (first_dec xs sep) as [K|(a & c & E & K)].
    - exists [xs]. now constructor.
    - destruct (IH c) as (ps & R); [subst xs; rewrite !app_length in L; destruct sep; [easy|]; cbn [length] in L; lia|].
      exists (a :: ps). subst xs. now constructor. }
  apply (H (S (length xs))). lia.
Qed.
Lemma pieces_unique sep xs ps qs : pieces sep xs ps -> pieces sep xs qs -> ps = qs.
Proof.
  intros H. revert qs. induction H as [xs N1|a c ps F1 R1 IH]; intros qs H.
  - inversion H as [u N2|u r qs' F2 R2 E1 E2]; subst; [reflexivity|]. destruct (N1 (nlen u)). apply occurs_split. now exists u, r.
  - inversion H as [u N2 E1|u r qs' F2 R2 E1 E2]; subst.
    + destruct (N2 (nlen a)). apply occurs_split. now exists a, c.
    + assert (L : nlen a = nlen u).
      { destruct (N.lt_trichotomy (nlen a) (nlen u)) as [K|[K|K]]; [|exact K|].
        - destruct (F2 _ K). rewrite E1. apply occurs_split. now exists a, c.
        - destruct (F1 _ K). rewrite <- E1. apply occurs_split. now exists u, r. }
      apply app_inj_len in E1 as [-> E1]; [|unfold nlen in L; lia]. apply app_inv_head in E1. subst r. now rewrite (IH _ R2).
Qed.
Lemma pieces_nonnil sep xs ps : pieces sep xs ps -> ps <> [].
Proof. now intros []. Qed.
Lemma occurs_app a c needle i : occurs eq a needle i -> occurs eq (a ++ c) needle i.
Proof.
  intros H. apply occurs_split in H as (u & v & -> & L). apply occurs_split. exists u, (v ++ c). now rewrite <- !app_assoc.
Qed.
Lemma pieces_joined sep xs ps : sep <> [] -> pieces sep xs ps ->
  joined sep ps = xs /\ Forall (fun p => forall i, ~ occurs eq p sep i) ps.
Proof.
  intros NE H. induction H as [xs N1|a c ps F1 R1 [IH1 IH2]]; [split; [reflexivity|now repeat constructor]|]. split.
  - destruct ps as [|p ps]; [now apply pieces_nonnil in R1|]. cbn [joined]. cbn [joined] in IH1. now rewrite IH1.
  - constructor; [|exact IH2]. intros i O. apply (F1 i); [|now apply occurs_app]. destruct O as [L _]. destruct sep; [easy|].
    rewrite nlen_cons in L. lia.
Qed.

(** ** Splitting *)
Lemma filter_yes {A} (l : list A) : filter (fun _ => true) l = l.
Proof. induction l as [|x l IH]; [reflexivity|]. cbn. now rewrite IH. Qed.
Lemma get_size_any q n : ssize q = n + 1 -> n + 1 < W64 -> forall w, view_get_size q w = Ok (ST_SUCCESS, n) w.
Proof.
  intros A B w. unfold view_get_size. rewrite A. unfold assert. replace (1 <=? n + 1) with true by lia. unfold bind, ret.
  rewrite wsub_small by lia. now rewrite N.add_sub.
Qed.
Section Split.
  Context (w : world N) (hay sq : view) (sep : list N) (NE : sep <> []) (NZ : ~ In 0 sep) (VS : views w sq sep)
    (take : N -> N -> status * view) (R : view -> list N -> Prop) (keep : list N -> bool).
  Definition takes text : Prop := forall a p c, text = a ++ p ++ c ->
    if keep p then exists q, take (nlen a) (nlen p) = (ST_SUCCESS, q) /\ R q p
    else exists st q, take (nlen a) (nlen p) = (st, q) /\ st <> ST_SUCCESS.
  Lemma split_loop text : views w hay text -> takes text -> forall xs ps, pieces sep xs ps -> forall fuel don, text = don ++ xs -> nlen xs < N.of_nat fuel ->
    exists qs, split_from take hay sq (nlen don) fuel w = Ok qs w /\ Forall2 R qs (filter keep ps).
  Proof using NE NZ VS.
    intros V T xs ps P. pose proof V as (SZ & LT & _).
    assert (LN : 1 <= nlen sep) by (destruct sep; [easy|rewrite nlen_cons; lia]).
    assert (GH := get_size_any _ _ SZ LT w). assert (GS := get_size_any _ _ (proj1 VS) (proj1 (proj2 VS)) w).
    assert (ONE : forall don a c rest x, text = don ++ a ++ c -> x = nlen a ->
      exists qs, ((let (st, q) := take (nlen don) x in ret (if st =? ST_SUCCESS then q :: rest else rest)) : M N (list view)) w = Ok qs w /\
        forall ps, Forall2 R rest ps -> Forall2 R qs (filter keep [a] ++ ps)).
    { intros don a c rest x E ->. specialize (T don a c E). cbn [filter]. destruct (keep a).
      - destruct T as (q & -> & RQ). exists (q :: rest). split; [reflexivity|]. intros. now constructor.
      - destruct T as (st & q & -> & NS). exists rest. split; [|auto]. apply N.eqb_neq in NS. now rewrite NS. }
    induction P as [xs NO|a c ps FI RP IH]; intros fuel don E LF; (destruct fuel as [|fuel]; [lia|]); cbn [split_from];
      rewrite (bind_ok _ _ _ _ _ GH), E in *; rewrite wsub_small by (rewrite ?nlen_app in *; lia).
    - destruct (lpos_ex_cs w hay sq (don ++ xs) sep (nlen don) (nlen (don ++ xs) - nlen don) V VS NZ)
        as (st & r & EP & Q); [rewrite nlen_app in *; lia|]. rewrite (bind_ok _ _ _ _ _ EP). unfold lpos_result in Q.
      replace (nlen (don ++ xs) <? nlen don + (nlen (don ++ xs) - nlen don)) with false in Q by (rewrite nlen_app in *; lia).
      replace (nlen sep =? 0) with false in Q by lia. destruct Q as [F Q]. destruct r as [i|].
      { destruct Q as (Q1 & _ & Q3 & _). replace i with (nlen don + (i - nlen don)) in Q3 by lia. apply occurs_shift in Q3. destruct (NO _ Q3). }
      rewrite (bind_ok _ _ _ _ _ GS). unfold bind at 1. unfold ret at 1.
      destruct (ONE don xs [] [] (wsub (nlen (don ++ xs)) (nlen don))) as (qs & EQ & FQ); [now rewrite app_nil_r|rewrite wsub_small; rewrite nlen_app in *; lia|].
      exists qs. split; [exact EQ|]. rewrite <- (app_nil_r (filter keep [xs])). apply FQ. constructor.
    - destruct (lpos_ex_cs w hay sq (don ++ a ++ sep ++ c) sep (nlen don) (nlen (don ++ a ++ sep ++ c) - nlen don) V VS NZ)
        as (st & r & EP & Q); [rewrite nlen_app in *; lia|]. rewrite (bind_ok _ _ _ _ _ EP). unfold lpos_result in Q.
      replace (nlen (don ++ a ++ sep ++ c) <? nlen don + (nlen (don ++ a ++ sep ++ c) - nlen don)) with false in Q by (rewrite nlen_app in *; lia).
      replace (nlen sep =? 0) with false in Q by lia. destruct Q as [F Q].
      assert (r = Some (nlen don + nlen a)) as ->.
      { eapply first_unique; [exact Q|]. cbn [first_occurrence]. split; [lia|]. split; [rewrite !nlen_app; lia|]. split.
        - apply occurs_shift, occurs_split. now exists a, c.
        - intros j J. replace j with (nlen don + (j - nlen don)) by lia. rewrite occurs_shift. apply FI. lia. }
      rewrite (bind_ok _ _ _ _ _ GS). rewrite wadd_small by (rewrite !nlen_app in *; lia).
      destruct (IH fuel (don ++ a ++ sep)) as (rest & ER & FR); [now rewrite <- !app_assoc|rewrite !nlen_app in *; lia|].
      replace (nlen (don ++ a ++ sep)) with (nlen don + nlen a + nlen sep) in ER by (rewrite !nlen_app; lia).
      rewrite (bind_ok _ _ _ _ _ ER).
      destruct (ONE don a (sep ++ c) rest (wsub (nlen don + nlen a) (nlen don))) as (qs & EQ & FQ); [reflexivity|rewrite wsub_small; rewrite !nlen_app in *; lia|].
      exists qs. split; [exact EQ|]. change (filter keep (a :: ps)) with (filter keep ([a] ++ ps)). rewrite filter_app. now apply FQ.
  Qed.
End Split.
Lemma view_place w q x : views w q x -> exists b u z, sdata q = Some (mkptr b (nlen u)) /\ heap w b = Some (u ++ (x ++ [0]) ++ z).
Proof.
  intros V. assert (K := sdata q). destruct (sdata q) as [[b o]|] eqn:D.
  - destruct (views_term w q x (b + 1) V) as (p & E & _ & _ & (u & z & H & L) & _).
    + intros p E. rewrite D in E. injection E as <-. cbn. lia.
    + rewrite D in E. injection E as <-. cbn [pb po] in *. exists b, u, z. subst o. now split.
  - destruct V as (_ & _ & V). rewrite D in V. discriminate.
Qed.
Definition inside (w : world N) (hay q : view) (p : list N) : Prop := views_part w q p /\ forall s, beside hay s -> beside q s.
Lemma take_buffer w old hay text : views w hay text -> takes (by_buffer old hay) (inside w hay) nonempty text.
Proof.
  intros V a p c E. destruct (view_place _ _ _ V) as (b & u & z & D & H). pose proof V as (SZ & LT & _). unfold by_buffer, view_get_data. cbn [snd].
  rewrite D. cbn [padd pb po]. unfold nonempty. destruct (N.eqb_spec (nlen p) 0) as [Z|NZ]; cbn [negb].
  - unfold view_inside_buffer_ex. rewrite Z. cbn [nonnull negb orb]. change (0 =? 0) with true. cbv iota. eexists _, _. split; [reflexivity|discriminate].
  - destruct (inside_buffer_ex_ok w old b (u ++ a) p (c ++ [0] ++ z)) as (q & EQ & _ & _ & VP).
    + rewrite H, E. now rewrite <- !app_assoc.
    + lia.
    + rewrite E, !nlen_app in LT. lia.
    + rewrite nlen_app in EQ. exists q. split; [exact EQ|]. split; [exact VP|]. intros s B x d X Y.
      unfold view_inside_buffer_ex in EQ. cbn [nonnull negb orb] in EQ. replace (nlen p =? 0) with false in EQ by lia. injection EQ as <-.
      injection X as <-. exact (B _ _ D Y).
Qed.
Lemma take_view w old hay text : views w hay text -> takes (view_inside_view_ex old hay) (one_short w) (fun _ => true) text.
Proof.
  intros V a p c E. destruct (view_place _ _ _ V) as (b & u & z & D & H). pose proof V as (SZ & LT & _). unfold view_inside_view_ex.
  rewrite SZ, E, !nlen_app in *. rewrite wadd_small by lia. destruct (N.leb_spec (nlen a + (nlen p + nlen c) + 1) (nlen a + nlen p)); [lia|].
  eexists. split; [reflexivity|]. unfold one_short. destruct p as [|y p].
  - unfold view_get_size, assert, set_view, ssize. cbn [s_vec with_vec set_size set_data v_size]. change (nlen (@nil N)) with 0. change (1 <=? 0) with false.
    unfold bind, ret. destruct (checked w) eqn:CK; cbv beta iota; try rewrite CK; reflexivity.
  - assert (L : nlen (removelast (y :: p)) + 1 = nlen (y :: p)).
    { rewrite (app_removelast_last 0 (l := y :: p)) at 2 by discriminate. rewrite nlen_app. reflexivity. }
    split; [unfold set_view, ssize; cbn [s_vec with_vec set_size set_data v_size]; lia|]. split; [lia|].
    unfold set_view, sdata. cbn [s_vec with_vec set_size set_data v_data]. fold (sdata hay). rewrite D. cbn [padd pb po].
    apply (mread_mid w b (nlen u + nlen a) (nlen (removelast (y :: p))) (u ++ a) (removelast (y :: p)) ([last (y :: p) 0] ++ c ++ [0] ++ z)).
    + rewrite H. f_equal. rewrite (app_removelast_last 0 (l := y :: p)) at 1 by discriminate. now rewrite <- !app_assoc.
    + now rewrite nlen_app.
    + reflexivity.
Qed.
Lemma split_ok w old hay sq text sep ps : views w hay text -> views w sq sep -> sep <> [] -> ~ In 0 sep -> pieces sep text ps ->
  exists qs, split old hay sq w = Ok qs w /\ Forall2 (views_part w) qs (filter nonempty ps) /\
    forall s, beside hay s -> Forall (fun q => beside q s) qs.
Proof.
  intros V VS NE NZ P. unfold split. rewrite (bind_ok _ _ _ _ _ (get_size_any _ _ (proj1 V) (proj1 (proj2 V)) w)).
  destruct (split_loop w hay sq sep NE NZ VS _ (inside w hay) nonempty text V (take_buffer w old hay text V) text ps P (N.to_nat (nlen text) + 1) []) as (qs & E & F); [reflexivity|lia|].
  exists qs. split; [exact E|]. clear - F. split.
  - induction F as [|q p qs ps' H F IH]; constructor; [apply H|exact IH].
  - intros s B. induction F as [|q p qs ps' H F IH]; constructor; [now apply H|exact IH].
Qed.
Lemma split_views_ok w old hay sq text sep ps : views w hay text -> views w sq sep -> sep <> [] -> ~ In 0 sep -> pieces sep text ps ->
  exists qs, split_views old hay sq w = Ok qs w /\ Forall2 (one_short w) qs ps.
Proof.
  intros V VS NE NZ P. unfold split_views. rewrite (bind_ok _ _ _ _ _ (get_size_any _ _ (proj1 V) (proj1 (proj2 V)) w)).
  destruct (split_loop w hay sq sep NE NZ VS _ (one_short w) (fun _ => true) text V (take_view w old hay text V) text ps P (N.to_nat (nlen text) + 1) []) as (qs & E & F); [reflexivity|lia|].
  exists qs. split; [exact E|]. now rewrite filter_yes in F.
Qed.

(** ** Joining *)
Section Join.
  Context (sq : view) (sep : list N).
  (** A string and the views it is to be joined from. *)
  Definition ready_join (w : world N) (s : str) (cs : list N) (qs : list view) (ps : list (list N)) : Prop :=
    srep w s [] cs [] /\ snofail w s /\ limit_of s = None /\ is_view w sq sep (blk (s_vec s)) /\
    Forall2 (fun q p => is_view w q p (blk (s_vec s))) qs ps.
  Lemma put_last_ok w s cs qs ps q p : ready_join w s cs qs ps -> is_view w q p (blk (s_vec s)) -> p <> [] ->
    (nlen cs + nlen p + 1) * 256 < W64 ->
    exists w' s', put_last s q w = Ok (ST_SUCCESS, s') w' /\ ready_join w' s' (cs ++ p) qs ps.
  Proof.
    intros (R & NF & LI & VS & VQ) V NE RM. unfold put_last. rewrite (bind_ok _ _ _ _ _ (proj1 (srep_shows _ _ _ _ _ R))).
    destruct (insert_ok w s [] cs [] (nlen cs) q p R (nofail_grants _ _ NF) RM V) as (r & w' & s' & cs' & E & G & Q).
    assert (Z : (nlen p =? 0) = false) by (destruct p; [easy|rewrite nlen_cons; lia]).
    assert (Q' : r = ST_SUCCESS /\ cs' = cs ++ p).
    { pose proof (inserted (limit_of s) cs [] [] p r cs' Z) as K. rewrite !app_nil_r in K. change (nlen (@nil N)) with 0 in K.
      rewrite N.add_0_r in K. cbn [app] in K. rewrite ?app_nil_r in K. rewrite K, LI in Q. unfold become in Q. cbn [holds_chars] in Q. exact Q. }
    destruct Q' as [-> ->]. exists w', s'. split; [exact E|]. split; [eapply sgood_rep; eauto|]. split; [eapply bnofail; [exact NF|apply G]|].
    split; [rewrite <- LI; eapply sgood_limit; eauto|]. split; [eapply is_view_good; eauto|].
    clear - VQ R G. induction VQ as [|q1 p1 qs1 ps1 V1 VQ1 IH]; constructor; [eapply is_view_good; eauto|exact IH].
  Qed.
  Definition all_len (ps : list (list N)) : N := fold_right (fun p n => nlen sep + nlen p + n) 0 ps.
  Lemma join_more_ok : sep <> [] -> forall qs ps w s cs, ready_join w s cs qs ps -> Forall (fun p => p <> []) ps ->
    (nlen cs + all_len ps + 1) * 256 < W64 ->
    exists w' s', join_more s sq qs w = Ok (ST_SUCCESS, s') w' /\ ready_join w' s' (cs ++ concat (map (app sep) ps)) [] [].
  Proof.
    intros NE. induction qs as [|q qs IH]; intros ps w s cs RJ NP RM; pose proof RJ as (R & NF & LI & VS & VQ); inversion VQ as [|? p ? ps' V VQ']; subst.
    - exists w, s. split; [reflexivity|]. cbn [map concat]. now rewrite app_nil_r.
    - inversion NP as [|? ? NP1 NP2]; subst. cbn [all_len fold_right] in RM. fold (all_len ps') in RM.
      destruct (put_last_ok w s cs (q :: qs) (p :: ps') sq sep RJ VS NE) as (w1 & s1 & E1 & RJ1); [lia|].
      pose proof RJ1 as (R1 & NF1 & LI1 & VS1 & VQ1). inversion VQ1 as [|? ? ? ? V1 VQ1']; subst.
      assert (RJ1' : ready_join w1 s1 (cs ++ sep) qs ps') by (split; [exact R1|now repeat split]).
      destruct (put_last_ok w1 s1 (cs ++ sep) qs ps' q p RJ1' V1 NP1) as (w2 & s2 & E2 & RJ2); [rewrite nlen_app; lia|].
      destruct (IH ps' w2 s2 ((cs ++ sep) ++ p) RJ2 NP2) as (w' & s' & E & RJ'); [rewrite !nlen_app; lia|].
      exists w', s'. cbn [join_more]. rewrite (bind_ok _ _ _ _ _ E1). change (ST_SUCCESS =? ST_SUCCESS) with true. cbn [negb].
      rewrite (bind_ok _ _ _ _ _ E2). change (ST_SUCCESS =? ST_SUCCESS) with true. cbn [negb]. split; [exact E|].
      cbn [map concat]. replace (cs ++ (sep ++ p) ++ concat (map (app sep) ps')) with (((cs ++ sep) ++ p) ++ concat (map (app sep) ps')) by now rewrite <- !app_assoc. exact RJ'.
  Qed.
End Join.
Lemma joined_cons sep p ps : joined sep (p :: ps) = p ++ concat (map (app sep) ps).
Proof.
  revert p. induction ps as [|x ps IH]; intros p; [cbn; now rewrite app_nil_r|]. cbn [map concat].
  change (joined sep (p :: x :: ps)) with (p ++ sep ++ joined sep (x :: ps)). rewrite IH. now rewrite <- !app_assoc.
Qed.
Lemma all_len_joined sep p ps : nlen (joined sep (p :: ps)) = nlen p + all_len sep ps.
Proof.
  rewrite joined_cons, nlen_app. f_equal. induction ps as [|x ps IH]; [reflexivity|]. cbn [map concat all_len fold_right].
  rewrite !nlen_app, IH. unfold all_len. lia.
Qed.
Lemma join_own w s cs sq sep qs ps : sreached_own w s cs -> views_part w sq sep -> sep <> [] -> beside sq s ->
  Forall2 (views_part w) qs ps -> Forall (fun q => beside q s) qs -> Forall (fun p => p <> []) ps ->
  sroom (nlen cs + nlen (joined sep ps)) ->
  exists w' s', join s sq qs w = Ok (ST_SUCCESS, s') w' /\ sshows w' s' (cs ++ joined sep ps) /\
    (exists limit, behaves_as limit w' s' (cs ++ joined sep ps)).
Proof.
  intros H VS NE BS VQ BQ NP RM. apply sreached_own_rep in H as (R & NF & A).
  assert (FIN : forall w' s' cs' qs' ps', ready_join sq sep w' s' cs' qs' ps' -> sshows w' s' cs' /\ exists limit, behaves_as limit w' s' cs').
  { intros w' s' cs' qs' ps' (R' & NF' & _). split; [eapply srep_shows; eauto|]. eexists. eapply srep_behaves; eauto. }
  assert (RJ : ready_join sq sep w s cs qs ps).
  { split; [exact R|]. split; [exact NF|]. split; [unfold limit_of; now rewrite A|]. split.
    - eapply views_is_view; [exact VS|reflexivity|]. eapply data_blk; eauto.
    - clear - VQ BQ R. induction VQ as [|q p qs ps V VQ IH]; constructor; inversion BQ; subst; [|now apply IH].
      eapply views_is_view; [exact V|reflexivity|]. eapply data_blk; eauto. }
  unfold sroom in RM. inversion VQ as [|q p qs' ps' V VQ']; subst.
  - exists w, s. split; [reflexivity|]. cbn [joined]. rewrite app_nil_r. eapply FIN; eauto.
  - inversion NP as [|? ? NP1 NP2]; subst. rewrite all_len_joined in RM. pose proof RJ as (_ & _ & LI & VS' & VQ1).
    inversion VQ1 as [|? ? ? ? V1 VQ1']; subst.
    assert (RJ' : ready_join sq sep w s cs qs' ps') by (split; [exact R|now repeat split]).
    destruct (put_last_ok sq sep w s cs qs' ps' q p RJ' V1 NP1) as (w1 & s1 & E1 & RJ1); [lia|].
    destruct (join_more_ok sq sep NE qs' ps' w1 s1 (cs ++ p) RJ1 NP2) as (w' & s' & E & RJ2); [rewrite nlen_app; lia|].
    exists w', s'. cbn [join]. rewrite (bind_ok _ _ _ _ _ E1). change (ST_SUCCESS =? ST_SUCCESS) with true. cbn [negb].
    split; [exact E|]. rewrite joined_cons, app_assoc. eapply FIN; eauto.
Qed.
(** ** Both *)
Lemma filter_joined sep ps : nlen (joined sep (filter nonempty ps)) <= nlen (joined sep ps).
Proof.
  induction ps as [|p ps IH]; [apply N.le_refl|]. cbn [filter]. unfold nonempty at 1. destruct (N.eqb_spec (nlen p) 0) as [Z|Z]; cbn [negb].
  - destruct ps as [|x ps]; [apply N.le_0_l|]. etransitivity; [exact IH|].
    change (joined sep (p :: x :: ps)) with (p ++ sep ++ joined sep (x :: ps)). rewrite !nlen_app. lia.
  - rewrite !all_len_joined. enough (all_len sep (filter nonempty ps) <= all_len sep ps) by lia. clear.
    induction ps as [|x ps IH]; [apply N.le_refl|]. cbn [filter]. destruct (nonempty x); cbn [all_len fold_right]; fold (all_len sep ps); fold (all_len sep (filter nonempty ps)); lia.
Qed.
Lemma split_join w old s hay sq text sep ps : sreached_own w s [] -> views w hay text -> views w sq sep -> sep <> [] -> ~ In 0 sep ->
  beside hay s -> beside sq s -> pieces sep text ps -> sroom (nlen text) ->
  exists qs w' s', split old hay sq w = Ok qs w /\ join s sq qs w = Ok (ST_SUCCESS, s') w' /\
    sshows w' s' (joined sep (filter nonempty ps)) /\ (~ In [] ps -> sshows w' s' text).
Proof.
  intros H V VS NE NZ BH BS P RM. destruct (split_ok w old hay sq text sep ps V VS NE NZ P) as (qs & E & F & B).
  destruct (pieces_joined _ _ _ NE P) as [J _]. pose proof (filter_joined sep ps) as LE. rewrite J in LE.
  assert (NP : Forall (fun p => p <> []) (filter nonempty ps)).
  { apply Forall_forall. intros p I ->. apply filter_In in I as [_ I]. discriminate. }
  destruct (join_own w s [] sq sep qs (filter nonempty ps) H) as (w' & s' & E2 & SH & _); auto.
  - now apply views_views_part.
  - unfold sroom in *. change (nlen (@nil N)) with 0. lia.
  - exists qs, w', s'. split; [exact E|]. split; [exact E2|]. split; [exact SH|]. intros NI. cbn [app] in SH.
    replace (filter nonempty ps) with ps in SH; [now rewrite J in SH|]. clear - NI. induction ps as [|p ps IH]; [reflexivity|]. cbn [filter].
    destruct p as [|x p]; [destruct NI; now left|]. cbn [nonempty]. replace (nonempty (x :: p)) with true; [f_equal; apply IH; intros K; apply NI; now right|].
    unfold nonempty. rewrite nlen_cons. lia.
Qed.

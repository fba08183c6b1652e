(** Proofs about the list: every operation keeps the representation. *)
From Coq Require Import Permutation.
From Verif Require Import Base NListFacts Status Mem MemFacts VectorModel VectorDriver ListModel ListSpec ListDriver ListHeap ListRep.
From Coq Require Import ZifyBool ZifyNat ZifyN.
Implicit Types (w : world) (h : memory) (p q : ptr) (x : list cell).

Section Ops.
  Variables (e : N) (d : option (list cell -> list cell)) (m : mode) (base : memory).
  Notation ns := (16 + e).
  Notation reg := (reg e).
  Notation chg := (chg e).
  Notation chain := (chain e).
  Notation pool := (pool e m base).
  Notation conf := (conf e d m).
  Notation step := (step m).
  Notation limit := (limit_of e m).

  (** The list [l] in memory consists of the nodes [ps] with the data [xs]. *)
  Definition lrep w l ps xs us : Prop :=
    world_ok w /\ conf l /\ l_size l = nlen xs /\ nlen xs < W64 /\ l_head l = front ps None /\ l_tail l = back None ps /\
    chain (heap w) None ps xs None /\ pool (heap w) (l_unused l) ps us.

  Lemma chain_nlen h pv ps xs nx : chain h pv ps xs nx -> nlen ps = nlen xs.
  Proof. intros H. apply chain_length in H. unfold nlen. now rewrite H. Qed.
  Lemma snoc_case {A} (l : list A) : l = [] \/ exists l' a, l = l' ++ [a].
  Proof. destruct l as [|a l] using rev_ind; [now left|right; eauto]. Qed.
  Lemma back_snoc pv ps p : back pv (ps ++ [p]) = Some p.
  Proof. now rewrite back_app. Qed.
  Lemma split_snoc h pv ps p xs nx : chain h pv (ps ++ [p]) xs nx ->
    exists xs' x, xs = xs' ++ [x] /\ chain h pv ps xs' (Some p) /\ reg h p (enc (back pv ps)) (enc nx) x.
  Proof. clear d m base.
    intros H. pose proof (chain_length _ _ _ _ _ _ H) as L. rewrite app_length in L. cbn in L.
    destruct (snoc_case xs) as [->|(xs' & x & ->)]; [cbn in L; lia|]. exists xs', x. rewrite app_length in L. cbn in L.
    apply chain_app in H; [|lia]. cbn in H. destruct H as (H1 & H2 & _). auto.
  Qed.
  Lemma join_snoc h pv ps p xs x nx : chain h pv ps xs (Some p) -> reg h p (enc (back pv ps)) (enc nx) x ->
    chain h pv (ps ++ [p]) (xs ++ [x]) nx.
  Proof. intros H R. apply chain_app; [eapply chain_length; eauto|]. cbn. auto. Qed.
  Lemma wr_chain_clear w p r1 r2 x w' lg ps : chg w p r1 r2 x w' lg -> clear_of e p ps ->
    forall pv xs nx, chain (heap w) pv ps xs nx -> chain (heap w') pv ps xs nx.
  Proof. intros C CL pv xs nx. eapply chg_chain; eauto. Qed.

  (** The last node gets a new "next". *)
  Lemma relink_last w ps t xs0 z nx nx' us un : chain (heap w) None (ps ++ [t]) (xs0 ++ [z]) nx -> pool (heap w) un (ps ++ [t]) us \/ (exists p, pool (heap w) un (p :: ps ++ [t]) us) ->
    exists w', set_next (Some t) nx' w = Ok tt w' /\ chg w t (enc (back None ps)) (enc nx') z w' [] /\
      chain (heap w') None (ps ++ [t]) (xs0 ++ [z]) nx'.
  Proof.
    intros CH P. destruct (split_snoc _ _ _ _ _ _ CH) as (xs' & x & E & C & R). apply app_inj_tail in E as [<- <-].
    destruct (set_next_ok e w t _ _ _ nx' R) as (w' & E & CG). exists w'. split; [exact E|]. split; [exact CG|].
    apply join_snoc; [|eapply chg_reg; eauto]. eapply wr_chain_clear; eauto.
    destruct P as [P|(p & P)].
    - now apply pool_clear_mid in P as (A & _).
    - change (p :: ps ++ [t]) with ((p :: ps) ++ t :: []) in P. apply pool_clear_mid in P as (A & _).
      intros q I. apply A. now right.
  Qed.

  Lemma link_back_ok w l p ps xs us y : world_ok w -> conf l -> l_size l = nlen xs -> nlen xs + 1 < W64 ->
    l_head l = front ps None -> l_tail l = back None ps -> chain (heap w) None ps xs None ->
    pool (heap w) (l_unused l) (p :: ps) us -> reg (heap w) p (enc (back None ps)) (enc None) y ->
    exists w' l', link_back l (Some p) w = Ok l' w' /\ lrep w' l' (ps ++ [p]) (xs ++ [y]) us /\ step w w' [].
  Proof.
    intros WO CF SZ SW HD TL CH P R. unfold link_back. rewrite HD, TL, SZ.
    rewrite wadd_small by (change W64 with 18446744073709551616 in *; lia).
    destruct (snoc_case ps) as [->|(ps0 & t & ->)].
    - destruct xs as [|x xs]; [|contradiction]. cbn. eexists. eexists. split; [reflexivity|]. split; [|apply step_refl].
      split; [exact WO|]. split; [exact CF|]. split; [reflexivity|]. split; [reflexivity|]. split; [reflexivity|].
      split; [reflexivity|]. split; [|exact P]. split; [exact R|exact I].
    - rewrite front_app. rewrite back_snoc in *.
      assert (NN : nonnull (front ps0 (front [t] None)) = true) by now destruct ps0. rewrite NN. cbn [negb].
      destruct (split_snoc _ _ _ _ _ _ CH) as (xs0 & z & -> & C0 & R0).
      destruct (relink_last w ps0 t xs0 z None (Some p) us (l_unused l) CH ltac:(right; eauto)) as (w' & E & CG & CH').
      rewrite (bind_ok _ _ _ _ _ E). eexists. eexists. split; [reflexivity|].
      split; [|apply quiet_step; apply CG].
      split; [eapply chg_world_ok; eauto|]. split; [exact CF|]. split; [cbn; now rewrite (nlen_app (xs0 ++ [z]) [y])|].
      split; [rewrite (nlen_app (xs0 ++ [z]) [y]); change (nlen [y]) with 1; lia|].
      split; [cbn; rewrite HD; now rewrite !front_app; destruct ps0|]. split; [cbn; now rewrite back_snoc|]. split.
      + apply join_snoc; [exact CH'|]. rewrite back_snoc.
        eapply reg_keeps; [apply CG|eapply chg_len; eauto| |exact R].
        change (p :: ps0 ++ [t]) with ([p] ++ ps0 ++ [t]) in P. rewrite app_assoc in P. apply pool_clear_mid in P as (A & _).
        apply A. now left.
      + cbn [l_unused put_size put_tail]. eapply pool_perm; [apply (Permutation_app_comm [p])|].
        eapply pool_chg; [exact P| |exact CG]. apply in_or_app; right; apply in_or_app; right; now left.
  Qed.
  Lemma link_front_ok w l p ps xs us y : world_ok w -> conf l -> l_size l = nlen xs -> nlen xs + 1 < W64 ->
    l_head l = front ps None -> l_tail l = back None ps -> chain (heap w) None ps xs None ->
    pool (heap w) (l_unused l) (p :: ps) us -> reg (heap w) p (enc None) (enc (front ps None)) y ->
    exists w' l', link_front l (Some p) w = Ok l' w' /\ lrep w' l' (p :: ps) (y :: xs) us /\ step w w' [].
  Proof.
    intros WO CF SZ SW HD TL CH P R. unfold link_front. rewrite HD, SZ.
    rewrite wadd_small by (change W64 with 18446744073709551616 in *; lia).
    destruct ps as [|t ps].
    - destruct xs as [|x xs]; [|contradiction]. cbn. eexists. eexists. split; [reflexivity|]. split; [|apply step_refl].
      split; [exact WO|]. split; [exact CF|]. split; [reflexivity|]. split; [reflexivity|]. split; [reflexivity|].
      split; [reflexivity|]. split; [|exact P]. split; [exact R|exact I].
    - destruct xs as [|z xs]; [contradiction|]. cbn [front nonnull negb]. destruct CH as [R0 C0].
      destruct (set_prev_ok e w t _ _ _ (Some p) R0) as (w' & E & CG). rewrite (bind_ok _ _ _ _ _ E).
      change (p :: t :: ps) with ([p] ++ t :: ps) in P. pose proof (pool_clear_mid _ _ _ _ _ _ _ _ _ P) as (A1 & A2 & _).
      eexists. eexists. split; [reflexivity|]. split; [|apply quiet_step; apply CG].
      split; [eapply chg_world_ok; eauto|]. split; [exact CF|]. split; [cbn; rewrite (nlen_cons y); lia|].
      split; [rewrite (nlen_cons y); lia|]. split; [reflexivity|]. split; [cbn; now rewrite TL|]. split.
      + split; [eapply reg_keeps; [apply CG|eapply chg_len; eauto|apply A1; now left|exact R]|].
        split; [eapply chg_reg; eauto|]. eapply wr_chain_clear; eauto.
      + cbn [l_unused put_size put_head]. eapply pool_chg; [exact P| |exact CG]. right. now left.
  Qed.

  (** A callback that fills in the data of a node. *)
  Definition writer (W : option ptr -> M unit) (good : list cell -> Prop) : Prop :=
    forall w un p ps us r1 r2 x, pool (heap w) un (p :: ps) us -> reg (heap w) p r1 r2 x ->
      exists w' y, W (Some p) w = Ok tt w' /\ chg w p r1 r2 y w' [] /\ good y.
  Lemma chain_chg_head w p ps r1 r2 y w' lg us un : chg w p r1 r2 y w' lg -> pool (heap w) un (p :: ps) us ->
    forall pv xs, chain (heap w) pv ps xs None -> chain (heap w') pv ps xs None.
  Proof.
    intros CG P pv xs. eapply wr_chain_clear; eauto. apply pool_clear in P. apply clear_app in P. tauto.
  Qed.
  Lemma prepare w un p ps us r1 r2 x pv nx W good xs : writer W good -> world_ok w ->
    pool (heap w) un (p :: ps) us -> reg (heap w) p r1 r2 x -> chain (heap w) None ps xs None ->
    exists w1 w2 w3 y, set_prev (Some p) pv w = Ok tt w1 /\ set_next (Some p) nx w1 = Ok tt w2 /\ W (Some p) w2 = Ok tt w3 /\
      good y /\ world_ok w3 /\ pool (heap w3) un (p :: ps) us /\ reg (heap w3) p (enc pv) (enc nx) y /\
      chain (heap w3) None ps xs None /\ step w w3 [].
  Proof.
    intros WW WO P R CH. destruct (set_prev_ok e w p r1 r2 x pv R) as (w1 & E1 & C1).
    pose proof (pool_chg _ _ _ _ _ _ _ _ _ _ _ _ _ P (or_introl eq_refl) C1) as P1.
    pose proof (chg_reg _ _ _ _ _ _ _ _ C1) as R1.
    destruct (set_next_ok e w1 p _ _ _ nx R1) as (w2 & E2 & C2).
    pose proof (pool_chg _ _ _ _ _ _ _ _ _ _ _ _ _ P1 (or_introl eq_refl) C2) as P2.
    pose proof (chg_reg _ _ _ _ _ _ _ _ C2) as R2.
    destruct (WW w2 un p ps us _ _ _ P2 R2) as (w3 & y & E3 & C3 & G).
    pose proof (pool_chg _ _ _ _ _ _ _ _ _ _ _ _ _ P2 (or_introl eq_refl) C3) as P3.
    exists w1, w2, w3, y. split; [exact E1|]. split; [exact E2|]. split; [exact E3|]. split; [exact G|].
    pose proof (chg_trans _ _ _ _ _ _ _ _ _ _ _ _ _ C1 C2) as C12. pose proof (chg_trans _ _ _ _ _ _ _ _ _ _ _ _ _ C12 C3) as C13.
    cbn in C13. split; [eapply chg_world_ok; eauto|]. split; [exact P3|]. split; [eapply chg_reg; eauto|].
    split; [|apply quiet_step; apply C13]. eapply chain_chg_head; eauto.
  Qed.
  Lemma lrep_same w w' l ps xs us : lrep w l ps xs us -> heap w' = heap w -> nextb w' = nextb w -> lrep w' l ps xs us.
  Proof. intros (A & B) H NB. unfold lrep, world_ok. rewrite H, NB. now split. Qed.

  Lemma add_back_ok W good w l ps xs us : writer W good -> lrep w l ps xs us -> nlen xs + 1 < W64 ->
    (exists un w1 w2 w3 w4 w' l' p y us', lalloc_node l w = Ok (ST_SUCCESS, put_unused l un, Some p) w1 /\
       set_prev (Some p) (l_tail l) w1 = Ok tt w2 /\ set_next (Some p) None w2 = Ok tt w3 /\ W (Some p) w3 = Ok tt w4 /\
       link_back (put_unused l un) (Some p) w4 = Ok l' w' /\ good y /\ lrep w' l' (ps ++ [p]) (xs ++ [y]) us' /\ step w w' [] /\
       full limit (nlen xs) = false) \/
    (exists w' r, lalloc_node l w = Ok (r, l, None) w' /\ st_success r = false /\ refusal limit (fails w) (nlen xs) r /\
       lrep w' l ps xs us /\ step w w' []).
  Proof.
    intros WW REP SW. pose proof REP as (WO & CF & SZ & SZW & HD & TL & CH & P). pose proof (chain_nlen _ _ _ _ _ CH) as LP.
    destruct (alloc_ok e d m base w l ps us CF WO P) as [(w1 & un & p & us' & r1 & r2 & x & E & WO1 & P1 & R1 & KC & S1 & FU)|(w1 & r & E & ST & RF & HE & NB & S1)];
      [congruence|lia| |].
    - left. destruct (prepare w1 un p ps us' r1 r2 x (l_tail l) None W good xs WW WO1 P1 R1 (KC _ _ CH))
        as (w2 & w3 & w4 & y & E2 & E3 & E4 & G & WO4 & P4 & R4 & CH4 & S4).
      rewrite TL in R4. destruct (link_back_ok w4 (put_unused l un) p ps xs us' y) as (w' & l' & EL & REP' & SL); auto.
      exists un, w1, w2, w3, w4, w', l', p, y, us'. repeat (split; [assumption|]).
      split; [|congruence].
      pose proof (step_trans _ _ _ _ _ _ S1 (step_trans _ _ _ _ _ _ S4 SL)) as SS. exact SS.
    - right. exists w1, r. split; [exact E|]. split; [exact ST|]. split; [congruence|]. split; [|exact S1].
      eapply lrep_same; eauto.
  Qed.
  Lemma add_front_ok W good w l ps xs us : writer W good -> lrep w l ps xs us -> nlen xs + 1 < W64 ->
    (exists un w1 w2 w3 w4 w' l' p y us', lalloc_node l w = Ok (ST_SUCCESS, put_unused l un, Some p) w1 /\
       set_prev (Some p) None w1 = Ok tt w2 /\ set_next (Some p) (l_head l) w2 = Ok tt w3 /\ W (Some p) w3 = Ok tt w4 /\
       link_front (put_unused l un) (Some p) w4 = Ok l' w' /\ good y /\ lrep w' l' (p :: ps) (y :: xs) us' /\ step w w' [] /\
       full limit (nlen xs) = false) \/
    (exists w' r, lalloc_node l w = Ok (r, l, None) w' /\ st_success r = false /\ refusal limit (fails w) (nlen xs) r /\
       lrep w' l ps xs us /\ step w w' []).
  Proof.
    intros WW REP SW. pose proof REP as (WO & CF & SZ & SZW & HD & TL & CH & P). pose proof (chain_nlen _ _ _ _ _ CH) as LP.
    destruct (alloc_ok e d m base w l ps us CF WO P) as [(w1 & un & p & us' & r1 & r2 & x & E & WO1 & P1 & R1 & KC & S1 & FU)|(w1 & r & E & ST & RF & HE & NB & S1)];
      [congruence|lia| |].
    - left. destruct (prepare w1 un p ps us' r1 r2 x None (l_head l) W good xs WW WO1 P1 R1 (KC _ _ CH))
        as (w2 & w3 & w4 & y & E2 & E3 & E4 & G & WO4 & P4 & R4 & CH4 & S4).
      rewrite HD in R4. destruct (link_front_ok w4 (put_unused l un) p ps xs us' y) as (w' & l' & EL & REP' & SL); auto.
      exists un, w1, w2, w3, w4, w', l', p, y, us'. repeat (split; [assumption|]).
      split; [|congruence].
      pose proof (step_trans _ _ _ _ _ _ S1 (step_trans _ _ _ _ _ _ S4 SL)) as SS. exact SS.
    - right. exists w1, r. split; [exact E|]. split; [exact ST|]. split; [congruence|]. split; [|exact S1].
      eapply lrep_same; eauto.
  Qed.

  (** ** Writers *)
  (** An argument of the caller at [q], outside the list. *)
  Definition outside q x : Prop :=
    base (pb q) = Some x /\ po q = 0 /\ nlen x = e /\ match m with Grow => True | Fixed b _ _ _ => pb q <> b end.
  Lemma outside_holds h un ps us q x : pool h un ps us -> outside q x -> holds h q x /\ forall p, In p ps -> pb q <> pb p.
  Proof.
    intros P (B & O & L & NB). unfold ListRep.pool in P. destruct m as [|b pre post cap].
    - destruct P as (_ & _ & _ & D & E). assert (NI : ~ In (pb q) (map pb ps)).
      { intros I. apply in_map_iff in I as (p & EQ & IP). destruct (D p IP) as (_ & N & _). rewrite EQ in N. congruence. }
      split.
      + exists [], []. rewrite E, B by exact NI. split; [now rewrite app_nil_r|now rewrite O].
      + intros p IP EQ. apply NI. rewrite EQ. now apply in_map.
    - destruct P as (_ & _ & (k & K & C) & _ & E). split.
      + exists [], []. rewrite E, B by exact NB. split; [now rewrite app_nil_r|now rewrite O].
      + intros p IP EQ. apply NB. rewrite EQ. assert (IS : In p (slots e b pre k)).
        { eapply Permutation_in; [exact C|]. apply in_or_app. now left. }
        now destruct (slot_inside _ _ _ _ _ _ IS K).
  Qed.
  Lemma copy_writer q x : outside q x -> writer (fun p : option ptr => memcpy (node_data p) (Some q) e) (fun y => y = x).
  Proof.
    intros O w un p ps us r1 r2 x0 P R. destruct (outside_holds _ _ _ _ _ _ P O) as [H A].
    destruct (data_copy e w p r1 r2 x0 q x R H) as (w' & E & C); [apply O|apply A; now left|]. now exists w', x.
  Qed.
  Lemma chg_none w p r1 r2 x : reg (heap w) p r1 r2 x -> chg w p r1 r2 x w [].
  Proof.
    intros ((a & c & H & L) & LL). split; [|split; [apply quiet_refl|exact LL]]. exists a, (r1 ++ r2 ++ x), c. repeat split; auto.
  Qed.
  Lemma none_writer : writer (fun _ => ret tt) (fun y => nlen y = e).
  Proof.
    intros w un p ps us r1 r2 x P R. exists w, x. split; [reflexivity|]. split; [now apply chg_none|]. apply R.
  Qed.
  Lemma ctor_writer f : ctor_ok e f -> writer (fun p : option ptr => call_ctor f (node_data p) e)
    (fun y => exists raw, nlen raw = e /\ y = match f with Some f => f raw | None => raw end).
  Proof.
    intros CO w un p ps us r1 r2 x P R. destruct f as [f|].
    - unfold call_ctor. rewrite (bind_ok _ _ _ _ _ (data_read e w p r1 r2 x R)).
      assert (L : nlen (f x) = e) by (apply CO; apply R).
      destruct (data_write e w p r1 r2 x (f x) R L) as (w' & E & C). exists w', (f x). split; [exact E|]. split; [exact C|].
      exists x. split; [apply R|reflexivity].
    - destruct (none_writer w un p ps us r1 r2 x P R) as (w' & y & E & C & G). exists w', y. split; [exact E|]. split; [exact C|]. eauto.
  Qed.

  (** ** Pushing *)
  Notation succ := (ST_SUCCESS).
  Lemma push_back_ok w l ps xs us q x : lrep w l ps xs us -> nlen xs + 1 < W64 -> outside q x ->
    exists w' l' r ps' us' xs' new, lpush_back l (Some q) w = Ok (r, l') w' /\
      added limit (fails w) xs (xs ++ [x]) x r xs' new /\ lrep w' l' ps' xs' us' /\ step w w' [] /\
      (if st_success r then exists p, ps' = ps ++ [p] else ps' = ps).
  Proof.
    intros REP SW O. pose proof REP as (_ & (EE & _) & _). unfold lpush_back. cbn [nonnull negb].
    destruct (add_back_ok _ _ w l ps xs us (copy_writer q x O) REP SW)
      as [(un & w1 & w2 & w3 & w4 & w' & l' & p & y & us' & E1 & E2 & E3 & E4 & E5 & -> & REP' & S & FU)|(w' & r & E1 & ST & RF & REP' & S)].
    - rewrite (bind_ok _ _ _ _ _ E1). change (st_success ST_SUCCESS) with true. cbn [negb].
      rewrite (bind_ok _ _ _ _ _ E2), (bind_ok _ _ _ _ _ E3). change (l_esz (put_unused l un)) with (l_esz l). rewrite EE.
      rewrite (bind_ok _ _ _ _ _ E4), (bind_ok _ _ _ _ _ E5). do 7 eexists. split; [reflexivity|]. split; [left; eauto|]. split; [eauto|]. split; [eauto|]. cbn. eauto.
    - rewrite (bind_ok _ _ _ _ _ E1). rewrite ST. cbn [negb]. do 7 eexists. split; [reflexivity|]. split; [right; eauto|]. split; [eauto|]. split; [eauto|]. now rewrite ST.
  Qed.
  Lemma push_front_ok w l ps xs us q x : lrep w l ps xs us -> nlen xs + 1 < W64 -> outside q x ->
    exists w' l' r ps' us' xs' new, lpush_front l (Some q) w = Ok (r, l') w' /\
      added limit (fails w) xs (x :: xs) x r xs' new /\ lrep w' l' ps' xs' us' /\ step w w' [] /\
      (if st_success r then exists p, ps' = p :: ps else ps' = ps).
  Proof.
    intros REP SW O. pose proof REP as (_ & (EE & _) & _). unfold lpush_front. cbn [nonnull negb].
    destruct (add_front_ok _ _ w l ps xs us (copy_writer q x O) REP SW)
      as [(un & w1 & w2 & w3 & w4 & w' & l' & p & y & us' & E1 & E2 & E3 & E4 & E5 & -> & REP' & S & FU)|(w' & r & E1 & ST & RF & REP' & S)].
    - rewrite (bind_ok _ _ _ _ _ E1). change (st_success ST_SUCCESS) with true. cbn [negb].
      rewrite (bind_ok _ _ _ _ _ E2), (bind_ok _ _ _ _ _ E3). change (l_esz (put_unused l un)) with (l_esz l). rewrite EE.
      rewrite (bind_ok _ _ _ _ _ E4), (bind_ok _ _ _ _ _ E5). do 7 eexists. split; [reflexivity|]. split; [left; eauto|]. split; [eauto|]. split; [eauto|]. cbn. eauto.
    - rewrite (bind_ok _ _ _ _ _ E1). rewrite ST. cbn [negb]. do 7 eexists. split; [reflexivity|]. split; [right; eauto|]. split; [eauto|]. split; [eauto|]. now rewrite ST.
  Qed.

  (** ** Changing the data of a node *)
  Lemma lrep_set w l ps1 p ps2 xs1 x xs2 us y w' lg pv nx : length ps1 = length xs1 ->
    lrep w l (ps1 ++ p :: ps2) (xs1 ++ x :: xs2) us -> pv = back None ps1 -> nx = front ps2 None ->
    chg w p (enc pv) (enc nx) y w' lg -> lrep w' l (ps1 ++ p :: ps2) (xs1 ++ y :: xs2) us.
  Proof.
    intros LE (WO & CF & SZ & SZW & HD & TL & CH & P) -> -> CG.
    split; [eapply chg_world_ok; eauto|]. split; [exact CF|]. split; [rewrite SZ, !nlen_app, !nlen_cons; reflexivity|].
    split; [rewrite !nlen_app, !nlen_cons in *; exact SZW|]. split; [exact HD|]. split; [exact TL|].
    pose proof (pool_clear_mid _ _ _ _ _ _ _ _ _ P) as (A1 & A2 & _). split.
    - apply chain_app in CH as (C1 & C2); [|exact LE]. cbn [ListHeap.chain] in C2. destruct C2 as [C2 C3].
      apply chain_app; [exact LE|]. split; [eapply wr_chain_clear; eauto|]. cbn [ListHeap.chain]. split; [eapply chg_reg; eauto|].
      eapply wr_chain_clear; eauto.
    - eapply pool_chg; [exact P| |exact CG]. apply in_or_app. right. now left.
  Qed.
  Lemma lrep_reg w l ps1 p ps2 xs1 x xs2 us : length ps1 = length xs1 ->
    lrep w l (ps1 ++ p :: ps2) (xs1 ++ x :: xs2) us -> reg (heap w) p (enc (back None ps1)) (enc (front ps2 None)) x.
  Proof.
    intros LE (WO & CF & SZ & SZW & HD & TL & CH & P). apply chain_app in CH as (C1 & C2); [|exact LE]. apply C2.
  Qed.
  Lemma lrep_length w l ps xs us : lrep w l ps xs us -> length ps = length xs.
  Proof. intros (_ & _ & _ & _ & _ & _ & CH & _). eapply chain_length; eauto. Qed.

  (** ** Emplacing *)
  Lemma emplace_back_ok w l ps xs us f s : lrep w l ps xs us -> nlen xs + 1 < W64 -> ctor_ok e f -> size_ok e s ->
    exists w' l' r ps' us' xs' new x, after_emplace (lemplace_back l f) s w = Ok (r, l') w' /\ emplaced e f s x /\
      added limit (fails w) xs (xs ++ [x]) x r xs' new /\ lrep w' l' ps' xs' us' /\ step w w' [] /\
      (if st_success r then exists p, ps' = ps ++ [p] else ps' = ps).
  Proof.
    intros REP SW CO SO. pose proof REP as (_ & (EE & _) & _). unfold after_emplace, lemplace_back.
    destruct (add_back_ok _ _ w l ps xs us (ctor_writer f CO) REP SW)
      as [(un & w1 & w2 & w3 & w4 & w' & l' & p & y & us' & E1 & E2 & E3 & E4 & E5 & (raw & LR & EY) & REP' & S & FU)|(w' & r & E1 & ST & RF & REP' & S)].
    - unfold bind at 1. rewrite (bind_ok _ _ _ _ _ E1). change (st_success ST_SUCCESS) with true. cbn [negb].
      rewrite (bind_ok _ _ _ _ _ E2), (bind_ok _ _ _ _ _ E3). change (l_esz (put_unused l un)) with (l_esz l). rewrite EE.
      rewrite (bind_ok _ _ _ _ _ E4), (bind_ok _ _ _ _ _ E5). unfold ret at 1. cbv beta iota.
      change (st_success ST_SUCCESS) with true. cbv iota. destruct s as [z|].
      + pose proof (lrep_reg _ _ _ _ _ _ _ _ _ (lrep_length _ _ _ _ _ REP) REP') as R'.
        destruct (data_write e w' p _ _ _ z R' SO) as (w'' & E6 & C6). cbn [store_item]. rewrite (bind_ok _ _ _ _ _ E6).
        exists w'', l', ST_SUCCESS, (ps ++ [p]), us', (xs ++ [z]), [z], z. split; [reflexivity|]. split; [reflexivity|].
        split; [left; eauto|]. split; [eapply lrep_set; eauto; eapply lrep_length; eauto|].
        split; [eapply (step_trans _ _ _ _ [] []); [exact S|]; apply quiet_step; apply C6|]. cbn. eauto.
      + exists w', l', ST_SUCCESS, (ps ++ [p]), us', (xs ++ [y]), [y], y. split; [reflexivity|]. split; [cbn; eauto|].
        split; [left; eauto|]. split; [exact REP'|]. split; [exact S|]. cbn. eauto.
    - unfold bind at 1. rewrite (bind_ok _ _ _ _ _ E1). rewrite ST. cbn [negb]. unfold ret at 1. cbv beta iota. rewrite ST.
      destruct (nsplit_node e (repeat (CByte 0) (N.to_nat ns))) as (_ & _ & z & _ & _ & _ & LZ); [unfold nlen; rewrite repeat_length; lia|].
      set (zz := match s with Some y => y | None => match f with Some f => f z | None => z end end).
      exists w', l, r, ps, us, xs, [], zz. split; [reflexivity|]. split; [subst zz; destruct s; cbn; eauto|]. split; [right; eauto|]. split; [eauto|]. split; [eauto|]. now rewrite ST.
  Qed.
  Lemma emplace_front_ok w l ps xs us f s : lrep w l ps xs us -> nlen xs + 1 < W64 -> ctor_ok e f -> size_ok e s ->
    exists w' l' r ps' us' xs' new x, after_emplace (lemplace_front l f) s w = Ok (r, l') w' /\ emplaced e f s x /\
      added limit (fails w) xs (x :: xs) x r xs' new /\ lrep w' l' ps' xs' us' /\ step w w' [] /\
      (if st_success r then exists p, ps' = p :: ps else ps' = ps).
  Proof.
    intros REP SW CO SO. pose proof REP as (_ & (EE & _) & _). unfold after_emplace, lemplace_front.
    destruct (add_front_ok _ _ w l ps xs us (ctor_writer f CO) REP SW)
      as [(un & w1 & w2 & w3 & w4 & w' & l' & p & y & us' & E1 & E2 & E3 & E4 & E5 & (raw & LR & EY) & REP' & S & FU)|(w' & r & E1 & ST & RF & REP' & S)].
    - unfold bind at 1. rewrite (bind_ok _ _ _ _ _ E1). change (st_success ST_SUCCESS) with true. cbn [negb].
      rewrite (bind_ok _ _ _ _ _ E2), (bind_ok _ _ _ _ _ E3). change (l_esz (put_unused l un)) with (l_esz l). rewrite EE.
      rewrite (bind_ok _ _ _ _ _ E4), (bind_ok _ _ _ _ _ E5). unfold ret at 1. cbv beta iota.
      change (st_success ST_SUCCESS) with true. cbv iota. destruct s as [z|].
      + pose proof (lrep_reg w' l' [] p ps [] y xs us' eq_refl REP') as R'.
        destruct (data_write e w' p _ _ _ z R' SO) as (w'' & E6 & C6). cbn [store_item]. rewrite (bind_ok _ _ _ _ _ E6).
        exists w'', l', ST_SUCCESS, (p :: ps), us', (z :: xs), [z], z. split; [reflexivity|]. split; [reflexivity|].
        split; [left; eauto|]. split; [eapply (lrep_set w' l' [] p ps [] y xs); eauto|].
        split; [eapply (step_trans _ _ _ _ [] []); [exact S|]; apply quiet_step; apply C6|]. cbn. eauto.
      + exists w', l', ST_SUCCESS, (p :: ps), us', (y :: xs), [y], y. split; [reflexivity|]. split; [cbn; eauto|].
        split; [left; eauto|]. split; [exact REP'|]. split; [exact S|]. cbn. eauto.
    - unfold bind at 1. rewrite (bind_ok _ _ _ _ _ E1). rewrite ST. cbn [negb]. unfold ret at 1. cbv beta iota. rewrite ST.
      destruct (nsplit_node e (repeat (CByte 0) (N.to_nat ns))) as (_ & _ & z & _ & _ & _ & LZ); [unfold nlen; rewrite repeat_length; lia|].
      set (zz := match s with Some y => y | None => match f with Some f => f z | None => z end end).
      exists w', l, r, ps, us, xs, [], zz. split; [reflexivity|]. split; [subst zz; destruct s; cbn; eauto|]. split; [right; eauto|]. split; [eauto|]. split; [eauto|]. now rewrite ST.
  Qed.
End Ops.

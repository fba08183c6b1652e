(** C77 for lists: the data of a node passed to a call on the same list. *)
From Coq Require Import Permutation.
From Verif Require Import Base NListFacts Status Mem MemFacts VectorModel VectorDriver ListModel ListSpec ListDriver ListHeap
  ListRep ListProofs ListProofs2 ListFinal ListFinal2.
From Coq Require Import ZifyBool ZifyNat ZifyN.
Implicit Types (w : world) (h : memory) (p q : ptr) (x : list cell).

Section OwnData.
  Variables (e : N) (d : option (list cell -> list cell)) (m : mode) (base : memory).
  Notation ns := (16 + e).
  Notation reg := (reg e).
  Notation chg := (chg e).
  Notation chain := (chain e).
  Notation pool := (pool e m base).
  Notation conf := (conf e d m).
  Notation step := (step m).
  Notation limit := (limit_of e m).
  Notation lrep := (lrep e d m base).

  Lemma data_copy_own w p r1 r2 x q s1 s2 y : reg (heap w) p r1 r2 x -> reg (heap w) q s1 s2 y -> sep p ns q ns ->
    exists w', memcpy (node_data (Some p)) (node_data (Some q)) e w = Ok tt w' /\ chg w p r1 r2 y w' [].
  Proof.
    intros R RQ SP. destruct (data_write e w p r1 r2 x y R ltac:(apply RQ)) as (w' & E & C). exists w'. split; [|exact C].
    unfold memcpy.
    match goal with |- context [overlap ?a ?b ?c] => replace (overlap a b c) with false end.
    2:{ unfold node_data, overlap. cbn [padd pb po]. unfold sep in SP. unfold NODE_SIZE. lia. }
    unfold memmove. rewrite (bind_ok _ _ _ _ _ (data_read e w q s1 s2 y RQ)). exact E.
  Qed.

  (** A callback that fills in the data of a new node of the list with the nodes [ps]. *)
  Definition writer_on (ps : list ptr) (xs : list (list cell)) (W : option ptr -> Mem.M cell unit) (good : list cell -> Prop) : Prop :=
    forall w un p us r1 r2 x, pool (heap w) un (p :: ps) us -> reg (heap w) p r1 r2 x -> chain (heap w) None ps xs None ->
      exists w' y, W (Some p) w = Ok tt w' /\ chg w p r1 r2 y w' [] /\ good y.
  Lemma prepare_on w un p ps us r1 r2 x pv nx W good xs : writer_on ps xs W good -> world_ok w ->
    pool (heap w) un (p :: ps) us -> reg (heap w) p r1 r2 x -> chain (heap w) None ps xs None ->
    exists w1 w2 w3 y, set_prev (Some p) pv w = Ok tt w1 /\ set_next (Some p) nx w1 = Ok tt w2 /\ W (Some p) w2 = Ok tt w3 /\
      good y /\ world_ok w3 /\ pool (heap w3) un (p :: ps) us /\ reg (heap w3) p (enc pv) (enc nx) y /\
      chain (heap w3) None ps xs None /\ step w w3 [].
  Proof.
    intros WW WO P R CH. destruct (set_prev_ok e w p r1 r2 x pv R) as (w1 & E1 & C1).
    pose proof (pool_chg _ _ _ _ _ _ _ _ _ _ _ _ _ P (or_introl eq_refl) C1) as P1.
    pose proof (chg_reg _ _ _ _ _ _ _ _ C1) as R1.
    destruct (set_next_ok e w1 p _ _ _ nx R1) as (w2 & E2 & C2).
    pose proof (pool_chg _ _ _ _ _ _ _ _ _ _ _ _ _ P1 (or_introl eq_refl) C2) as P2.
    pose proof (chg_reg _ _ _ _ _ _ _ _ C2) as R2.
    assert (C12 := chg_trans _ _ _ _ _ _ _ _ _ _ _ _ _ C1 C2). cbn in C12.
    assert (CH2 : chain (heap w2) None ps xs None) by (eapply chain_chg_head; eauto).
    destruct (WW w2 un p us _ _ _ P2 R2 CH2) as (w3 & y & E3 & C3 & G).
    pose proof (pool_chg _ _ _ _ _ _ _ _ _ _ _ _ _ P2 (or_introl eq_refl) C3) as P3.
    exists w1, w2, w3, y. split; [exact E1|]. split; [exact E2|]. split; [exact E3|]. split; [exact G|].
    pose proof (chg_trans _ _ _ _ _ _ _ _ _ _ _ _ _ C12 C3) as C13.
    cbn in C13. split; [eapply chg_world_ok; eauto|]. split; [exact P3|]. split; [eapply chg_reg; eauto|].
    split; [|apply quiet_step; apply C13]. eapply chain_chg_head; eauto.
  Qed.
  Lemma add_back_on W good w l ps xs us : writer_on ps xs W good -> lrep w l ps xs us -> nlen xs + 1 < W64 ->
    (exists un w1 w2 w3 w4 w' l' p y us', lalloc_node l w = Ok (ST_SUCCESS, put_unused l un, Some p) w1 /\
       set_prev (Some p) (l_tail l) w1 = Ok tt w2 /\ set_next (Some p) None w2 = Ok tt w3 /\ W (Some p) w3 = Ok tt w4 /\
       link_back (put_unused l un) (Some p) w4 = Ok l' w' /\ good y /\ lrep w' l' (ps ++ [p]) (xs ++ [y]) us' /\ step w w' [] /\
       full limit (nlen xs) = false) \/
    (exists w' r, lalloc_node l w = Ok (r, l, None) w' /\ st_success r = false /\ refusal limit (fails w) (nlen xs) r /\
       lrep w' l ps xs us /\ step w w' []).
  Proof.
    intros WW REP SW. pose proof REP as (WO & CF & SZ & SZW & HD & TL & CH & P). pose proof (chain_nlen _ _ _ _ _ _ CH) as LP.
    destruct (alloc_ok e d m base w l ps us CF WO P) as [(w1 & un & p & us' & r1 & r2 & x & E & WO1 & P1 & R1 & KC & S1 & FU)|(w1 & r & E & ST & RF & HE & NB & S1)];
      [congruence|lia| |].
    - left. destruct (prepare_on w1 un p ps us' r1 r2 x (l_tail l) None W good xs WW WO1 P1 R1 (KC _ _ CH))
        as (w2 & w3 & w4 & y & E2 & E3 & E4 & G & WO4 & P4 & R4 & CH4 & S4).
      rewrite TL in R4. destruct (link_back_ok e d m base w4 (put_unused l un) p ps xs us' y) as (w' & l' & EL & REP' & SL); auto.
      exists un, w1, w2, w3, w4, w', l', p, y, us'. repeat (split; [assumption|]).
      split; [|congruence].
      pose proof (step_trans _ _ _ _ _ _ S1 (step_trans _ _ _ _ _ _ S4 SL)) as SS. exact SS.
    - right. exists w1, r. split; [exact E|]. split; [exact ST|]. split; [congruence|]. split; [|exact S1].
      eapply lrep_same; eauto.
  Qed.
  Lemma add_front_on W good w l ps xs us : writer_on ps xs W good -> lrep w l ps xs us -> nlen xs + 1 < W64 ->
    (exists un w1 w2 w3 w4 w' l' p y us', lalloc_node l w = Ok (ST_SUCCESS, put_unused l un, Some p) w1 /\
       set_prev (Some p) None w1 = Ok tt w2 /\ set_next (Some p) (l_head l) w2 = Ok tt w3 /\ W (Some p) w3 = Ok tt w4 /\
       link_front (put_unused l un) (Some p) w4 = Ok l' w' /\ good y /\ lrep w' l' (p :: ps) (y :: xs) us' /\ step w w' [] /\
       full limit (nlen xs) = false) \/
    (exists w' r, lalloc_node l w = Ok (r, l, None) w' /\ st_success r = false /\ refusal limit (fails w) (nlen xs) r /\
       lrep w' l ps xs us /\ step w w' []).
  Proof.
    intros WW REP SW. pose proof REP as (WO & CF & SZ & SZW & HD & TL & CH & P). pose proof (chain_nlen _ _ _ _ _ _ CH) as LP.
    destruct (alloc_ok e d m base w l ps us CF WO P) as [(w1 & un & p & us' & r1 & r2 & x & E & WO1 & P1 & R1 & KC & S1 & FU)|(w1 & r & E & ST & RF & HE & NB & S1)];
      [congruence|lia| |].
    - left. destruct (prepare_on w1 un p ps us' r1 r2 x None (l_head l) W good xs WW WO1 P1 R1 (KC _ _ CH))
        as (w2 & w3 & w4 & y & E2 & E3 & E4 & G & WO4 & P4 & R4 & CH4 & S4).
      rewrite HD in R4. destruct (link_front_ok e d m base w4 (put_unused l un) p ps xs us' y) as (w' & l' & EL & REP' & SL); auto.
      exists un, w1, w2, w3, w4, w', l', p, y, us'. repeat (split; [assumption|]).
      split; [|congruence].
      pose proof (step_trans _ _ _ _ _ _ S1 (step_trans _ _ _ _ _ _ S4 SL)) as SS. exact SS.
    - right. exists w1, r. split; [exact E|]. split; [exact ST|]. split; [congruence|]. split; [|exact S1].
      eapply lrep_same; eauto.
  Qed.

  (** The [j]-th node. *)
  Lemma chain_at h ps xs j q x : chain h None ps xs None -> nnth j ps = Some q -> nnth j xs = Some x ->
    In q ps /\ exists s1 s2, reg h q s1 s2 x.
  Proof.
    intros CH NP NX.
    assert (G : forall (ps : list ptr) xs pv k, chain h pv ps xs None -> nth_error ps k = Some q -> nth_error xs k = Some x ->
      In q ps /\ exists s1 s2, reg h q s1 s2 x).
    { clear. induction ps as [|p ps IH]; intros [|z zs] pv [|k] C A B; try discriminate; cbn in A, B.
      - injection A as ->. injection B as ->. destruct C as [C _]. split; [now left|eauto].
      - destruct C as [_ C]. destruct (IH _ _ _ C A B) as [I R]. split; [now right|exact R]. }
    apply (G ps xs None (N.to_nat j) CH); [exact NP|exact NX].
  Qed.
  Lemma own_writer ps xs j q x : nnth j ps = Some q -> nnth j xs = Some x ->
    writer_on ps xs (fun p : option ptr => memcpy (node_data p) (node_data (Some q)) e) (fun y => y = x).
  Proof.
    intros NP NX w un p us r1 r2 x0 P R CH. destruct (chain_at _ _ _ _ _ _ CH NP NX) as (IQ & s1 & s2 & RQ).
    destruct (data_copy_own w p r1 r2 x0 q s1 s2 x R RQ) as (w' & E & C).
    { apply pool_clear in P. apply P. apply in_or_app. now left. }
    now exists w', x.
  Qed.
  Lemma nd_some q : node_data (Some q) = Some (mkptr (pb q) (po q + NODE_SIZE)).
  Proof. reflexivity. Qed.

  Lemma push_back_own w l ps xs us j q x : lrep w l ps xs us -> nlen xs + 1 < W64 -> nnth j ps = Some q -> nnth j xs = Some x ->
    exists w' l' r ps' us' xs' new, lpush_back l (node_data (Some q)) w = Ok (r, l') w' /\
      added limit (fails w) xs (xs ++ [x]) x r xs' new /\ lrep w' l' ps' xs' us' /\ step w w' [] /\
      (if st_success r then exists p, ps' = ps ++ [p] else ps' = ps).
  Proof.
    intros REP SW NP NX. pose proof REP as (_ & (EE & _) & _). unfold lpush_back. change (negb (nonnull (node_data (Some q)))) with false. cbv iota.
    destruct (add_back_on _ _ w l ps xs us (own_writer ps xs j q x NP NX) REP SW)
      as [(un & w1 & w2 & w3 & w4 & w' & l' & p & y & us' & E1 & E2 & E3 & E4 & E5 & -> & REP' & S & FU)|(w' & r & E1 & ST & RF & REP' & S)].
    - rewrite (bind_ok _ _ _ _ _ E1). change (st_success ST_SUCCESS) with true. cbn [negb].
      rewrite (bind_ok _ _ _ _ _ E2), (bind_ok _ _ _ _ _ E3). change (l_esz (put_unused l un)) with (l_esz l). rewrite EE.
      rewrite (bind_ok _ _ _ _ _ E4), (bind_ok _ _ _ _ _ E5). do 7 eexists. split; [reflexivity|]. split; [left; eauto|]. split; [eauto|]. split; [eauto|]. cbn. eauto.
    - rewrite (bind_ok _ _ _ _ _ E1). rewrite ST. cbn [negb]. do 7 eexists. split; [reflexivity|]. split; [right; eauto|]. split; [eauto|]. split; [eauto|]. now rewrite ST.
  Qed.
  Lemma push_front_own w l ps xs us j q x : lrep w l ps xs us -> nlen xs + 1 < W64 -> nnth j ps = Some q -> nnth j xs = Some x ->
    exists w' l' r ps' us' xs' new, lpush_front l (node_data (Some q)) w = Ok (r, l') w' /\
      added limit (fails w) xs (x :: xs) x r xs' new /\ lrep w' l' ps' xs' us' /\ step w w' [] /\
      (if st_success r then exists p, ps' = p :: ps else ps' = ps).
  Proof.
    intros REP SW NP NX. pose proof REP as (_ & (EE & _) & _). unfold lpush_front. change (negb (nonnull (node_data (Some q)))) with false. cbv iota.
    destruct (add_front_on _ _ w l ps xs us (own_writer ps xs j q x NP NX) REP SW)
      as [(un & w1 & w2 & w3 & w4 & w' & l' & p & y & us' & E1 & E2 & E3 & E4 & E5 & -> & REP' & S & FU)|(w' & r & E1 & ST & RF & REP' & S)].
    - rewrite (bind_ok _ _ _ _ _ E1). change (st_success ST_SUCCESS) with true. cbn [negb].
      rewrite (bind_ok _ _ _ _ _ E2), (bind_ok _ _ _ _ _ E3). change (l_esz (put_unused l un)) with (l_esz l). rewrite EE.
      rewrite (bind_ok _ _ _ _ _ E4), (bind_ok _ _ _ _ _ E5). do 7 eexists. split; [reflexivity|]. split; [left; eauto|]. split; [eauto|]. split; [eauto|]. cbn. eauto.
    - rewrite (bind_ok _ _ _ _ _ E1). rewrite ST. cbn [negb]. do 7 eexists. split; [reflexivity|]. split; [right; eauto|]. split; [eauto|]. split; [eauto|]. now rewrite ST.
  Qed.
  Lemma grow_own n j q x : forall w l ps xs us, lrep w l ps xs us -> nlen xs + N.of_nat n < W64 ->
    nnth j ps = Some q -> nnth j xs = Some x ->
    exists w' l' r qs us' new, grow_loop l (node_data (Some q)) n w = Ok (r, l') w' /\ lrep w' l' (ps ++ qs) (xs ++ new) us' /\ step w w' [] /\
      Forall (fun y => y = x) new /\
      ((nlen new = N.of_nat n /\ r = ST_SUCCESS /\ (n <> 0%nat -> full limit (nlen xs + N.of_nat n - 1) = false)) \/
       (nlen new < N.of_nat n /\ refusal limit (fails w) (nlen xs + nlen new) r)).
  Proof.
    induction n as [|n IH]; intros w l ps xs us REP SW NP NX.
    - exists w, l, ST_SUCCESS, [], us, []. split; [reflexivity|]. rewrite !app_nil_r. split; [exact REP|]. split; [apply step_refl|].
      split; [constructor|]. left. split; [reflexivity|]. split; [reflexivity|]. congruence.
    - pose proof REP as (_ & (EE & _) & _). cbn [grow_loop].
      assert (SW1 : nlen xs + 1 < W64) by lia.
      destruct (add_back_on _ _ w l ps xs us (own_writer ps xs j q x NP NX) REP SW1)
        as [(un & w1 & w2 & w3 & w4 & w' & l' & p & y & us' & E1 & E2 & E3 & E4 & E5 & G & REP' & S & FU)|(w' & r & E1 & ST & RF & REP' & S)].
      + rewrite (bind_ok _ _ _ _ _ E1). change (st_success ST_SUCCESS) with true. cbn [negb].
        rewrite (bind_ok _ _ _ _ _ E2), (bind_ok _ _ _ _ _ E3). change (l_esz (put_unused l un)) with (l_esz l).
        rewrite EE. change (nonnull (node_data (Some q))) with true. cbv iota.
        rewrite (bind_ok _ _ _ _ _ E4), (bind_ok _ _ _ _ _ E5).
        destruct (IH w' l' (ps ++ [p]) (xs ++ [y]) us' REP') as (w5 & l5 & r5 & ps5 & us5 & new & E6 & REP5 & S5 & G5 & RES).
        { rewrite nlen_app. change (nlen [y]) with 1. lia. }
        { rewrite nnth_app1; [exact NP|]. eapply nnth_lt; eauto. }
        { rewrite nnth_app1; [exact NX|]. eapply nnth_lt; eauto. }
        exists w5, l5, r5, ([p] ++ ps5), us5, ([y] ++ new). split; [exact E6|]. rewrite !app_assoc. split; [exact REP5|].
        split; [exact (step_trans m _ _ _ _ _ S S5)|]. split; [constructor; auto|].
        rewrite (nlen_app [y] new). rewrite nlen_app in RES. change (nlen [y]) with 1 in *.
        destruct RES as [(L & -> & FU')|(L & RF)].
        * left. split; [lia|]. split; [reflexivity|]. intros _. destruct n as [|n]; [cbn; rewrite N.add_sub; exact FU|].
          rewrite <- FU' by discriminate. f_equal. lia.
        * right. split; [lia|]. rewrite N.add_assoc. eapply refusal_fails; [|exact RF]. eapply fails_step; eauto.
      + rewrite (bind_ok _ _ _ _ _ E1). rewrite ST. cbn [negb]. exists w', l, r, [], us, []. split; [reflexivity|].
        rewrite !app_nil_r. split; [exact REP'|]. split; [exact S|]. split; [constructor|]. right. change (nlen (@nil (list cell))) with 0.
        rewrite N.add_0_r. split; [lia|exact RF].
  Qed.

  (** SetNodeData *)
  Lemma set_data_own w l ps1 p ps2 xs1 y xs2 us q x j : length ps1 = length xs1 ->
    lrep w l (ps1 ++ p :: ps2) (xs1 ++ y :: xs2) us -> nnth j (ps1 ++ p :: ps2) = Some q -> nnth j (xs1 ++ y :: xs2) = Some x -> q <> p ->
    exists w', lset_node_data l (Some p) (node_data (Some q)) w = Ok ST_SUCCESS w' /\ lrep w' l (ps1 ++ p :: ps2) (xs1 ++ x :: xs2) us /\
      step w w' (seen d [y]).
  Proof.
    intros LE REP NP NX NE. pose proof REP as (WO & CF & SZ & SZW & HD & TL & CH & P).
    pose proof (lrep_reg _ _ _ _ _ _ _ _ _ _ _ _ _ LE REP) as R.
    destruct (destroy_node_ok e d m w l p _ _ _ CF R) as (w1 & y' & E1 & C1).
    pose proof (lrep_set _ _ _ _ _ _ _ _ _ _ _ _ _ _ _ _ _ _ LE REP eq_refl eq_refl C1) as REP1.
    pose proof (lrep_reg _ _ _ _ _ _ _ _ _ _ _ _ _ LE REP1) as R1.
    pose proof REP1 as (_ & _ & _ & _ & _ & _ & CH1 & P1).
    destruct (chain_at _ _ _ _ _ _ CH NP NX) as (IQ & s1 & s2 & RQ).
    assert (SP : sep p ns q ns).
    { eapply pool_sep; [exact P| | |congruence]; apply in_or_app; left; [apply in_or_app; right; now left|exact IQ]. }
    assert (RQ1 : reg (heap w1) q s1 s2 x) by (eapply reg_keeps; [apply C1|eapply chg_len; eauto|exact SP|exact RQ]).
    destruct (data_copy_own w1 p _ _ _ q _ _ x R1 RQ1 SP) as (w2 & E2 & C2).
    pose proof (lrep_set _ _ _ _ _ _ _ _ _ _ _ _ _ _ _ _ _ _ LE REP1 eq_refl eq_refl C2) as REP2.
    exists w2. split; [|split; [exact REP2|]].
    - unfold lset_node_data. change (negb (nonnull (Some p)) || negb (nonnull (node_data (Some q)))) with false. cbv iota. rewrite (bind_ok _ _ _ _ _ E1). destruct CF as (EE & _ & _ & E0 & _).
      rewrite EE. replace (negb (e =? 0)) with true by lia. unfold assert. unfold bind at 1. unfold ret at 1. cbv beta iota.
      rewrite (bind_ok _ _ _ _ _ E2). reflexivity.
    - pose proof (step_trans m _ _ _ _ _ (quiet_step m _ _ _ (proj1 (proj2 C1))) (quiet_step m _ _ _ (proj1 (proj2 C2)))) as SS.
      now rewrite app_nil_r in SS.
  Qed.
  Lemma set_data_same w l ps1 p ps2 xs1 y xs2 us : length ps1 = length xs1 ->
    lrep w l (ps1 ++ p :: ps2) (xs1 ++ y :: xs2) us ->
    lset_node_data l (Some p) (node_data (Some p)) w = Fault Overlapping.
  Proof.
    intros LE REP. pose proof REP as (WO & CF & _).
    pose proof (lrep_reg _ _ _ _ _ _ _ _ _ _ _ _ _ LE REP) as R.
    destruct (destroy_node_ok e d m w l p _ _ _ CF R) as (w1 & y' & E1 & C1).
    unfold lset_node_data. change (negb (nonnull (Some p)) || negb (nonnull (node_data (Some p)))) with false. cbv iota. rewrite (bind_ok _ _ _ _ _ E1). destruct CF as (EE & _ & _ & E0 & _).
    rewrite EE. replace (negb (e =? 0)) with true by lia. unfold assert. unfold bind at 1. unfold ret at 1. cbv beta iota.
    unfold bind, memcpy.
    match goal with |- context [overlap ?a ?b ?c] => replace (overlap a b c) with true end; [reflexivity|].
    rewrite nd_some. unfold overlap. cbn [pb po]. rewrite N.eqb_refl. lia.
  Qed.
End OwnData.

(** ** In reached states *)
Lemma reached_push_back limit w l ps xs j q x : lreached limit w l xs -> lshows w l ps xs -> nlen xs + 1 < W64 ->
  nnth j ps = Some q -> nnth j xs = Some x ->
  exists r l' w' ps' xs' new, lpush_back l (lget_node_data (Some q)) w = Ok (r, l') w' /\
    added limit (fails w) xs (xs ++ [x]) x r xs' new /\ lshows w' l' ps' xs' /\ (exists qs, ps' = ps ++ qs).
Proof.
  intros RE SH SW NP NX. destruct (reached_rep _ _ _ _ RE) as (e & d & m & base & ps0 & us & -> & REP).
  destruct (shows_unique _ _ _ _ _ _ SH (lrep_shows _ _ _ _ _ _ _ _ _ REP)) as [-> _].
  destruct (push_back_own e d m base w l ps0 xs us j q x REP SW NP NX) as (w' & l' & r & ps' & us' & xs' & new & E & A & REP' & _ & PS).
  exists r, l', w', ps', xs', new. split; [exact E|]. split; [exact A|]. split; [eapply lrep_shows; eauto|].
  destruct (st_success r); [destruct PS as [p ->]; now exists [p]|subst ps'; exists []; now rewrite app_nil_r].
Qed.
Lemma reached_push_front limit w l ps xs j q x : lreached limit w l xs -> lshows w l ps xs -> nlen xs + 1 < W64 ->
  nnth j ps = Some q -> nnth j xs = Some x ->
  exists r l' w' ps' xs' new, lpush_front l (lget_node_data (Some q)) w = Ok (r, l') w' /\
    added limit (fails w) xs (x :: xs) x r xs' new /\ lshows w' l' ps' xs' /\ (exists qs, ps' = qs ++ ps).
Proof.
  intros RE SH SW NP NX. destruct (reached_rep _ _ _ _ RE) as (e & d & m & base & ps0 & us & -> & REP).
  destruct (shows_unique _ _ _ _ _ _ SH (lrep_shows _ _ _ _ _ _ _ _ _ REP)) as [-> _].
  destruct (push_front_own e d m base w l ps0 xs us j q x REP SW NP NX) as (w' & l' & r & ps' & us' & xs' & new & E & A & REP' & _ & PS).
  exists r, l', w', ps', xs', new. split; [exact E|]. split; [exact A|]. split; [eapply lrep_shows; eauto|].
  destruct (st_success r); [destruct PS as [p ->]; now exists [p]|subst ps'; now exists []].
Qed.
Lemma reached_resize limit w l ps xs j q x n : lreached limit w l xs -> lshows w l ps xs -> nlen xs < n -> n < W64 ->
  nnth j ps = Some q -> nnth j xs = Some x ->
  exists r l' w' ps' xs' gone new, lresize_ex l n (lget_node_data (Some q)) w = Ok (r, l') w' /\
    lspec (l_esz l) limit (fails w) (LResize n (Some x)) xs r xs' gone new /\ lshows w' l' ps' xs' /\ (exists qs, ps' = ps ++ qs).
Proof.
  intros RE SH L NW NP NX. destruct (reached_rep _ _ _ _ RE) as (e & d & m & base & ps0 & us & -> & REP).
  destruct (shows_unique _ _ _ _ _ _ SH (lrep_shows _ _ _ _ _ _ _ _ _ REP)) as [-> _].
  pose proof REP as (_ & _ & SZ & _).
  destruct (grow_own e d m base (N.to_nat (n - nlen xs)) j q x w l ps0 xs us REP ltac:(lia) NP NX)
    as (w' & l' & r & qs & us' & new & E & REP' & _ & F & RES).
  exists r, l', w', (ps0 ++ qs), (xs ++ new), [], new. split.
  - unfold lresize_ex. rewrite SZ. replace (n =? nlen xs) with false by lia. replace (n =? 0) with false by lia.
    replace (nlen xs <? n) with true by lia. exact E.
  - split; [|split; [eapply lrep_shows; eauto|now exists qs]]. cbn [lspec].
    replace (n =? 0) with false by lia. replace (n <=? nlen xs) with false by lia.
    split; [reflexivity|]. split; [reflexivity|]. split; [exact F|]. rewrite nlen_app.
    replace (nlen xs + N.of_nat (N.to_nat (n - nlen xs))) with n in RES by lia.
    destruct RES as [(A & B & D)|(A & B)]; [left|right].
    + split; [lia|]. split; [exact B|]. apply D. lia.
    + split; [lia|exact B].
Qed.
Lemma split_two {A B} (ps : list A) (xs : list B) i (p : A) (y : B) : length ps = length xs -> nnth i ps = Some p -> nnth i xs = Some y ->
  exists ps1 ps2 xs1 xs2, ps = ps1 ++ p :: ps2 /\ xs = xs1 ++ y :: xs2 /\ length ps1 = length xs1 /\
    xs1 = nfirst i xs /\ xs2 = nskip (i + 1) xs.
Proof.
  intros LE NP NX. apply nth_error_split in NP as (ps1 & ps2 & -> & L1). apply nth_error_split in NX as (xs1 & xs2 & -> & L2).
  exists ps1, ps2, xs1, xs2. split; [reflexivity|]. split; [reflexivity|]. split; [lia|]. unfold nfirst, nskip. split.
  - rewrite <- L2. rewrite firstn_app, firstn_all, Nat.sub_diag. cbn. now rewrite app_nil_r.
  - replace (N.to_nat (i + 1)) with (length xs1 + 1)%nat by lia. rewrite skipn_app, skipn_all2 by lia.
    replace (length xs1 + 1 - length xs1)%nat with 1%nat by lia. reflexivity.
Qed.
Lemma reached_set limit w l ps xs i j p q x y : lreached limit w l xs -> lshows w l ps xs -> i <> j ->
  nnth i ps = Some p -> nnth i xs = Some y -> nnth j ps = Some q -> nnth j xs = Some x ->
  exists w', lset_node_data l (Some p) (lget_node_data (Some q)) w = Ok ST_SUCCESS w' /\
    lshows w' l ps (nfirst i xs ++ [x] ++ nskip (i + 1) xs) /\ dlog w' = dlog w ++ seen (l_dtor l) [y].
Proof.
  intros RE SH NE NP NY NQ NX. destruct (reached_rep _ _ _ _ RE) as (e & d & m & base & ps0 & us & -> & REP).
  destruct (shows_unique _ _ _ _ _ _ SH (lrep_shows _ _ _ _ _ _ _ _ _ REP)) as [-> _].
  pose proof REP as (_ & CF & _ & _ & _ & _ & CH & P). pose proof (chain_length _ _ _ _ _ _ CH) as LL.
  assert (QP : q <> p).
  { intros ->. apply pool_nodup in P. apply NoDup_app_remove_r in P. apply NE.
    assert (N.to_nat i = N.to_nat j); [|lia].
    eapply NoDup_nth_error; [exact P| |]; [|unfold nnth in *; congruence]. apply nth_error_Some. unfold nnth in NP. congruence. }
  destruct (split_two _ _ _ _ _ LL NP NY) as (ps1 & ps2 & xs1 & xs2 & E1 & E2 & L1 & F1 & F2).
  rewrite E1, E2 in REP. rewrite E1 in NQ. rewrite E2 in NX.
  destruct (set_data_own e d m base w l ps1 p ps2 xs1 y xs2 us q x j L1 REP NQ NX QP) as (w' & E & REP' & S).
  exists w'. split; [exact E|]. destruct CF as (_ & DE & _). rewrite DE. split; [|apply S].
  rewrite E1, <- F1, <- F2. cbn [app]. eapply lrep_shows; eauto.
Qed.
Lemma reached_set_same limit w l ps xs p : lreached limit w l xs -> lshows w l ps xs -> In p ps ->
  lset_node_data l (Some p) (lget_node_data (Some p)) w = Fault Overlapping.
Proof.
  intros RE SH IP. destruct (reached_rep _ _ _ _ RE) as (e & d & m & base & ps0 & us & -> & REP).
  destruct (shows_unique _ _ _ _ _ _ SH (lrep_shows _ _ _ _ _ _ _ _ _ REP)) as [-> _].
  pose proof REP as (_ & _ & _ & _ & _ & _ & CH & _). pose proof (chain_length _ _ _ _ _ _ CH) as LL.
  apply In_nth_error in IP as [k K].
  assert (NP : nnth (N.of_nat k) ps0 = Some p) by (unfold nnth; now rewrite Nat2N.id).
  destruct (nth_error xs k) as [y|] eqn:Y.
  2:{ apply nth_error_None in Y. assert (nth_error ps0 k <> None) by congruence. apply nth_error_Some in H. lia. }
  assert (NY : nnth (N.of_nat k) xs = Some y) by (unfold nnth; now rewrite Nat2N.id).
  destruct (split_two _ _ _ _ _ LL NP NY) as (ps1 & ps2 & xs1 & xs2 & E1 & E2 & L1 & _).
  rewrite E1, E2 in REP. eapply set_data_same; eauto.
Qed.

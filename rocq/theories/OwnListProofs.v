(** Proofs about lists whose elements own memory. *)
From Coq Require Import Permutation.
From Verif Require Import Base NListFacts Status Mem MemFacts VectorModel VectorDriver ListModel ListSpec ListDriver ListHeap
  ListRep ListProofs ListProofs2 ListFinal OwnDriver OwnListModel OwnListDriver.
From Coq Require Import ZifyBool ZifyNat ZifyN.
Implicit Types (w : world) (h : memory) (p q : ptr).

Section OwnListProofs.
  Variables (e : N) (m : mode) (name : N -> list cell) (own : list cell -> N).
  Hypothesis NM : names_ok e name own.
  Notation lrep := (lrep e None m).
  Notation pool := (pool e m).
  Notation conf := (conf e None m).
  Notation chain := (chain e).
  Notation reg := (reg e).
  Notation step := (step m).
  Notation limit := (limit_of e m).
  Notation d := (release e own).
  Implicit Types (os : list (N * list cell)) (base : memory).
  Definition elems os : list (list cell) := map (fun o => name (fst o)) os.
  Definition apart (k : N) : Prop := match m with Grow => True | Fixed b _ _ _ => k <> b end.
  (** The objects exist in [base], apart from each other. *)
  Definition objs base os : Prop := NoDup (map fst os) /\ Forall (fun o => base (fst o) = Some (snd o) /\ apart (fst o)) os.

  (** A block that is no node. *)
  Lemma pool_block base h un ps us k v : pool base h un ps us -> (forall q, In q (ps ++ us) -> pb q <> k) -> apart k ->
    pool (hset base k v) (hset h k v) un ps us.
  Proof.
    intros P A B. unfold ListRep.pool in *. unfold apart in B. destruct m as [|b pre post cap].
    - destruct P as (P1 & -> & P3 & P4 & P5). rewrite app_nil_r in A. split; [exact P1|]. split; [reflexivity|]. split; [exact P3|]. split.
      + intros p I. destruct (P4 p I) as (Q1 & Q2 & Q3). unfold hset. destruct (N.eqb_spec (pb p) k) as [E|E]; [now apply A in E|]. auto.
      + intros j NI. unfold hset. destruct (N.eqb_spec j k); [reflexivity|now apply P5].
    - destruct P as (P1 & P2 & P3 & P4 & P5). split; [exact P1|]. split.
      { unfold hset. destruct (N.eqb_spec b k); [congruence|exact P2]. }
      split; [exact P3|]. split.
      + eapply free_heap; [|exact P4]. intros q I. unfold hset. destruct (N.eqb_spec (pb q) k) as [E|E]; [|reflexivity].
        apply A in E; [contradiction|]. apply in_or_app. now right.
      + intros j NJ. unfold hset. destruct (N.eqb_spec j k); [reflexivity|now apply P5].
  Qed.
  Lemma pool_away base h un ps us k : pool base h un ps us -> base k <> None -> apart k -> forall q, In q (ps ++ us) -> pb q <> k.
  Proof.
    intros P B A q I. unfold ListRep.pool in P. unfold apart in A. destruct m as [|b pre post cap].
    - destruct P as (_ & -> & _ & P4 & _). rewrite app_nil_r in I. destruct (P4 q I) as (_ & Q2 & _). intros E. congruence.
    - destruct P as (_ & _ & (n & K & P3) & _). assert (IS : In q (slots e b pre n)) by (eapply Permutation_in; eauto).
      destruct (slot_inside _ _ _ _ _ _ IS K) as (-> & _). congruence.
  Qed.
  Lemma pool_at base h un ps us k : pool base h un ps us -> base k <> None -> apart k -> h k = base k.
  Proof.
    intros P B A. pose proof (pool_away _ _ _ _ _ _ P B A) as AW. unfold ListRep.pool in P. unfold apart in A. destruct m as [|b pre post cap].
    - destruct P as (_ & -> & _ & _ & P5). apply P5. intros I. apply in_map_iff in I as (q & E & I). apply (AW q); [|exact E]. now rewrite app_nil_r.
    - destruct P as (_ & _ & _ & _ & P5). now apply P5.
  Qed.
  Lemma hset_chain h k v ps : (forall q, In q ps -> pb q <> k) -> forall pv xs nx, chain h pv ps xs nx -> chain (hset h k v) pv ps xs nx.
  Proof. intros A. apply chain_heap. intros q I. unfold hset. destruct (N.eqb_spec (pb q) k) as [E|E]; [now apply A in E|reflexivity]. Qed.

  (** The destructor at a node. *)
  Lemma release_node base w un ps us p r1 r2 b buf : world_ok w -> pool base (heap w) un ps us -> In p ps ->
    reg (heap w) p r1 r2 (name b) -> base b = Some buf -> apart b ->
    d (node_data (Some p)) w = Ok tt (dropw w b) /\ world_ok (dropw w b) /\ pool (hset base b None) (heap (dropw w b)) un ps us /\
    (forall qs pv xs nx, (forall q, In q qs -> In q ps) -> chain (heap w) pv qs xs nx -> chain (heap (dropw w b)) pv qs xs nx) /\
    reg (heap (dropw w b)) p r1 r2 (name b) /\ step w (dropw w b) [].
  Proof.
    intros WO P IP R B A. assert (BN : base b <> None) by congruence. pose proof (pool_away _ _ _ _ _ _ P BN A) as AW.
    pose proof (pool_at _ _ _ _ _ _ P BN A) as HB. destruct NM as [NL NO]. split; [|split; [|split; [|split; [|split]]]].
    - unfold release. rewrite (bind_ok _ _ _ _ _ (data_read e w p r1 r2 _ R)). rewrite NO. unfold bind, dealloc.
      cbn [N.eqb orb andb pb po negb]. rewrite HB, B. reflexivity.
    - intros k K. unfold dropw, set_heap in *. cbn [heap nextb] in *. unfold hset. destruct (k =? b); [reflexivity|now apply WO].
    - unfold dropw, set_heap. cbn [heap]. now apply pool_block.
    - intros qs pv xs nx I. unfold dropw, set_heap. cbn [heap]. apply hset_chain. intros q IQ. apply AW. apply in_or_app. left. now apply I.
    - destruct R as ((a & c & H & L) & LL). split; [|exact LL]. exists a, c. split; [|exact L]. unfold dropw, set_heap. cbn [heap]. unfold hset.
      destruct (N.eqb_spec (pb p) b) as [E|E]; [|exact H]. apply AW in E; [contradiction|]. apply in_or_app. now left.
    - repeat split. unfold dropw, set_heap. cbn [dlog]. now rewrite app_nil_r.
  Qed.
  Lemma objs_drop base o os : objs base (o :: os) -> objs (hset base (fst o) None) os.
  Proof.
    intros [ND F]. cbn [map] in ND. apply NoDup_cons_iff in ND as [NI ND]. apply Forall_cons_iff in F as [_ F]. split; [exact ND|].
    rewrite Forall_forall in *. intros x I. unfold hset. destruct (N.eqb_spec (fst x) (fst o)) as [E|E]; [|now apply F].
    exfalso. apply NI. rewrite <- E. now apply in_map.
  Qed.
  Lemma objs_perm base os os' : Permutation os os' -> objs base os -> objs base os'.
  Proof.
    intros P [ND F]. split; [eapply Permutation_NoDup; [apply Permutation_map; exact P|exact ND]|].
    rewrite Forall_forall in *. intros x I. apply F. eapply Permutation_in; [symmetry; exact P|exact I].
  Qed.

  (** [base'] is [base] without the blocks [ks]. *)
  Definition less base base' (ks : list N) : Prop := (forall k, In k ks -> base' k = None) /\ forall k, ~ In k ks -> base' k = base k.
  Lemma less_none base : less base base [].
  Proof. split; [intros k []|reflexivity]. Qed.
  Lemma less_cons base base' k ks : less (hset base k None) base' ks -> less base base' (k :: ks).
  Proof.
    intros [A B]. split.
    - intros j [->|I]; [|now apply A]. destruct (in_dec N.eq_dec j ks) as [I|I]; [now apply A|]. rewrite B by exact I. unfold hset. now rewrite N.eqb_refl.
    - intros j NI. cbn [In] in NI. rewrite B by tauto. unfold hset. destruct (N.eqb_spec j k); [subst; tauto|reflexivity].
  Qed.
  Lemma less_one base k : less base (hset base k None) [k].
  Proof. apply less_cons, less_none. Qed.

  Lemma destroy_node_none l (p : option ptr) w : l_dtor l = None -> destroy_node l p w = Ok tt w.
  Proof. intros D. unfold destroy_node. now rewrite D. Qed.

  (** ** Pops *)
  Lemma pop_back_same l w : l_dtor l = None -> olpop_back d l w = if negb (nonnull (l_tail l)) then Ok (ST_INVALID_OPERATION, l) w
    else (d (node_data (l_tail l)) ;;; lpop_back l) w.
  Proof.
    intros D. unfold olpop_back, lpop_back. destruct (negb (nonnull (l_tail l))) eqn:T; [reflexivity|].
    unfold bind at 1. symmetry. unfold bind at 1. destruct (d (node_data (l_tail l)) w) as [u w1|f]; [|reflexivity].
    rewrite (bind_ok _ _ _ _ _ (destroy_node_none l (l_tail l) w1 D)). reflexivity.
  Qed.
  Lemma pop_front_same l w : l_dtor l = None -> olpop_front d l w = if negb (nonnull (l_head l)) then Ok (ST_INVALID_OPERATION, l) w
    else (d (node_data (l_head l)) ;;; lpop_front l) w.
  Proof.
    intros D. unfold olpop_front, lpop_front. destruct (negb (nonnull (l_head l))) eqn:T; [reflexivity|].
    unfold bind at 1. symmetry. unfold bind at 1. destruct (d (node_data (l_head l)) w) as [u w1|f]; [|reflexivity].
    rewrite (bind_ok _ _ _ _ _ (destroy_node_none l (l_head l) w1 D)). reflexivity.
  Qed.

  (** The object of a node goes. *)
  Lemma release_rep base w l ps1 p ps2 os1 o os2 us : length ps1 = length os1 -> lrep base w l (ps1 ++ p :: ps2) (elems (os1 ++ o :: os2)) us ->
    objs base (os1 ++ o :: os2) ->
    d (node_data (Some p)) w = Ok tt (dropw w (fst o)) /\ lrep (hset base (fst o) None) (dropw w (fst o)) l (ps1 ++ p :: ps2) (elems (os1 ++ o :: os2)) us /\
    objs (hset base (fst o) None) (os1 ++ os2) /\ step w (dropw w (fst o)) [].
  Proof.
    intros LE REP OB. pose proof REP as (WO & CF & SZ & SZW & HD & TL & CH & P).
    assert (EL : elems (os1 ++ o :: os2) = elems os1 ++ name (fst o) :: elems os2) by (unfold elems; now rewrite map_app).
    assert (OC : objs base (o :: os1 ++ os2)) by (eapply objs_perm; [symmetry; apply Permutation_middle|exact OB]).
    assert (R : reg (heap w) p (enc (back None ps1)) (enc (front ps2 None)) (name (fst o))).
    { eapply (lrep_reg e None m base w l ps1 p ps2 (elems os1) (name (fst o)) (elems os2)); [unfold elems; now rewrite map_length|]. rewrite <- EL. exact REP. }
    destruct OC as [ND F]. pose proof F as F0. apply Forall_cons_iff in F as [[B A] F].
    destruct (release_node base w _ _ _ p _ _ (fst o) (snd o) WO P ltac:(apply in_or_app; right; now left) R B A) as (E & WO' & P' & KC & R' & S).
    split; [exact E|]. split; [|split; [apply objs_drop; split; [exact ND|exact F0]|exact S]].
    split; [exact WO'|]. split; [exact CF|]. split; [exact SZ|]. split; [exact SZW|]. split; [exact HD|]. split; [exact TL|].
    split; [apply KC; auto|exact P'].
  Qed.

  Lemma elems_app a b : elems (a ++ b) = elems a ++ elems b.
  Proof. apply map_app. Qed.
  Lemma elems_len os : nlen (elems os) = nlen os.
  Proof. unfold nlen, elems. now rewrite map_length. Qed.

  Lemma pop_back_step base w l ps os o us : lrep base w l ps (elems (os ++ [o])) us -> objs base (os ++ [o]) ->
    exists w' l' ps' us', olpop_back d l w = Ok (ST_SUCCESS, l') w' /\ lrep (hset base (fst o) None) w' l' ps' (elems os) us' /\
      objs (hset base (fst o) None) os /\ step w w' [].
  Proof.
    intros REP OB. pose proof REP as (WO & CF & SZ & SZW & HD & TL & CH & P).
    pose proof (chain_length _ _ _ _ _ _ CH) as LP. unfold elems in LP. rewrite map_length, app_length in LP. cbn in LP.
    destruct (snoc_case ps) as [->|(ps0 & t & ->)]; [cbn in LP; lia|]. rewrite app_length in LP. cbn in LP.
    destruct (release_rep base w l ps0 t [] os o [] us) as (E & REP1 & OB1 & S1); [lia|exact REP|exact OB|].
    rewrite app_nil_r in OB1. rewrite elems_app in REP1.
    destruct (pop_back_ok e None m _ _ l ps0 t _ _ us REP1) as (w' & l' & us' & E2 & REP2 & S2).
    exists w', l', ps0, us'. rewrite pop_back_same by apply CF. rewrite TL, back_snoc. cbn [nonnull negb].
    rewrite (bind_ok _ _ _ _ _ E). split; [exact E2|]. split; [exact REP2|]. split; [exact OB1|]. exact (step_trans m _ _ _ _ _ S1 S2).
  Qed.
  Lemma pop_front_step base w l ps os o us : lrep base w l ps (elems (o :: os)) us -> objs base (o :: os) ->
    exists w' l' ps' us', olpop_front d l w = Ok (ST_SUCCESS, l') w' /\ lrep (hset base (fst o) None) w' l' ps' (elems os) us' /\
      objs (hset base (fst o) None) os /\ step w w' [].
  Proof.
    intros REP OB. pose proof REP as (WO & CF & SZ & SZW & HD & TL & CH & P).
    pose proof (chain_length _ _ _ _ _ _ CH) as LP. destruct ps as [|p ps0]; [discriminate|].
    destruct (release_rep base w l [] p ps0 [] o os us) as (E & REP1 & OB1 & S1); [reflexivity|exact REP|exact OB|].
    destruct (pop_front_ok e None m _ _ l p ps0 _ _ us REP1) as (w' & l' & us' & E2 & REP2 & S2).
    exists w', l', ps0, us'. rewrite pop_front_same by apply CF. rewrite HD. cbn [front nonnull negb].
    rewrite (bind_ok _ _ _ _ _ E). split; [exact E2|]. split; [exact REP2|]. split; [exact OB1|]. exact (step_trans m _ _ _ _ _ S1 S2).
  Qed.

  (** ** The shrinking loop *)
  Lemma shrink_step n : forall base w l ps os us k, (length os = k + n)%nat -> (1 <= k)%nat -> lrep base w (put_size l (nlen os)) ps (elems os) us ->
    objs base os ->
    exists w' l' us' base', olshrink_loop d l n w = Ok (ST_SUCCESS, l') w' /\
      lrep base' w' (put_size l' (N.of_nat k)) (firstn k ps) (elems (firstn k os)) us' /\ objs base' (firstn k os) /\
      less base base' (map fst (skipn k os)) /\ step w w' [].
  Proof.
    induction n as [|n IH]; intros base w l ps os us k LK K REP OB.
    - pose proof REP as (_ & _ & _ & _ & _ & _ & CH & _). pose proof (chain_length _ _ _ _ _ _ CH) as LP. unfold elems in LP. rewrite map_length in LP.
      exists w, l, us, base. split; [reflexivity|]. rewrite (firstn_all2 ps) by lia. rewrite (firstn_all2 os), skipn_all2 by lia.
      split; [|split; [exact OB|split; [apply less_none|apply step_refl]]]. replace (N.of_nat k) with (nlen os) by (unfold nlen; lia). exact REP.
    - pose proof REP as (WO & CF & SZ & SZW & HD & TL & CH & P).
      pose proof (chain_length _ _ _ _ _ _ CH) as LP. unfold elems in LP. rewrite map_length in LP.
      destruct (snoc_case ps) as [->|(ps0 & t & ->)]; [cbn in LP; lia|].
      destruct (snoc_case os) as [->|(os0 & o & ->)]; [cbn in LK; lia|]. rewrite !app_length in LP. rewrite app_length in LK. cbn in LP, LK.
      destruct (release_rep base w _ ps0 t [] os0 o [] us ltac:(lia) REP OB) as (E0 & REP1 & OB1 & S1). rewrite app_nil_r in OB1.
      set (w1 := dropw w (fst o)) in *. set (base1 := hset base (fst o) None) in *.
      rewrite elems_app in REP1. pose proof REP1 as (WO1 & _ & _ & _ & _ & _ & CH1 & P1).
      destruct (drop_back e None m base1 w1 (put_size l (nlen (os0 ++ [o]))) t ps0 _ _ us _ CF WO1 CH1 P1)
        as (wa & w2 & r1 & r2 & y & E1 & E2 & E3 & WO2 & CH2 & P2 & R2 & S2).
      rewrite destroy_node_none in E1 by apply CF. injection E1 as <-. cbn [l_head l_tail l_unused put_size] in HD, TL, P2.
      cbn [olshrink_loop]. rewrite TL, back_snoc.
      rewrite (bind_ok _ _ _ _ _ E0), (bind_ok _ _ _ _ _ E2). cbn [l_tail put_tail]. rewrite (bind_ok _ _ _ _ _ E3).
      set (l1 := put_tail l (back None ps0)).
      assert (CF1 : conf l1) by exact CF.
      destruct (dealloc_ok e None m base1 w2 l1 t ps0 us _ _ _ CF1 WO2 P2 R2) as (w' & un' & us' & E4 & WO' & P' & KC & S').
      rewrite (bind_ok _ _ _ _ _ E4). change (st_success ST_SUCCESS) with true. cbn [negb].
      destruct (IH base1 w' (put_unused l1 un') ps0 os0 us' k) as (w3 & l3 & us3 & base3 & E5 & REP3 & OB3 & LS & S3); [lia|exact K| |exact OB1|].
      { split; [exact WO'|]. split; [exact CF|]. split; [cbn; now rewrite elems_len|].
        split; [rewrite elems_len in *; rewrite nlen_app in SZW; change (nlen [o]) with 1 in SZW; lia|].
        split; [|split; [reflexivity|split; [now apply KC|exact P']]]. cbn. rewrite HD, front_app.
        destruct ps0; [cbn in LP; lia|reflexivity]. }
      exists w3, l3, us3, base3. split; [exact E5|].
      rewrite !firstn_app, skipn_app. replace (k - length ps0)%nat with 0%nat by lia.
      replace (k - length os0)%nat with 0%nat by lia. cbn [firstn]. rewrite !app_nil_r. split; [exact REP3|]. split; [exact OB3|].
      split; [|pose proof (step_trans m _ _ _ _ _ S1 (step_trans m _ _ _ _ _ S2 (step_trans m _ _ _ _ _ S' S3))) as SS; exact SS].
      change (skipn 0 [o]) with [o]. apply less_cons in LS. rewrite map_app. destruct LS as [LA LB]. cbn [map]. split.
      + intros j I. apply LA. rewrite in_app_iff in I. cbn [In] in *. tauto.
      + intros j I. apply LB. rewrite in_app_iff in I. cbn [In] in *. tauto.
  Qed.

  (** ** Destroying all nodes *)
  Lemma destroy_grow_own ps : m = Grow -> forall base w l os pv fuel, conf l -> world_ok w -> l_unused l = None -> chain (heap w) pv ps (elems os) None ->
    pool base (heap w) None ps [] -> objs base os -> (length ps <= fuel)%nat ->
    exists w' base', oldestroy_loop d l (front ps None) fuel w = Ok ST_SUCCESS w' /\ world_ok w' /\ pool base' (heap w') None [] [] /\
      less base base' (map fst os) /\ step w w' [].
  Proof.
    intros EM. induction ps as [|p ps IH]; intros base w l os pv fuel CF WO LU CH P OB LF; (destruct os as [|o os]; [|]); try contradiction.
    - exists w, base. split; [now destruct fuel|]. split; [exact WO|]. split; [exact P|]. split; [apply less_none|apply step_refl].
    - destruct fuel as [|fuel]; [cbn in LF; lia|]. destruct CH as [R C]. change (map (fun o => name (fst o)) os) with (elems os) in C.
      pose proof OB as [_ F]. apply Forall_cons_iff in F as [[B A] _].
      destruct (release_node base w _ _ _ p _ _ (fst o) (snd o) WO P (or_introl eq_refl) R B A) as (E1 & WO1 & P1 & KC & R1 & S1).
      pose proof (KC ps _ _ _ (fun q I => or_intror I) C) as CH1. pose proof (get_next_ok _ _ _ _ _ _ R1) as E2.
      rewrite <- LU in P1. destruct (dealloc_ok e None m _ _ l p ps [] _ _ _ CF WO1 P1 R1) as (w2 & un' & us' & E3 & WO2 & P2 & KC2 & S2).
      cbn [front oldestroy_loop]. rewrite (bind_ok _ _ _ _ _ E1), (bind_ok _ _ _ _ _ E2).
      assert (AL : l_alloc l = true). { destruct CF as (_ & _ & _ & _ & CF). rewrite EM in CF. apply CF. }
      unfold ldealloc_node in E3. rewrite AL in *. unfold bind at 1 in E3. destruct (dealloc (Some p) (lnode_size l) 1 _) as [st w2'|] eqn:ED; [|discriminate].
      cbv beta iota in E3. unfold ret in E3. injection E3 as -> EU ->.
      rewrite (bind_ok _ _ _ _ _ ED). change (st_success ST_SUCCESS) with true. cbn [negb].
      assert (UN : un' = None /\ us' = []). { unfold ListRep.pool in P2. rewrite EM in P2. split; apply P2. }
      destruct UN as [-> ->].
      destruct (IH _ w2 l os (Some p) fuel CF WO2 LU (KC2 _ _ CH1) P2 (objs_drop _ _ _ OB)) as (w' & base' & E4 & WO' & P' & LS & S'); [cbn in LF; lia|].
      exists w', base'. split; [exact E4|]. split; [exact WO'|]. split; [exact P'|]. split; [now apply less_cons|].
      exact (step_trans m _ _ _ _ _ S1 (step_trans m _ _ _ _ _ S2 S')).
  Qed.
  Lemma destroy_fixed_own ps : m <> Grow -> forall base w l ps0 os pv fuel un us, conf l -> world_ok w -> chain (heap w) pv ps (elems os) None ->
    pool base (heap w) un (ps0 ++ ps) us -> objs base os -> (length ps <= fuel)%nat ->
    exists w' base', oldestroy_loop d l (front ps None) fuel w = Ok ST_SUCCESS w' /\ world_ok w' /\ pool base' (heap w') un (ps0 ++ ps) us /\
      less base base' (map fst os) /\ step w w' [].
  Proof.
    intros EM. induction ps as [|p ps IH]; intros base w l ps0 os pv fuel un us CF WO CH P OB LF; (destruct os as [|o os]; [|]); try contradiction.
    - exists w, base. split; [now destruct fuel|]. split; [exact WO|]. split; [exact P|]. split; [apply less_none|apply step_refl].
    - destruct fuel as [|fuel]; [cbn in LF; lia|]. destruct CH as [R C]. change (map (fun o => name (fst o)) os) with (elems os) in C.
      pose proof OB as [_ F]. apply Forall_cons_iff in F as [[B A] _].
      destruct (release_node base w _ _ _ p _ _ (fst o) (snd o) WO P ltac:(apply in_or_app; right; now left) R B A) as (E1 & WO1 & P1 & KC & R1 & S1).
      pose proof (KC ps _ _ _ ltac:(intros q I; apply in_or_app; right; now right) C) as CH1. pose proof (get_next_ok _ _ _ _ _ _ R1) as E2.
      cbn [front oldestroy_loop]. rewrite (bind_ok _ _ _ _ _ E1), (bind_ok _ _ _ _ _ E2).
      assert (AL : l_alloc l = false). { destruct CF as (_ & _ & _ & _ & CF). destruct m; [congruence|apply CF]. }
      rewrite AL. unfold bind at 1. unfold ret at 1. cbv beta iota. change (st_success ST_SUCCESS) with true. cbn [negb].
      destruct (IH (hset base (fst o) None) (dropw w (fst o)) l (ps0 ++ [p]) os (Some p) fuel un us CF WO1 CH1) as (w' & base' & E4 & WO' & P' & LS & S').
      { rewrite <- app_assoc. exact P1. } { now apply objs_drop. } { cbn in LF. lia. }
      exists w', base'. split; [exact E4|]. split; [exact WO'|]. split; [now rewrite <- app_assoc in P'|]. split; [now apply less_cons|].
      exact (step_trans m _ _ _ _ _ S1 S').
  Qed.
  Lemma destroy_all_own base w l ps os us : lrep base w l ps (elems os) us -> objs base os ->
    exists w' base', oldestroy_all d l w = Ok ST_SUCCESS w' /\ world_ok w' /\ pool base' (heap w') None [] [] /\ less base base' (map fst os) /\ step w w' [].
  Proof.
    intros (WO & CF & SZ & SZW & HD & TL & CH & P) OB. unfold oldestroy_all. pose proof (chain_length _ _ _ _ _ _ CH) as LP.
    assert (LF : (length ps <= N.to_nat (l_size l))%nat) by (rewrite SZ; unfold nlen; lia). rewrite HD.
    assert (MM : m = Grow \/ m <> Grow) by (destruct m; [now left|right; discriminate]).
    destruct MM as [EM|EM].
    - assert (UN : l_unused l = None /\ us = []). { unfold ListRep.pool in P. rewrite EM in P. split; apply P. }
      destruct UN as [UN ->]. rewrite UN in P. eapply destroy_grow_own; eauto.
    - destruct (destroy_fixed_own ps EM base w l [] os None (N.to_nat (l_size l)) (l_unused l) us) as (w' & base' & E & WO' & P' & LS & S'); auto.
      exists w', base'. split; [exact E|]. split; [exact WO'|]. split; [eapply pool_empty; eauto|]. split; [exact LS|exact S'].
  Qed.
End OwnListProofs.

(** Proofs about the list: where the nodes live, and the allocation and release of a node. *)
From Coq Require Import Permutation.
From Verif Require Import Base NListFacts Status Mem MemFacts VectorModel VectorDriver ListModel ListSpec ListDriver ListHeap.
From Coq Require Import ZifyBool ZifyNat ZifyN.
Implicit Types (w : world) (h : memory) (p q : ptr) (x : list cell).

(** The two flavours of a list. *)
Inductive mode :=
| Grow
| Fixed (b : N) (pre post : list cell) (cap : N).
Definition limit_of (e : N) (m : mode) : option N := match m with Grow => None | Fixed _ _ _ cap => Some (nodes_in cap e) end.

Section Rep.
  Variables (e : N) (d : option (list cell -> list cell)) (m : mode).
  Notation ns := (16 + e).
  Notation reg := (reg e).
  Notation chg := (chg e).
  Notation chain := (chain e).

  Definition slots (b : N) (pre : list cell) (k : nat) : list ptr :=
    map (fun i => slot b (nlen pre) e (N.of_nat i)) (seq 0 k).
  (** The released nodes of a fixed buffer, linked by their "next" field. *)
  Fixpoint free h (us : list ptr) : Prop :=
    match us with
    | [] => True
    | u :: us => (exists r1 x, reg h u r1 (enc (front us None)) x) /\ free h us
    end.
  (** The nodes [ps] in use and the released nodes [us]; all other memory is as in [base]. *)
  Definition pool (base h : memory) (un : option ptr) (ps us : list ptr) : Prop :=
    match m with
    | Grow =>
        un = None /\ us = [] /\ NoDup (map pb ps) /\
        (forall p, In p ps -> po p = 0 /\ base (pb p) = None /\ exists x, h (pb p) = Some x /\ nlen x = ns) /\
        (forall k, ~ In k (map pb ps) -> h k = base k)
    | Fixed b pre post cap =>
        un = front us None /\ (exists buf, h b = Some (pre ++ buf ++ post) /\ nlen buf = cap) /\
        (exists k, N.of_nat k * ns <= cap /\ Permutation (ps ++ us) (slots b pre k)) /\
        free h us /\ (forall k, k <> b -> h k = base k)
    end.
  Definition conf (l : zlist) : Prop :=
    l_esz l = e /\ l_dtor l = d /\ dtor_ok e d /\ 1 <= e /\
    match m with
    | Grow => l_alloc l = true /\ ns < W64
    | Fixed b pre post cap => l_alloc l = false /\ l_buffer l = Some (mkptr b (nlen pre)) /\ l_cap l = cap /\ cap + ns < W64
    end.
  (** Everything besides the heap. *)
  Definition step w w' (lg : list (list cell)) : Prop :=
    orc w' = orc w /\ dlog w' = dlog w ++ lg /\ (m <> Grow -> tick w' = tick w).
  Lemma step_refl w : step w w [].
  Proof. repeat split. now rewrite app_nil_r. Qed.
  Lemma step_trans w w1 w2 l1 l2 : step w w1 l1 -> step w1 w2 l2 -> step w w2 (l1 ++ l2).
  Proof. intros (A & B & T) (A' & B' & T'). repeat split; [congruence|now rewrite B', B, app_assoc|intros N; rewrite T', T; auto]. Qed.
  Lemma quiet_step w w' lg : quiet w w' lg -> step w w' lg.
  Proof. intros (A & B & T & D). repeat split; auto. Qed.

  Lemma pool_perm base h un ps ps' us : Permutation ps ps' -> pool base h un ps us -> pool base h un ps' us.
  Proof.
    intros P. unfold pool. destruct m as [|b pre post cap].
    - intros (A & B & C & D & E). repeat split; auto.
      + eapply Permutation_NoDup; [|exact C]. now apply Permutation_map.
      + apply D. eapply Permutation_in; [symmetry; exact P|auto].
      + apply D. eapply Permutation_in; [symmetry; exact P|auto].
      + apply D. eapply Permutation_in; [symmetry; exact P|auto].
      + intros k NI. apply E. intros I. apply NI. eapply Permutation_in; [|exact I]. now apply Permutation_map.
    - intros (A & B & (k & K & C) & D & E). repeat split; auto. exists k. split; [exact K|].
      rewrite <- C. symmetry. now apply Permutation_app_tail.
  Qed.
  Lemma slots_nodup b pre k : NoDup (slots b pre k).
  Proof.
    unfold slots. apply FinFun.Injective_map_NoDup; [|apply seq_NoDup]. intros i j E. injection E as E.
    unfold NODE_SIZE in E. nia.
  Qed.
  Lemma slots_sep b pre k p q : In p (slots b pre k) -> In q (slots b pre k) -> p <> q -> sep p ns q ns.
  Proof.
    unfold slots. rewrite !in_map_iff. intros (i & <- & _) (j & <- & _) NE. right. cbn. unfold NODE_SIZE.
    assert (i <> j) by congruence. destruct (Nat.lt_total i j) as [H1|[H1|H1]]; [left|congruence|right]; nia.
  Qed.
  Lemma pool_nodup base h un ps us : pool base h un ps us -> NoDup (ps ++ us).
  Proof.
    unfold pool. destruct m as [|b pre post cap].
    - intros (A & -> & C & D & E). rewrite app_nil_r. eapply NoDup_map_inv; eauto.
    - intros (A & B & (k & K & C) & D & E). eapply Permutation_NoDup; [symmetry; exact C|apply slots_nodup].
  Qed.
  Lemma NoDup_map_neq {A B} (f : A -> B) l a b : NoDup (map f l) -> In a l -> In b l -> a <> b -> f a <> f b.
  Proof.
    induction l as [|c l IH]; intros ND IA IB NE; [contradiction|]. cbn in ND. apply NoDup_cons_iff in ND as [NI ND].
    destruct IA as [->|IA], IB as [->|IB]; [congruence| | |now apply IH].
    - intros E. apply NI. rewrite E. now apply in_map.
    - intros E. apply NI. rewrite <- E. now apply in_map.
  Qed.
  Lemma pool_sep base h un ps us p q : pool base h un ps us -> In p (ps ++ us) -> In q (ps ++ us) -> p <> q -> sep p ns q ns.
  Proof.
    unfold pool. destruct m as [|b pre post cap].
    - intros (A & -> & C & D & E) IP IQ NE. rewrite app_nil_r in *. left. eapply NoDup_map_neq; eauto.
    - intros (A & B & (k & K & C) & D & E) IP IQ NE.
      apply (slots_sep b pre k); auto; eapply Permutation_in; eauto.
  Qed.
  Lemma pool_clear base h un p ps us : pool base h un (p :: ps) us -> clear_of e p (ps ++ us).
  Proof.
    intros P q I. eapply pool_sep; eauto; [now left|now right|]. intros <-.
    apply pool_nodup in P. cbn in P. apply NoDup_cons_iff in P as [NI _]. contradiction.
  Qed.
  Lemma free_keeps h p y h' us : wr h p y h' -> nlen y = ns -> clear_of e p us -> free h us -> free h' us.
  Proof.
    intros W L. induction us as [|u us IH]; intros S; [trivial|]. intros ((r1 & x & R) & F). split.
    - exists r1, x. eapply reg_keeps; eauto. apply S. now left.
    - apply IH; auto. intros q I. apply S. now right.
  Qed.
  Lemma slot_inside b pre k p cap : In p (slots b pre k) -> N.of_nat k * ns <= cap ->
    pb p = b /\ nlen pre <= po p /\ po p + ns <= nlen pre + cap.
  Proof.
    unfold slots. rewrite in_map_iff. intros (i & <- & I) K. apply in_seq in I. cbn. unfold NODE_SIZE. repeat split; nia.
  Qed.
  (** A write to a node in use. *)
  Lemma pool_wr base h un ps us p y h' : pool base h un ps us -> In p ps -> wr h p y h' -> nlen y = ns -> pool base h' un ps us.
  Proof.
    intros P I W L. assert (CL : clear_of e p us).
    { apply in_split in I as (u & v & ->).
      assert (P' : pool base h un (p :: u ++ v) us) by (eapply pool_perm; [symmetry; apply Permutation_middle|exact P]).
      apply pool_clear in P'. intros q IQ. apply P'. apply in_or_app. now right. }
    unfold pool in *. destruct m as [|b pre post cap].
    - destruct P as (A & B & C & D & E). split; [exact A|]. split; [exact B|]. split; [exact C|]. split.
      + intros q IQ. destruct (D q IQ) as (D1 & D2 & x & D3 & D4). split; [exact D1|]. split; [exact D2|].
        destruct W as (a & old & c & H & L' & EL & H' & O). destruct (N.eq_dec (pb q) (pb p)) as [EQ|NE].
        * rewrite EQ in *. exists (a ++ y ++ c). split; [exact H'|]. rewrite H in D3. injection D3 as <-.
          rewrite !nlen_app in *. lia.
        * exists x. rewrite O by exact NE. now split.
      + intros k NI. destruct W as (a & old & c & H & L' & EL & H' & O). rewrite O; [now apply E|].
        intros ->. apply NI. now apply in_map.
    - destruct P as (A & (buf & B1 & B2) & (k & K & C) & D & E).
      assert (IS : In p (slots b pre k)). { eapply Permutation_in; [exact C|]. apply in_or_app. now left. }
      destruct (slot_inside _ _ _ _ _ IS K) as (S1 & S2 & S3). rewrite <- S1 in *.
      split; [exact A|]. split.
      { rewrite <- B2 in S3. rewrite <- L in S3. destruct (wr_inside _ _ _ _ _ _ _ W B1 S2 S3) as (buf' & B' & LB).
        exists buf'. split; [exact B'|congruence]. }
      split; [exists k; now split|]. split; [eapply free_keeps; eauto|].
      intros j NJ. destruct W as (a & old & c & H & L' & EL & H' & O). rewrite O by exact NJ. now apply E.
  Qed.
  Lemma pool_chg base w un ps us p r1 r2 x w' lg : pool base (heap w) un ps us -> In p ps -> chg w p r1 r2 x w' lg ->
    pool base (heap w') un ps us.
  Proof. intros P I C. eapply pool_wr; [exact P|exact I|apply C|eapply chg_len; eauto]. Qed.
  Lemma chg_world_ok w p r1 r2 x w' lg : chg w p r1 r2 x w' lg -> world_ok w -> world_ok w'.
  Proof.
    intros (W & (NB & _) & _) WO k K. apply (wr_live _ _ _ _ W). apply WO. lia.
  Qed.
  Lemma chg_chain w p r1 r2 x w' lg ps pv xs nx : chg w p r1 r2 x w' lg -> clear_of e p ps ->
    chain (heap w) pv ps xs nx -> chain (heap w') pv ps xs nx.
  Proof. intros C CL. apply (chain_keeps e (heap w) p (r1 ++ r2 ++ x)); [apply C|eapply chg_len; eauto|exact CL]. Qed.
  Lemma clear_app p ps qs : clear_of e p (ps ++ qs) <-> clear_of e p ps /\ clear_of e p qs.
  Proof.
    unfold clear_of. split.
    - intros H. split; intros q I; apply H; apply in_or_app; auto.
    - intros [H1 H2] q I. apply in_app_or in I as [I|I]; auto.
  Qed.
  Lemma pool_clear_mid base h un p ps1 ps2 us : pool base h un (ps1 ++ p :: ps2) us -> clear_of e p ps1 /\ clear_of e p ps2 /\ clear_of e p us.
  Proof.
    intros P. assert (P' : pool base h un (p :: ps1 ++ ps2) us) by (eapply pool_perm; [symmetry; apply Permutation_middle|exact P]).
    apply pool_clear in P'. rewrite !clear_app in P'. tauto.
  Qed.

  (** ** Allocating a node *)
  Lemma nsplit_node x : nlen x = ns -> exists r1 r2 y, x = r1 ++ r2 ++ y /\ nlen r1 = 8 /\ nlen r2 = 8 /\ nlen y = e.
  Proof.
    intros L. destruct (nsplit3 8 8 x) as (r1 & r2 & y & -> & L1 & L2); [lia|]. exists r1, r2, y. rewrite !nlen_app in L.
    repeat split; auto. lia.
  Qed.
  Lemma node_size l : conf l -> lnode_size l = ns /\ ns < W64.
  Proof.
    intros (EE & _ & _ & _ & H). unfold lnode_size, NODE_SIZE. rewrite EE. assert (ns < W64).
    { destruct m; [apply H|destruct H as (_ & _ & _ & H); lia]. }
    split; [apply wadd_small; exact H0|exact H0].
  Qed.
  Lemma slots_len b pre k : length (slots b pre k) = k.
  Proof. unfold slots. now rewrite map_length, seq_length. Qed.
  Lemma slots_S b pre k : slots b pre (S k) = slots b pre k ++ [slot b (nlen pre) e (N.of_nat k)].
  Proof. unfold slots. now rewrite seq_S, map_app. Qed.

  Lemma alloc_ok base w l ps us : conf l -> world_ok w -> pool base (heap w) (l_unused l) ps us ->
    l_size l = nlen ps -> l_size l < W64 ->
    (exists w' un' p us' r1 r2 x, lalloc_node l w = Ok (ST_SUCCESS, put_unused l un', Some p) w' /\
       world_ok w' /\ pool base (heap w') un' (p :: ps) us' /\ reg (heap w') p r1 r2 x /\
       (forall pv xs, chain (heap w) pv ps xs None -> chain (heap w') pv ps xs None) /\ step w w' [] /\
       full (limit_of e m) (nlen ps) = false) \/
    (exists w' r, lalloc_node l w = Ok (r, l, None) w' /\ st_success r = false /\ refusal (limit_of e m) (fails w) (nlen ps) r /\
       heap w' = heap w /\ nextb w' = nextb w /\ step w w' []).
  Proof.
    intros CF WO P SZ SZW. destruct (node_size l CF) as [NS NSW]. destruct CF as (EQE & EQD & DO & E1 & CF).
    unfold lalloc_node. rewrite NS. unfold pool, limit_of in *. destruct m as [|b pre post cap] eqn:EM.
    - destruct CF as [-> _]. destruct P as (A & -> & C & D & E). unfold alloc.
      replace ((ns =? 0) || (1 =? 0)) with false by lia.
      destruct (orc w (tick w)) as [st|fill] eqn:EO.
      + right. eexists. exists (err_status st). unfold bind. rewrite EO. replace ((ns =? 0) || (1 =? 0)) with false by lia.
        split; [reflexivity|]. split; [apply st_success_err|]. split.
        { unfold refusal. cbn. split; [reflexivity|]. split; [|now exists st]. now exists (tick w), st. }
        split; [reflexivity|]. split; [reflexivity|]. repeat split; [cbn; now rewrite app_nil_r|congruence].
      + left. unfold bind. rewrite EO. replace ((ns =? 0) || (1 =? 0)) with false by lia.
        rewrite wmul_small by lia. rewrite N.mul_1_r.
        set (blk := fresh fill ns). assert (LB : nlen blk = ns) by apply nlen_fresh.
        destruct (nsplit_node blk LB) as (r1 & r2 & y & EB & L1 & L2 & L3).
        eexists. exists (l_unused l), (mkptr (nextb w) 0), [], r1, r2, y. split; [destruct l; reflexivity|].
        assert (NIN : ~ In (nextb w) (map pb ps)).
        { intros I. apply in_map_iff in I as (q & EQ & IQ). destruct (D q IQ) as (_ & _ & z & HZ & _).
          rewrite EQ, WO in HZ by lia. discriminate. }
        split. { intros k K. cbn in K |- *. unfold hset. destruct (N.eqb_spec k (nextb w)); [lia|]. apply WO. lia. }
        split.
        { split; [exact A|]. split; [reflexivity|]. split; [cbn; now constructor|]. split.
          - intros q [<-|IQ].
            + cbn. split; [reflexivity|]. split; [rewrite <- E by exact NIN; apply WO; lia|].
              exists blk. unfold hset. now rewrite N.eqb_refl.
            + destruct (D q IQ) as (D1 & D2 & D3). split; [exact D1|]. split; [exact D2|].
              cbn. unfold hset. destruct (N.eqb_spec (pb q) (nextb w)) as [EQ|]; [|exact D3].
              exfalso. apply NIN. rewrite <- EQ. now apply in_map.
          - intros k NI. cbn in NI |- *. unfold hset. destruct (N.eqb_spec k (nextb w)) as [EQ|]; [exfalso; apply NI; now left|].
            apply E. tauto. }
        split. { split; [|auto]. exists [], []. cbn. unfold hset. rewrite N.eqb_refl. split; [|reflexivity]. now rewrite EB, app_nil_r. }
        split. { intros pv xs. apply chain_heap. intros q IQ. cbn. unfold hset.
          destruct (N.eqb_spec (pb q) (nextb w)) as [EQ|]; [|reflexivity]. exfalso. apply NIN. rewrite <- EQ. now apply in_map. }
        split; [|reflexivity]. repeat split; [cbn; now rewrite app_nil_r|congruence].
    - destruct CF as (-> & EB & EC & CW). destruct P as (A & (buf & B1 & B2) & (k & K & C) & D & E).
      assert (LK : (length ps + length us = k)%nat).
      { apply Permutation_length in C. rewrite app_length, slots_len in C. exact C. }
      rewrite A. destruct us as [|u us]; cbn [front nonnull].
      + rewrite app_nil_r in C. cbn in LK. assert (EK : nlen ps = N.of_nat k) by (unfold nlen; lia).
        rewrite SZ, EK. rewrite wmul_small by lia. rewrite wadd_small by lia. rewrite EC.
        destruct (N.ltb_spec cap (N.of_nat k * ns + ns)) as [LT|GE].
        * right. exists w, ST_INSUFFICIENT_BUFFER_SIZE. split; [reflexivity|]. split; [reflexivity|].
          split; [|repeat split; now rewrite app_nil_r]. unfold refusal. cbn [full]. unfold nodes_in, NODE_SIZE.
          replace (cap / ns <=? N.of_nat k) with true; [reflexivity|]. symmetry. apply N.leb_le.
          apply N.lt_succ_r. apply N.div_lt_upper_bound; nia.
        * left. assert (GE' : N.of_nat k * ns + ns <= nlen buf) by lia.
          destruct (nsplit3 _ _ _ GE') as (a & y & c & -> & LA & LY).
          destruct (nsplit_node y LY) as (r1 & r2 & x & EY & L1 & L2 & L3).
          exists w, None, (slot b (nlen pre) e (N.of_nat k)), [], r1, r2, x.
          split. { unfold ret. rewrite EB. cbn [padd pb po]. destruct l. cbn in *. subst. reflexivity. }
          split; [exact WO|]. split.
          { split; [reflexivity|]. split; [now exists (a ++ y ++ c)|]. split.
            - exists (S k). split; [nia|]. rewrite app_nil_r, slots_S, C.
              apply (Permutation_app_comm [_]).
            - now split. }
          split. { split; [|auto]. exists (pre ++ a), (c ++ post). cbn [slot pb po]. rewrite B1. split.
            - rewrite <- EY. now rewrite <- !app_assoc.
            - rewrite nlen_app, LA. unfold NODE_SIZE. lia. }
          split; [auto|]. split; [apply step_refl|]. cbn. unfold nodes_in, NODE_SIZE. apply N.leb_gt.
          apply N.lt_le_trans with (N.of_nat k + 1); [lia|]. apply N.div_le_lower_bound; nia.
      + left. destruct D as ((r1 & x & R) & F). rewrite (bind_ok _ _ _ _ _ (get_next_ok e w u _ _ _ R)).
        exists w, (front us None), u, us, r1, (enc (front us None)), x. split; [reflexivity|]. split; [exact WO|]. split.
        { split; [reflexivity|]. split; [now exists buf|]. split.
          - exists k. split; [exact K|]. rewrite <- C. cbn. apply Permutation_middle.
          - now split. }
        split; [exact R|]. split; [auto|]. split; [apply step_refl|]. cbn. unfold nodes_in, NODE_SIZE. apply N.leb_gt.
        cbn in LK. apply N.lt_le_trans with (N.of_nat k); [unfold nlen; lia|]. apply N.div_le_lower_bound; nia.
  Qed.

  (** ** Releasing a node *)
  Lemma dealloc_ok base w l p ps us r1 r2 x : conf l -> world_ok w -> pool base (heap w) (l_unused l) (p :: ps) us ->
    reg (heap w) p r1 r2 x ->
    exists w' un' us', ldealloc_node l (Some p) w = Ok (ST_SUCCESS, put_unused l un') w' /\ world_ok w' /\
      pool base (heap w') un' ps us' /\
      (forall pv xs, chain (heap w) pv ps xs None -> chain (heap w') pv ps xs None) /\ step w w' [].
  Proof.
    intros CF WO P R. pose proof (pool_clear _ _ _ _ _ _ P) as CL. destruct (node_size l CF) as [NS NSW].
    pose proof P as P0. destruct CF as (EQE & EQD & DO & E1 & CF).
    unfold ldealloc_node. rewrite NS. unfold pool in *. destruct m as [|b pre post cap] eqn:EM.
    - destruct CF as [-> _]. destruct P as (A & -> & C & D & E). cbn in C. apply NoDup_cons_iff in C as [NI C].
      destruct (D p (or_introl eq_refl)) as (D1 & D2 & z & D3 & D4).
      eexists. exists (l_unused l), []. split.
      { unfold dealloc, bind. rewrite D3, D1. replace ((ns =? 0) || (1 =? 0)) with false by lia. change (negb (0 =? 0)) with false. cbv iota beta. destruct l; reflexivity. }
      split. { intros k K. cbn in *. unfold hset. destruct (N.eqb_spec k (pb p)); [reflexivity|]. now apply WO. }
      split.
      { split; [exact A|]. split; [reflexivity|]. split; [exact C|]. split.
        - intros q IQ. destruct (D q (or_intror IQ)) as (Q1 & Q2 & Q3). split; [exact Q1|]. split; [exact Q2|].
          cbn. unfold hset. destruct (N.eqb_spec (pb q) (pb p)) as [EQ|]; [|exact Q3].
          exfalso. apply NI. rewrite <- EQ. now apply in_map.
        - intros k NK. cbn. unfold hset. destruct (N.eqb_spec k (pb p)) as [->|NE]; [now rewrite D2|].
          apply E. cbn. intros [X|X]; [congruence|contradiction]. }
      split. { intros pv xs. apply chain_heap. intros q IQ. cbn. unfold hset.
        destruct (N.eqb_spec (pb q) (pb p)) as [EQ|]; [|reflexivity]. exfalso. apply NI. rewrite <- EQ. now apply in_map. }
      repeat split. cbn. now rewrite app_nil_r.
    - destruct CF as (-> & EB & EC & CW).
      destruct (set_next_ok e w p r1 r2 x (l_unused l) R) as (w' & EN & CH). rewrite (bind_ok _ _ _ _ _ EN).
      exists w', (Some p), (p :: us). split; [reflexivity|]. split; [eapply chg_world_ok; eauto|].
      assert (P' : pool base (heap w') (l_unused l) (p :: ps) us).
      { eapply pool_chg; [|now left|exact CH]. unfold pool. now rewrite EM. }
      unfold pool in P'. rewrite EM in P'. destruct P' as (A & B & (k & K & C) & D & E).
      split.
      { split; [reflexivity|]. split; [exact B|]. split.
        - exists k. split; [exact K|]. rewrite <- C. cbn. symmetry. apply Permutation_middle.
        - split; [|exact E]. split; [|exact D]. exists r1, x. rewrite <- A. eapply chg_reg; eauto. }
      split; [|apply quiet_step; apply CH]. intros pv xs. eapply chg_chain; eauto. apply clear_app in CL. tauto.
  Qed.
End Rep.

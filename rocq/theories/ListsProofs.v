(** Proofs about programs with several lists. *)
From Coq Require Import Permutation ZifyBool ZifyNat ZifyN.
From Verif Require Import Base NListFacts Status Mem MemFacts VectorModel VectorDriver ListModel ListSpec ListDriver ListHeap ListRep ListProofs ListProofs2 ListFinal ListFinal2 ListsSpec.

Definition blocks (m : mode) (ps : list ptr) : list N := match m with Grow => map pb ps | Fixed b _ _ _ => [b] end.
(** Memory without the blocks of a list. *)
Definition without (h : memory) (m : mode) (ps : list ptr) : memory :=
  match m with Grow => fun k => if existsb (N.eqb k) (map pb ps) then None else h k | Fixed _ _ _ _ => h end.
Lemma existsb_In k ks : existsb (N.eqb k) ks = true <-> In k ks.
Proof. rewrite existsb_exists. split; [intros (x & I & E); apply N.eqb_eq in E; now subst|intros I; exists k; split; [exact I|apply N.eqb_refl]]. Qed.
Lemma without_other h m ps k : ~ In k (blocks m ps) -> without h m ps k = h k.
Proof.
  destruct m; [|reflexivity]. intros NI. cbn [without blocks] in *.
  destruct (existsb (N.eqb k) (map pb ps)) eqn:E; [|reflexivity]. apply existsb_In in E. contradiction.
Qed.

Section Frame.
  Variables (e : N) (d : option (list cell -> list cell)) (m : mode).
  (** A list is not disturbed by anything that leaves its blocks alone; the rest of the memory may be anything. *)
  Lemma rep_frame base w l ps xs us w' : lrep e d m base w l ps xs us -> world_ok w' ->
    (forall k, In k (blocks m ps) -> heap w' k = heap w k) ->
    lrep e d m (without (heap w') m ps) w' l ps xs us.
  Proof.
    intros (WO & CF & SZ & SZW & HD & TL & CH & P) WO' SAME.
    assert (PB : forall p, In p (ps ++ us) -> In (pb p) (blocks m ps)).
    { intros p I. unfold pool in P. destruct m as [|b pre post cap]; cbn [blocks].
      - destruct P as (_ & -> & _). rewrite app_nil_r in I. now apply in_map.
      - destruct P as (_ & _ & (k & _ & PM) & _). apply (Permutation_in _ PM) in I. unfold slots in I.
        apply in_map_iff in I as (j & <- & _). now left. }
    split; [exact WO'|]. split; [exact CF|]. split; [exact SZ|]. split; [exact SZW|]. split; [exact HD|]. split; [exact TL|].
    split.
    { eapply chain_heap; [|exact CH]. intros q I. apply SAME, PB, in_or_app. now left. }
    unfold pool in *. destruct m as [|b pre post cap]; cbn [blocks without] in *.
    - destruct P as (A & B & C & D & E). split; [exact A|]. split; [exact B|]. split; [exact C|]. split.
      + intros p I. destruct (D p I) as (D1 & _ & x & D2 & D3). split; [exact D1|]. split.
        * assert (X : existsb (N.eqb (pb p)) (map pb ps) = true) by (apply existsb_In; now apply in_map). now rewrite X.
        * exists x. split; [|exact D3]. rewrite SAME by now apply in_map. exact D2.
      + intros k NI. destruct (existsb (N.eqb k) (map pb ps)) eqn:X; [|reflexivity]. apply existsb_In in X. contradiction.
    - destruct P as (A & (buf & B1 & B2) & C & D & E). split; [exact A|]. split.
      { exists buf. split; [|exact B2]. rewrite SAME; [exact B1|now left]. }
      split; [exact C|]. split; [|reflexivity].
      eapply free_heap; [|exact D]. intros q I. apply SAME, PB, in_or_app. now right.
  Qed.
  (** The memory that a call on the list leaves alone. *)
  Lemma rep_others base w l ps xs us k : lrep e d m base w l ps xs us ->
    (match m with Grow => base k <> None | Fixed b _ _ _ => k <> b end) ->
    ~ In k (blocks m ps) /\ heap w k = base k.
  Proof.
    intros (_ & _ & _ & _ & _ & _ & _ & P) B. unfold pool in P. destruct m as [|b pre post cap]; cbn [blocks].
    - destruct P as (_ & _ & _ & D & E). assert (NI : ~ In k (map pb ps)).
      { intros I. apply in_map_iff in I as (q & <- & I). now destruct (D q I) as (_ & X & _). }
      split; [exact NI|now apply E].
    - destruct P as (_ & _ & _ & _ & E). split; [intros [X|[]]; congruence|now apply E].
  Qed.
  Lemma rep_blocks base w l ps xs us k : lrep e d m base w l ps xs us -> In k (blocks m ps) -> heap w k <> None.
  Proof.
    intros (_ & _ & _ & _ & _ & _ & _ & P) I. unfold pool in P. destruct m as [|b pre post cap]; cbn [blocks] in I.
    - destruct P as (_ & _ & _ & D & _). apply in_map_iff in I as (q & <- & I). destruct (D q I) as (_ & _ & x & X & _). congruence.
    - destruct I as [<-|[]]. destruct P as (_ & (buf & B & _) & _). congruence.
  Qed.
  Lemma rep_world base w l ps xs us : lrep e d m base w l ps xs us -> world_ok w.
  Proof. intros (W & _). exact W. Qed.
End Frame.

(** ** All lists *)
Section Program.
  Variables (w0 : world) (bufs : list N).
  (** A live list, with the machine's entry for it. *)
  Record item := mkitem { it_mode : mode; it_nodes : list ptr; it_free : list ptr }.
  Definition item_ok w (lv : option (N * option N)) (l : option zlist) (a : option alist) (it : option item) : Prop :=
    match lv, l, a, it with
    | Some (e, b), Some l, Some a, Some it =>
        a_esz a = e /\ a_limit a = limit_of e (it_mode it) /\
        b = match it_mode it with Grow => None | Fixed b _ _ _ => Some b end /\
        (exists base, lrep e (a_dtor a) (it_mode it) base w l (it_nodes it) (a_elems a) (it_free it)) /\
        match it_mode it with
        | Grow => forall k, In k (blocks (it_mode it) (it_nodes it)) -> heap w0 k = None
        | Fixed b _ _ _ => heap w0 b <> None /\ In b bufs
        end
    | None, None, None, None => True
    | _, _, _, _ => False
    end.
  Definition owned (its : N -> option item) i k : Prop :=
    exists it, its i = Some it /\ In k (blocks (it_mode it) (it_nodes it)).
  Record prog_inv w (lv : N -> option (N * option N)) (s : N -> option zlist) (a : N -> option alist) (its : N -> option item) : Prop := {
    p_world : world_ok w;
    p_items : forall i, item_ok w (lv i) (s i) (a i) (its i);
    p_apart : forall i j k, owned its i k -> owned its j k -> i = j;
    p_memory : forall k x, heap w0 k = Some x -> exists x', heap w k = Some x' /\ nlen x' = nlen x /\ (~ In k bufs -> x' = x);
    p_leak : forall k, heap w0 k = None -> heap w k <> None -> exists i, owned its i k
  }.
  Lemma owned_put its i it j k : owned (put its i it) j k <->
    (j = i /\ exists x, it = Some x /\ In k (blocks (it_mode x) (it_nodes x))) \/ (j <> i /\ owned its j k).
  Proof.
    unfold owned, put. destruct (N.eqb_spec j i) as [->|NE].
    - split; [intros H; left; auto|intros [[_ H]|[X _]]; [exact H|congruence]].
    - split; [intros H; right; auto|intros [[X _]|[_ H]]; [congruence|exact H]].
  Qed.
  Lemma owned_live w lv s a its i k : prog_inv w lv s a its -> owned its i k -> heap w k <> None.
  Proof.
    intros I (it & E & B). pose proof (p_items _ _ _ _ _ I i) as H. rewrite E in H. unfold item_ok in H.
    destruct (lv i) as [[e b]|]; [|destruct (s i); [contradiction|]; destruct (a i); contradiction].
    destruct (s i) as [l|]; [|contradiction]. destruct (a i) as [x|]; [|contradiction].
    destruct H as (_ & _ & _ & (base & R) & _). eapply rep_blocks; eauto.
  Qed.
  (** Something happens to the list [i] only: all other lists stay. *)
  Lemma others_stay w lv s a its w' i : prog_inv w lv s a its -> world_ok w' ->
    (forall j k, j <> i -> owned its j k -> heap w' k = heap w k) ->
    forall j, j <> i -> item_ok w' (lv j) (s j) (a j) (its j).
  Proof.
    intros I WO SAME j NE. pose proof (p_items _ _ _ _ _ I j) as H. unfold item_ok in *.
    destruct (lv j) as [[e b]|]; [|exact H]. destruct (s j) as [l|]; [|exact H]. destruct (a j) as [x|]; [|exact H].
    destruct (its j) as [it|] eqn:EI; [|exact H]. destruct H as (H1 & H2 & H3 & (base & R) & H4).
    split; [exact H1|]. split; [exact H2|]. split; [exact H3|]. split; [|exact H4].
    eexists. eapply rep_frame; [exact R|exact WO|]. intros k B. apply (SAME j k NE). exists it. auto.
  Qed.
  Lemma put_same {A} (s : N -> option A) i x : put s i x i = x.
  Proof. unfold put. now rewrite N.eqb_refl. Qed.
  Lemma put_other {A} (s : N -> option A) i x j : j <> i -> put s i x j = s j.
  Proof. intros NE. unfold put. destruct (N.eqb_spec j i); [congruence|reflexivity]. Qed.

  Lemma cmd_ok_inv w lv s a its c : prog_inv w lv s a its -> cmd_ok w0 lv c -> incl (buffers [c]) bufs ->
    (forall i x, a i = Some x -> nlen (a_elems x) + cmds_demand [c] < W64) -> orc w = orc w0 ->
    exists r s' w' a' its' log,
      run_cmd s c w = Ok (r, s') w' /\ cmd_spec (fails w0) c a r a' log /\
      prog_inv w' (live_after lv c) s' a' its' /\ dlog w' = dlog w ++ log /\ orc w' = orc w /\
      (forall i x, a' i = Some x -> exists y, (a i = Some y /\ nlen (a_elems x) <= nlen (a_elems y) + cmds_demand [c]) \/ nlen (a_elems x) = 0).
  Proof.
    intros I OK BF DM EO. assert (EF : fails w = fails w0) by (unfold fails; now rewrite EO).
    destruct c as [i e d|i e d b off cap|i o|i]; cbn [cmd_ok live_after] in *.
    - destruct OK as (LV & E1 & NW & DO).
      destruct (init_rep w e d) as (l & E & R); [split; [apply I|auto]|].
      exists ST_SUCCESS, (put s i (Some l)), w, (put a i (Some (mkalist e None d []))), (put its i (Some (mkitem Grow [] []))), [].
      split; [unfold run_cmd; now rewrite (bind_ok _ _ _ _ _ E)|]. split; [now repeat split|]. split; [|split; [now rewrite app_nil_r|split; [reflexivity|]]].
      + constructor.
        * apply I.
        * intros j. destruct (N.eq_dec j i) as [->|NE].
          -- rewrite !put_same. cbn. split; [reflexivity|]. split; [reflexivity|]. split; [reflexivity|]. split; [now exists (heap w)|]. intros k [].
          -- rewrite !put_other by exact NE. apply I.
        * intros j j' k H1 H2. apply owned_put in H1, H2.
          destruct H1 as [[-> (x & X & F)]|[N1 H1]]; [injection X as <-; contradiction|].
          destruct H2 as [[-> (x & X & F)]|[N2 H2]]; [injection X as <-; contradiction|]. exact (p_apart _ _ _ _ _ I j j' k H1 H2).
        * apply I.
        * intros k H1 H2. destruct (p_leak _ _ _ _ _ I k H1 H2) as (j & O). exists j. apply owned_put. right. split; [|exact O].
          intros ->. destruct O as (it & EI & _). pose proof (p_items _ _ _ _ _ I i) as H. rewrite LV, EI in H. cbn in H.
          destruct (s i); [contradiction|]. destruct (a i); contradiction.
      + intros j x. destruct (N.eq_dec j i) as [->|NE]; [rewrite put_same|rewrite put_other by exact NE]; intros X.
        * injection X as <-. exists (mkalist e None d []). now right.
        * exists x. left. split; [exact X|]. lia.
    - destruct OK as (LV & E1 & DO & C1 & CW & (x & HX & LX) & NB).
      destruct (p_memory _ _ _ _ _ I b x HX) as (x' & HX' & LX' & _).
      set (pre := nfirst off x'). set (buf := nfirst cap (nskip off x')). set (post := nskip cap (nskip off x')).
      assert (SPL : x' = pre ++ buf ++ post) by (unfold pre, buf, post; now rewrite !nfirst_skip).
      assert (LP : nlen pre = off) by (unfold pre; rewrite nlen_nfirst; lia).
      assert (LB : nlen buf = cap) by (unfold buf; rewrite nlen_nfirst, nlen_nskip; lia).
      destruct (init_buffer_rep w e d cap b pre buf post) as (l & E & R).
      { split; [apply I|]. split; [exact E1|]. split; [exact DO|]. split; [now rewrite <- SPL|]. auto. }
      rewrite LP in E.
      exists ST_SUCCESS, (put s i (Some l)), w, (put a i (Some (mkalist e (Some (nodes_in cap e)) d []))),
        (put its i (Some (mkitem (Fixed b pre post cap) [] []))), [].
      split; [unfold run_cmd; now rewrite (bind_ok _ _ _ _ _ E)|]. split; [now repeat split|]. split; [|split; [now rewrite app_nil_r|split; [reflexivity|]]].
      + assert (FREE : forall j, ~ owned its j b).
        { intros j (it & EI & IB). pose proof (p_items _ _ _ _ _ I j) as H. rewrite EI in H. unfold item_ok in H.
          destruct (lv j) as [[e' b']|] eqn:EL; [|destruct (s j); [contradiction|]; destruct (a j); contradiction].
          destruct (s j); [|contradiction]. destruct (a j); [|contradiction].
          destruct H as (_ & _ & HB & _ & H). destruct (it_mode it) as [|b2 pre2 post2 cap2] eqn:EM.
          - specialize (H b IB). congruence.
          - cbn [blocks] in IB. destruct IB as [->|[]]. subst b'. now apply (NB j e'). }
        constructor.
        * apply I.
        * intros j. destruct (N.eq_dec j i) as [->|NE].
          -- rewrite !put_same. cbn. split; [reflexivity|]. split; [reflexivity|]. split; [reflexivity|]. split; [now exists (heap w)|].
             split; [congruence|]. apply BF. now left.
          -- rewrite !put_other by exact NE. apply I.
        * intros j j' k H1 H2. apply owned_put in H1, H2.
          destruct H1 as [[-> (y & Y & F1)]|[N1 H1]], H2 as [[-> (z & Z & F2)]|[N2 H2]].
          -- reflexivity.
          -- exfalso. injection Y as <-. destruct F1 as [<-|[]]. now apply (FREE j').
          -- exfalso. injection Z as <-. destruct F2 as [<-|[]]. now apply (FREE j).
          -- exact (p_apart _ _ _ _ _ I j j' k H1 H2).
        * apply I.
        * intros k H1 H2. destruct (p_leak _ _ _ _ _ I k H1 H2) as (j & O). exists j. apply owned_put. right. split; [|exact O].
          intros ->. destruct O as (it & EI & _). pose proof (p_items _ _ _ _ _ I i) as H. rewrite LV, EI in H. cbn in H.
          destruct (s i); [contradiction|]. destruct (a i); contradiction.
      + intros j y. destruct (N.eq_dec j i) as [->|NE]; [rewrite put_same|rewrite put_other by exact NE]; intros X.
        * injection X as <-. exists (mkalist e None d []). now right.
        * exists y. left. split; [exact X|]. lia.
    - destruct OK as (e & b & LV & AO). pose proof (p_items _ _ _ _ _ I i) as H. rewrite LV in H. unfold item_ok in H.
      destruct (s i) as [l|] eqn:ES; [|contradiction]. destruct (a i) as [x|] eqn:EA; [|contradiction].
      destruct (its i) as [it|] eqn:EI; [|contradiction]. destruct H as (HE & HL & HB & (base & R) & HM).
      assert (DMI := DM i x EA). cbn [cmds_demand] in DMI.
      pose proof (rep_frame _ _ _ _ _ _ _ _ _ w R (rep_world _ _ _ _ _ _ _ _ _ R) (fun k _ => eq_refl)) as R0.
      set (base0 := without (heap w) (it_mode it) (it_nodes it)) in *.
      destruct (run_lop_ok e (a_dtor x) (it_mode it) base0 w l _ _ _ o R0 AO) as (w' & l' & r & ps' & us' & xs' & gone & new & E & SP & R' & S & _); [lia|].
      assert (KEEP : forall k, heap w k <> None -> ~ In k (blocks (it_mode it) (it_nodes it)) ->
                ~ In k (blocks (it_mode it) ps') /\ heap w' k = heap w k).
      { intros k NK NI. assert (X : base0 k = heap w k) by now apply without_other. rewrite <- X.
        eapply rep_others; [exact R'|]. destruct (it_mode it); [congruence|]. intros ->. apply NI. now left. }
      exists r, (put s i (Some l')), w', (put a i (Some (mkalist (a_esz x) (a_limit x) (a_dtor x) xs'))),
        (put its i (Some (mkitem (it_mode it) ps' us'))), (seen (a_dtor x) gone).
      split; [unfold run_cmd; rewrite ES; now rewrite (bind_ok _ _ _ _ _ E)|]. split.
      { exists x, xs', gone, new. split; [exact EA|]. split; [|auto]. rewrite HE, HL, <- EF. exact SP. }
      split; [|split; [apply S|split; [apply S|]]].
      + constructor.
        * eapply rep_world; eauto.
        * intros j. destruct (N.eq_dec j i) as [->|NE].
          -- rewrite !put_same, LV. cbn. split; [exact HE|]. split; [exact HL|]. split; [exact HB|]. split; [now exists base0|].
             destruct (it_mode it) as [|b2 pre post cap] eqn:EM; [|exact HM].
             intros k IK. destruct (heap w0 k) as [y|] eqn:EK; [|reflexivity]. exfalso.
             destruct (p_memory _ _ _ _ _ I k y EK) as (y' & HY & _).
             assert (NI : ~ In k (blocks Grow (it_nodes it))) by (intros X; specialize (HM k X); congruence).
             destruct (KEEP k) as [X _]; [congruence|exact NI|]. now apply X.
          -- rewrite !put_other by exact NE. eapply others_stay; eauto; [eapply rep_world; eauto|].
             intros j' k NE' O. apply KEEP; [eapply owned_live; eauto|]. intros IK. apply NE'.
             apply (p_apart _ _ _ _ _ I j' i k O). exists it. auto.
        * assert (APART : forall j k, j <> i -> owned its j k -> ~ In k (blocks (it_mode it) ps')).
          { intros j k NE O. apply KEEP; [eapply owned_live; eauto|]. intros IK. apply NE.
            apply (p_apart _ _ _ _ _ I j i k O). exists it. auto. }
          intros j j' k H1 H2. apply owned_put in H1, H2.
          destruct H1 as [[-> (y & Y & F1)]|[N1 H1]], H2 as [[-> (z & Z & F2)]|[N2 H2]].
          -- reflexivity.
          -- exfalso. injection Y as <-. now apply (APART j' k).
          -- exfalso. injection Z as <-. now apply (APART j k).
          -- exact (p_apart _ _ _ _ _ I j j' k H1 H2).
        * intros k y HK. destruct (p_memory _ _ _ _ _ I k y HK) as (y' & HY & LY & UY).
          destruct (in_dec N.eq_dec k (blocks (it_mode it) (it_nodes it))) as [IN|NI].
          -- destruct (it_mode it) as [|b2 pre post cap] eqn:EM; [specialize (HM k IN); congruence|].
             cbn [blocks] in IN. destruct IN as [->|[]]. destruct R0 as (_ & _ & _ & _ & _ & _ & _ & P). destruct R' as (_ & _ & _ & _ & _ & _ & _ & P').
             cbn [pool] in P, P'. destruct P as (_ & (buf & B1 & B2) & _). destruct P' as (_ & (buf' & B1' & B2') & _).
             exists (pre ++ buf' ++ post). split; [exact B1'|]. split.
             ++ rewrite HY in B1. injection B1 as ->. rewrite <- LY. rewrite !nlen_app. lia.
             ++ intros NB. destruct HM. contradiction.
          -- destruct (KEEP k) as [_ X]; [congruence|exact NI|]. exists y'. rewrite X. auto.
        * intros k H1 H2. destruct (in_dec N.eq_dec k (blocks (it_mode it) ps')) as [IN|NI].
          -- exists i. apply owned_put. left. split; [reflexivity|]. eexists. split; [reflexivity|exact IN].
          -- assert (HK : heap w' k = base0 k).
             { destruct R' as (_ & _ & _ & _ & _ & _ & _ & P'). unfold pool in P'. destruct (it_mode it); cbn [blocks] in NI.
               - destruct P' as (_ & _ & _ & _ & P'). now apply P'.
               - destruct P' as (_ & _ & _ & _ & P'). apply P'. intros ->. apply NI. now left. }
             rewrite HK in H2.
             assert (NI2 : ~ In k (blocks (it_mode it) (it_nodes it))).
             { intros IK. unfold base0 in H2. destruct (it_mode it) as [|b2 pre post cap]; cbn [without blocks] in *.
               - apply existsb_In in IK. rewrite IK in H2. congruence.
               - contradiction. }
             unfold base0 in H2. rewrite without_other in H2 by exact NI2.
             destruct (p_leak _ _ _ _ _ I k H1 H2) as (j & O). exists j. apply owned_put. right. split; [|exact O].
             intros ->. destruct O as (it' & EI' & IB). rewrite EI in EI'. injection EI' as <-. contradiction.
      + intros j y. destruct (N.eq_dec j i) as [->|NE]; [rewrite put_same|rewrite put_other by exact NE]; intros X.
        * injection X as <-. exists x. left. split; [exact EA|]. cbn [a_elems cmds_demand].
          pose proof (lspec_size e (it_mode it) _ _ _ _ _ _ _ SP). lia.
        * exists y. left. split; [exact X|]. lia.
    - pose proof (p_items _ _ _ _ _ I i) as H. destruct (lv i) as [[e b]|] eqn:LV; [|congruence]. unfold item_ok in H.
      destruct (s i) as [l|] eqn:ES; [|contradiction]. destruct (a i) as [x|] eqn:EA; [|contradiction].
      destruct (its i) as [it|] eqn:EI; [|contradiction]. destruct H as (HE & HL & HB & (base & R) & HM).
      pose proof (rep_frame _ _ _ _ _ _ _ _ _ w R (rep_world _ _ _ _ _ _ _ _ _ R) (fun k _ => eq_refl)) as R0.
      set (base0 := without (heap w) (it_mode it) (it_nodes it)) in *.
      destruct (ldestroy_ok e (a_dtor x) (it_mode it) base0 w l _ _ _ R0) as (w' & E & WO' & P' & S).
      assert (KEEP : forall k, ~ In k (blocks (it_mode it) (it_nodes it)) -> heap w' k = heap w k).
      { intros k NI. rewrite <- (without_other (heap w) (it_mode it) (it_nodes it) k NI). fold base0. unfold pool in P'.
        destruct (it_mode it); cbn [blocks] in NI.
        - destruct P' as (_ & _ & _ & _ & P'). now apply P'.
        - destruct P' as (_ & _ & _ & _ & P'). apply P'. intros ->. apply NI. now left. }
      exists ST_SUCCESS, (put s i None), w', (put a i None), (put its i None), (seen (a_dtor x) (a_elems x)).
      split; [unfold run_cmd; rewrite ES; now rewrite (bind_ok _ _ _ _ _ E)|]. split; [now exists x|].
      assert (APART : forall j k, j <> i -> owned its j k -> ~ In k (blocks (it_mode it) (it_nodes it))).
      { intros j k NE O IK. apply NE. apply (p_apart _ _ _ _ _ I j i k O). exists it. auto. }
      split; [|split; [apply S|split; [apply S|]]].
      + constructor.
        * exact WO'.
        * intros j. destruct (N.eq_dec j i) as [->|NE]; [now rewrite !put_same|].
          rewrite !put_other by exact NE. apply (others_stay w lv s a its w' i I WO'); [|exact NE]. intros j' k NE' O. apply KEEP. now apply (APART j' k).
        * intros j j' k H1 H2. apply owned_put in H1, H2.
          destruct H1 as [[-> (y & Y & _)]|[N1 H1]]; [discriminate|]. destruct H2 as [[-> (y & Y & _)]|[N2 H2]]; [discriminate|].
          exact (p_apart _ _ _ _ _ I j j' k H1 H2).
        * intros k y HK. destruct (p_memory _ _ _ _ _ I k y HK) as (y' & HY & LY & UY).
          destruct (in_dec N.eq_dec k (blocks (it_mode it) (it_nodes it))) as [IN|NI]; [|exists y'; rewrite KEEP by exact NI; auto].
          destruct (it_mode it) as [|b2 pre post cap] eqn:EM; [specialize (HM k IN); congruence|].
          cbn [blocks] in IN. destruct IN as [->|[]]. destruct R0 as (_ & _ & _ & _ & _ & _ & _ & P).
          cbn [pool] in P, P'. destruct P as (_ & (buf & B1 & B2) & _). destruct P' as (_ & (buf' & B1' & B2') & _).
          exists (pre ++ buf' ++ post). split; [exact B1'|]. split.
          -- rewrite HY in B1. injection B1 as ->. rewrite <- LY. rewrite !nlen_app. lia.
          -- intros NB. destruct HM. contradiction.
        * intros k H1 H2. destruct (in_dec N.eq_dec k (blocks (it_mode it) (it_nodes it))) as [IN|NI].
          -- exfalso. destruct (it_mode it) as [|b2 pre post cap] eqn:EM.
             ++ cbn [pool] in P'. destruct P' as (_ & _ & _ & _ & P'). rewrite P' in H2 by (intros []).
                unfold base0 in H2. cbn [without blocks] in *. apply existsb_In in IN. rewrite IN in H2. congruence.
             ++ cbn [blocks] in IN. destruct IN as [->|[]]. destruct HM. congruence.
          -- rewrite KEEP in H2 by exact NI. destruct (p_leak _ _ _ _ _ I k H1 H2) as (j & O). exists j. apply owned_put. right. split; [|exact O].
             intros ->. destruct O as (it' & EI' & IB). rewrite EI in EI'. injection EI' as <-. contradiction.
      + intros j y. destruct (N.eq_dec j i) as [->|NE]; [rewrite put_same; discriminate|rewrite put_other by exact NE]; intros X.
        exists y. left. split; [exact X|]. lia.
  Qed.
  Lemma demand_cons c cs : cmds_demand (c :: cs) = cmds_demand [c] + cmds_demand cs.
  Proof. destruct c; cbn [cmds_demand]; lia. Qed.
  Lemma run_cmds_ok cs : forall w lv s a its, prog_inv w lv s a its -> cmds_ok w0 lv cs -> incl (buffers cs) bufs ->
    (forall i x, a i = Some x -> nlen (a_elems x) + cmds_demand cs < W64) -> cmds_demand cs < W64 -> orc w = orc w0 ->
    exists rs s' w' a' its' lv' log,
      run_cmds s cs w = Ok (rs, s') w' /\ cmds_spec (fails w0) cs a rs a' log /\
      prog_inv w' lv' s' a' its' /\ dlog w' = dlog w ++ log.
  Proof.
    induction cs as [|c cs IH]; intros w lv s a its I OK BF DM DC EO.
    - exists [], s, w, a, its, lv, []. split; [reflexivity|]. split; [constructor|]. split; [exact I|]. now rewrite app_nil_r.
    - destruct OK as [OK OKS]. rewrite demand_cons in DC.
      destruct (cmd_ok_inv w lv s a its c I OK) as (r & s1 & w1 & a1 & its1 & log1 & E & SP & I1 & D1 & O1 & SZ).
      { intros k IN. apply BF. cbn [buffers flat_map] in *. rewrite app_nil_r in IN. apply in_or_app. now left. }
      { intros i x EA. specialize (DM i x EA). rewrite demand_cons in DM. lia. }
      { exact EO. }
      destruct (IH w1 _ s1 a1 its1 I1 OKS) as (rs & s2 & w2 & a2 & its2 & lv2 & log2 & E2 & SP2 & I2 & D2).
      { intros k IN. apply BF. cbn [buffers flat_map]. apply in_or_app. now right. }
      { intros i x EA. destruct (SZ i x EA) as (y & [[EY LY]|Z]); [|lia]. specialize (DM i y EY). rewrite demand_cons in DM. lia. }
      { lia. }
      { congruence. }
      exists (r :: rs), s2, w2, a2, its2, lv2, (log1 ++ log2). split; [cbn [run_cmds]; rewrite (bind_ok _ _ _ _ _ E); now rewrite (bind_ok _ _ _ _ _ E2)|].
      split; [econstructor; eauto|]. split; [exact I2|]. rewrite D2, D1. now rewrite app_assoc.
  Qed.
  Lemma inv_shows w lv s a its : prog_inv w lv s a its -> lists_show w s a.
  Proof.
    intros I i. pose proof (p_items _ _ _ _ _ I i) as H. unfold item_ok in H.
    destruct (lv i) as [[e b]|].
    - destruct (s i) as [l|]; [|contradiction]. destruct (a i) as [x|]; [|contradiction]. destruct (its i) as [it|]; [|contradiction].
      destruct H as (HE & _ & _ & (base & R) & _). split.
      + rewrite HE. apply R.
      + eexists. eapply lrep_shows; eauto.
    - destruct (s i); [contradiction|]. destruct (a i); [contradiction|]. exact Logic.I.
  Qed.
  Lemma inv_nodes w lv s a its i j li lj ps qs xs ys : prog_inv w lv s a its -> i <> j -> s i = Some li -> s j = Some lj ->
    lshows w li ps xs -> lshows w lj qs ys -> forall p q, In p ps -> In q qs -> pb p <> pb q.
  Proof.
    intros I NE EI EJ SI SJ p q IP IQ EQ. apply NE.
    assert (G : forall i li ps xs p, s i = Some li -> lshows w li ps xs -> In p ps -> owned its i (pb p)).
    { clear - I. intros i li ps xs p EI SI IP. pose proof (p_items _ _ _ _ _ I i) as H. unfold item_ok in H. rewrite EI in H.
      destruct (lv i) as [[e b]|]; [|contradiction]. destruct (a i) as [x|]; [|contradiction]. destruct (its i) as [it|] eqn:IT; [|contradiction].
      destruct H as (_ & _ & _ & (base & R) & _). pose proof (lrep_shows _ _ _ _ _ _ _ _ _ R) as SR.
      destruct (shows_unique _ _ _ _ _ _ SI SR) as [-> _]. exists it. split; [exact IT|].
      destruct R as (_ & _ & _ & _ & _ & _ & _ & P). unfold pool in P. destruct (it_mode it) as [|b2 pre post cap]; cbn [blocks].
      - now apply in_map.
      - destruct P as (_ & _ & (k & _ & PM) & _). assert (IS : In p (slots e b2 pre k)) by (eapply Permutation_in; [exact PM|apply in_or_app; now left]).
        unfold slots in IS. apply in_map_iff in IS as (n & <- & _). now left. }
    apply (p_apart _ _ _ _ _ I i j (pb p)); [eapply G; eauto|]. rewrite EQ. eapply G; eauto.
  Qed.
End Program.

Lemma inv_start w0 bufs : world_ok w0 -> prog_inv w0 bufs w0 empty empty empty empty.
Proof.
  intros WO. constructor; auto.
  - intros i. exact Logic.I.
  - intros i j k (it & E & _). discriminate.
  - intros k x E. exists x. auto.
  - intros k E NE. congruence.
Qed.
Lemma many_lists w0 cs : world_ok w0 -> cmds_ok w0 empty cs -> cmds_demand cs < W64 ->
  exists rs s w a log,
    run_cmds empty cs w0 = Ok (rs, s) w /\ cmds_spec (fails w0) cs empty rs a log /\ lists_show w s a /\
    dlog w = dlog w0 ++ log /\
    (forall k x, heap w0 k = Some x -> exists x', heap w k = Some x' /\ nlen x' = nlen x /\ (~ In k (buffers cs) -> x' = x)) /\
    (forall i j li lj ps qs xs ys, i <> j -> s i = Some li -> s j = Some lj -> lshows w li ps xs -> lshows w lj qs ys ->
       forall p q, In p ps -> In q qs -> pb p <> pb q) /\
    ((forall i, s i = None) -> forall k, heap w0 k = None -> heap w k = None).
Proof.
  intros WO OK DC.
  destruct (run_cmds_ok w0 (buffers cs) cs w0 empty empty empty empty (inv_start w0 _ WO) OK) as (rs & s & w & a & its & lv & log & E & SP & I & D); auto.
  { intros k H. exact H. } { intros i x H. discriminate. }
  exists rs, s, w, a, log. split; [exact E|]. split; [exact SP|]. split; [eapply inv_shows; eauto|]. split; [exact D|]. split; [apply I|].
  split; [intros; eapply inv_nodes with (i := i) (j := j); eauto|].
  intros NS k HK. destruct (heap w k) eqn:EK; [|reflexivity]. exfalso.
  destruct (p_leak _ _ _ _ _ _ _ I k HK) as (i & it & EI & _); [congruence|].
  pose proof (p_items _ _ _ _ _ _ _ I i) as H. rewrite NS, EI in H. unfold item_ok in H.
  destruct (lv i) as [[e b]|]; [contradiction|]. destruct (a i); contradiction.
Qed.

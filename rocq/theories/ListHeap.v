(** Proofs about the list: node regions in memory and linked chains of them. *)
From Verif Require Import Base NListFacts Status Mem MemFacts VectorModel ListModel.
From Coq Require Import ZifyBool ZifyNat ZifyN.

Notation world := (world cell).
Notation memory := (N -> option (list cell)).
Implicit Types (w : world) (h : memory) (p q : ptr) (x r : list cell).

(** ** Pointers in memory *)
Lemma ptr_eqb_refl (p : option ptr) : ptr_eqb p p = true.
Proof. destruct p as [[k o]|]; cbn; [now rewrite !N.eqb_refl|reflexivity]. Qed.
Lemma ptr_eqb_spec (p q : option ptr) : ptr_eqb p q = true -> p = q.
Proof.
  destruct p as [[k o]|], q as [[k' o']|]; cbn; try discriminate; [|reflexivity].
  intros H. apply andb_prop in H as [H1 H2]. apply N.eqb_eq in H1, H2. now subst.
Qed.
Lemma dec_enc (p : option ptr) : dec (enc p) = Some p.
Proof.
  unfold dec, enc. cbn [map]. cbn [cells_eqb cell_eqb]. rewrite !ptr_eqb_refl, !N.eqb_refl. reflexivity.
Qed.
Lemma nlen_enc (p : option ptr) : nlen (enc p) = 8.
Proof. reflexivity. Qed.

(** ** Regions *)
Lemma app_split {A} (a b c d : list A) : a ++ b = c ++ d -> nlen a <= nlen c -> exists m, c = a ++ m /\ b = m ++ d.
Proof.
  revert c. induction a as [|y a IH]; intros c E L; [exists c; now split|].
  destruct c as [|z c]; [cbn in L; rewrite nlen_cons in L; change (nlen (@nil A)) with 0 in L; lia|].
  cbn in E. injection E as -> E. rewrite !nlen_cons in L. destruct (IH c E ltac:(lia)) as (m & -> & ->). now exists m.
Qed.
(** Memory [h] holds the bytes [x] at [p]. *)
Definition holds h p x : Prop := exists a c, h (pb p) = Some (a ++ x ++ c) /\ nlen a = po p.
(** [h'] is [h] with the bytes at [p] replaced. *)
Definition wr h p x h' : Prop :=
  exists a old c, h (pb p) = Some (a ++ old ++ c) /\ nlen a = po p /\ nlen old = nlen x /\
    h' (pb p) = Some (a ++ x ++ c) /\ forall k, k <> pb p -> h' k = h k.
(** Regions of [n] bytes at [p] and of [m] bytes at [q] have no byte in common. *)
Definition sep p n q m : Prop := pb p <> pb q \/ po p + n <= po q \/ po q + m <= po p.
Lemma wr_holds h p x h' : wr h p x h' -> holds h' p x.
Proof. intros (a & old & c & H & L & E & H' & _). now exists a, c. Qed.
Lemma wr_keeps h p x h' q y : wr h p x h' -> sep p (nlen x) q (nlen y) -> holds h q y -> holds h' q y.
Proof.
  intros (a & old & c & H & L & E & H' & O) S (a' & c' & HQ & LQ). unfold holds.
  destruct (N.eq_dec (pb q) (pb p)) as [EQ|NE]; [|exists a', c'; now rewrite O].
  rewrite EQ in *. rewrite H in HQ. injection HQ as HQ. destruct S as [S|[S|S]]; [congruence| |].
  - rewrite app_assoc in HQ. apply app_split in HQ as (m & -> & ->); [|rewrite nlen_app; lia].
    exists (a ++ x ++ m), c'. rewrite H'. split; [now rewrite <- !app_assoc|].
    rewrite !nlen_app in *. lia.
  - symmetry in HQ. rewrite app_assoc in HQ. apply app_split in HQ as (m & -> & ->); [|rewrite nlen_app; lia].
    exists a', (m ++ x ++ c). rewrite H'. split; [now rewrite <- !app_assoc|exact LQ].
Qed.
Lemma wr_trans h p x h1 y h2 : wr h p x h1 -> wr h1 p y h2 -> nlen x = nlen y -> wr h p y h2.
Proof.
  intros (a & old & c & H & L & E & H1 & O1) (a' & old' & c' & H' & L' & E' & H2 & O2) EL.
  rewrite H1 in H'. injection H' as H'. apply app_split in H' as (m & -> & HM); [|lia].
  assert (m = []). { apply nlen_0. rewrite nlen_app in L'. lia. } subst m. rewrite app_nil_r in *.
  cbn [app] in HM. apply app_split in HM as (m & -> & ->); [|lia].
  assert (m = []). { apply nlen_0. rewrite nlen_app in E'. lia. } subst m.
  exists a, old, c'. split; [exact H|]. split; [exact L|]. split; [congruence|]. split; [exact H2|].
  intros k NK. rewrite O2, O1; auto.
Qed.
(** A write inside the middle part of a block leaves the other parts. *)
Lemma wr_inside h p x h' pre buf post : wr h p x h' -> h (pb p) = Some (pre ++ buf ++ post) ->
  nlen pre <= po p -> po p + nlen x <= nlen pre + nlen buf ->
  exists buf', h' (pb p) = Some (pre ++ buf' ++ post) /\ nlen buf' = nlen buf.
Proof.
  intros (a & old & c & H & L & E & H' & O) HB L1 L2. rewrite H in HB. injection HB as HB. symmetry in HB.
  apply app_split in HB as (m & -> & HB); [|lia]. rewrite nlen_app in L.
  symmetry in HB. rewrite app_assoc in HB. apply app_split in HB as (m2 & -> & ->); [|rewrite nlen_app; lia].
  exists (m ++ x ++ m2). rewrite H'. split; [now rewrite <- !app_assoc|]. rewrite !nlen_app. lia.
Qed.
Lemma wr_live h p x h' : wr h p x h' -> forall k, h' k = None <-> h k = None.
Proof.
  intros (a & old & c & H & L & E & H' & O) k. destruct (N.eq_dec k (pb p)) as [->|NE]; [|now rewrite O].
  rewrite H, H'. split; discriminate.
Qed.

(** ** Nodes *)
(** Everything but the heap is as before; [lg] has been destroyed. *)
Definition quiet w w' (lg : list (list cell)) : Prop :=
  nextb w' = nextb w /\ orc w' = orc w /\ tick w' = tick w /\ dlog w' = dlog w ++ lg.
Lemma quiet_refl w : quiet w w [].
Proof. repeat split. now rewrite app_nil_r. Qed.
Lemma quiet_trans w w1 w2 l1 l2 : quiet w w1 l1 -> quiet w1 w2 l2 -> quiet w w2 (l1 ++ l2).
Proof. intros (A & B & C & D) (A' & B' & C' & D'). repeat split; try congruence. now rewrite D', D, app_assoc. Qed.

Lemma hread w p a x c k : holds (heap w) p (a ++ x ++ c) -> nlen a = k ->
  mread (padd (Some p) k) (nlen x) w = Ok x w.
Proof.
  intros (b & d & H & L) E. cbn [padd]. apply (mread_mid w _ _ _ (b ++ a) x (c ++ d)); [|rewrite nlen_app; lia|reflexivity].
  rewrite H. now rewrite <- !app_assoc.
Qed.
Lemma hwrite w p a x c k y : holds (heap w) p (a ++ x ++ c) -> nlen a = k -> nlen x = nlen y ->
  exists w', mwrite (padd (Some p) k) y w = Ok tt w' /\ wr (heap w) p (a ++ y ++ c) (heap w') /\ quiet w w' [].
Proof.
  intros (b & d & H & L) E EL. cbn [padd]. eexists. split; [|split].
  - apply (mwrite_mid w _ _ (b ++ a) x y (c ++ d)); [|rewrite nlen_app; lia|exact EL]. rewrite H. now rewrite <- !app_assoc.
  - exists b, (a ++ x ++ c), d. split; [exact H|]. split; [exact L|]. split; [rewrite !nlen_app; lia|]. split.
    + rewrite heap_upd_same. now rewrite <- !app_assoc.
    + intros k' NK. now apply heap_upd_other.
  - repeat split; cbn; now rewrite app_nil_r.
Qed.

Section Nodes.
  Variable e : N.
  (** The node region at [p]: the bytes of "prev", of "next" and of the data. *)
  Definition reg h p r1 r2 x : Prop := holds h p (r1 ++ r2 ++ x) /\ nlen r1 = 8 /\ nlen r2 = 8 /\ nlen x = e.
  (** A write to the node at [p]. *)
  Definition chg w p r1 r2 x w' lg : Prop :=
    wr (heap w) p (r1 ++ r2 ++ x) (heap w') /\ quiet w w' lg /\ nlen r1 = 8 /\ nlen r2 = 8 /\ nlen x = e.
  Lemma chg_reg w p r1 r2 x w' lg : chg w p r1 r2 x w' lg -> reg (heap w') p r1 r2 x.
  Proof. intros (W & _ & L). split; [eapply wr_holds; eauto|exact L]. Qed.
  Lemma chg_len w p r1 r2 x w' lg : chg w p r1 r2 x w' lg -> nlen (r1 ++ r2 ++ x) = 16 + e.
  Proof. intros (_ & _ & L1 & L2 & L3). rewrite !nlen_app. lia. Qed.
  Lemma chg_trans w p r1 r2 x w1 l1 r1' r2' x' w2 l2 : chg w p r1 r2 x w1 l1 -> chg w1 p r1' r2' x' w2 l2 ->
    chg w p r1' r2' x' w2 (l1 ++ l2).
  Proof.
    intros (W & Q & L1 & L2 & L3) (W' & Q' & L1' & L2' & L3'). split; [|split; [eapply quiet_trans; eauto|auto]].
    eapply wr_trans; eauto. rewrite !nlen_app. lia.
  Qed.
  Lemma set_prev_ok w p r1 r2 x v : reg (heap w) p r1 r2 x ->
    exists w', set_prev (Some p) v w = Ok tt w' /\ chg w p (enc v) r2 x w' [].
  Proof.
    intros (H & L1 & L2 & L3). destruct (hwrite w p [] r1 (r2 ++ x) 0 (enc v)) as (w' & E & W & Q); auto.
    exists w'. split; [|repeat split; auto; apply Q]. cbn [padd] in E. rewrite N.add_0_r in E. destruct p. exact E.
  Qed.
  Lemma set_next_ok w p r1 r2 x v : reg (heap w) p r1 r2 x ->
    exists w', set_next (Some p) v w = Ok tt w' /\ chg w p r1 (enc v) x w' [].
  Proof.
    intros (H & L1 & L2 & L3). destruct (hwrite w p r1 r2 x 8 (enc v)) as (w' & E & W & Q); auto.
    exists w'. split; [exact E|repeat split; auto; apply Q].
  Qed.
  Lemma get_prev_ok w p v r2 x : reg (heap w) p (enc v) r2 x -> get_prev (Some p) w = Ok v w.
  Proof.
    intros (H & L1 & L2 & L3). unfold get_prev, load_ptr. pose proof (hread w p [] (enc v) (r2 ++ x) 0 H eq_refl) as E.
    cbn [padd] in E. rewrite N.add_0_r in E. destruct p. rewrite nlen_enc in E. rewrite (bind_ok _ _ _ _ _ E), dec_enc. reflexivity.
  Qed.
  Lemma get_next_ok w p v r1 x : reg (heap w) p r1 (enc v) x -> get_next (Some p) w = Ok v w.
  Proof.
    intros (H & L1 & L2 & L3). unfold get_next, load_ptr. pose proof (hread w p r1 (enc v) x 8 H L1) as E.
    rewrite nlen_enc in E. rewrite (bind_ok _ _ _ _ _ E), dec_enc. reflexivity.
  Qed.
  Lemma reg_data h p r1 r2 x : reg h p r1 r2 x -> holds h p ((r1 ++ r2) ++ x ++ []) /\ nlen (r1 ++ r2) = 16.
  Proof. intros (H & L1 & L2 & L3). rewrite app_nil_r, <- app_assoc. split; [exact H|]. rewrite nlen_app. lia. Qed.
  Lemma data_read w p r1 r2 x : reg (heap w) p r1 r2 x -> mread (node_data (Some p)) e w = Ok x w.
  Proof.
    intros R. pose proof R as (_ & _ & _ & L3). apply reg_data in R as [H L]. rewrite <- L3. eapply hread; eauto.
  Qed.
  Lemma data_write w p r1 r2 x y : reg (heap w) p r1 r2 x -> nlen y = e ->
    exists w', mwrite (node_data (Some p)) y w = Ok tt w' /\ chg w p r1 r2 y w' [].
  Proof.
    intros R LY. pose proof R as (_ & L1 & L2 & L3). apply reg_data in R as [H L].
    destruct (hwrite w p (r1 ++ r2) x [] 16 y) as (w' & E & W & Q); auto; [congruence|].
    exists w'. split; [exact E|]. rewrite app_nil_r, <- app_assoc in W. repeat split; auto; apply Q.
  Qed.
  Lemma data_copy w p r1 r2 x q y : reg (heap w) p r1 r2 x -> holds (heap w) q y -> nlen y = e -> pb q <> pb p ->
    exists w', memcpy (node_data (Some p)) (Some q) e w = Ok tt w' /\ chg w p r1 r2 y w' [].
  Proof.
    intros R HY LY NE. destruct (data_write w p r1 r2 x y R LY) as (w' & E & C). exists w'. split; [|exact C].
    unfold memcpy. unfold node_data. cbn [padd]. rewrite overlap_other by (cbn; congruence). unfold memmove.
    assert (RY : mread (Some q) e w = Ok y w).
    { pose proof (hread w q [] y [] 0) as RY. rewrite app_nil_r in RY. cbn [app] in RY. specialize (RY HY eq_refl).
      cbn [padd] in RY. rewrite N.add_0_r, LY in RY. destruct q. exact RY. }
    rewrite (bind_ok _ _ _ _ _ RY). exact E.
  Qed.
  Lemma data_dtor w p r1 r2 x f : reg (heap w) p r1 r2 x -> nlen (f x) = nlen x ->
    exists w', call_dtor f (node_data (Some p)) e w = Ok tt w' /\ chg w p r1 r2 (f x) w' [x].
  Proof.
    intros R LF. pose proof R as (_ & L1 & L2 & L3). unfold call_dtor. rewrite (data_read _ _ _ _ _ R).
    set (w0 := mkbuild (heap w) (nextb w) (orc w) (tick w) (dlog w ++ [x]) (checked w)).
    destruct (data_write w0 p r1 r2 x (f x) R ltac:(congruence)) as (w' & E & W & Q & LL). exists w'. split; [exact E|].
    split; [exact W|]. split; [|exact LL]. destruct Q as (A & B & C & D). repeat split; auto. rewrite D. cbn. now rewrite app_nil_r.
  Qed.

  (** ** Chains *)
  Definition front (ps : list ptr) (nx : option ptr) : option ptr := match ps with [] => nx | p :: _ => Some p end.
  Fixpoint back (pv : option ptr) (ps : list ptr) : option ptr := match ps with [] => pv | p :: ps => back (Some p) ps end.
  (** The nodes [ps] with the data [xs] are linked; [pv] is before them, [nx] behind them. *)
  Fixpoint chain h (pv : option ptr) (ps : list ptr) (xs : list (list cell)) (nx : option ptr) : Prop :=
    match ps, xs with
    | [], [] => True
    | p :: ps, x :: xs => reg h p (enc pv) (enc (front ps nx)) x /\ chain h (Some p) ps xs nx
    | _, _ => False
    end.
  Lemma chain_length h pv ps : forall xs nx, chain h pv ps xs nx -> length ps = length xs.
  Proof.
    revert pv. induction ps as [|p ps IH]; intros pv [|x xs] nx H; try contradiction; [reflexivity|].
    cbn. f_equal. eapply IH. apply H.
  Qed.
  Lemma front_app ps qs nx : front (ps ++ qs) nx = front ps (front qs nx).
  Proof. now destruct ps. Qed.
  Lemma back_app ps : forall pv qs, back pv (ps ++ qs) = back (back pv ps) qs.
  Proof. induction ps as [|p ps IH]; intros; [reflexivity|]. apply IH. Qed.
  Lemma chain_app h ps1 : forall pv xs1 ps2 xs2 nx, length ps1 = length xs1 ->
    chain h pv (ps1 ++ ps2) (xs1 ++ xs2) nx <->
    chain h pv ps1 xs1 (front ps2 nx) /\ chain h (back pv ps1) ps2 xs2 nx.
  Proof.
    induction ps1 as [|p ps1 IH]; intros pv [|x xs1] ps2 xs2 nx L; try discriminate; cbn [app chain back].
    - tauto.
    - rewrite front_app. rewrite IH by (cbn in L; lia). tauto.
  Qed.
  (** Writes elsewhere keep a chain. *)
  Lemma reg_keeps h p y h' q r1 r2 x : wr h p y h' -> nlen y = 16 + e -> sep p (16 + e) q (16 + e) ->
    reg h q r1 r2 x -> reg h' q r1 r2 x.
  Proof.
    intros W LY S (H & L1 & L2 & L3). split; [|auto]. eapply wr_keeps; eauto. rewrite LY, !nlen_app, L1, L2, L3.
    now replace (8 + (8 + e)) with (16 + e) by lia.
  Qed.
  Definition clear_of p (ps : list ptr) : Prop := forall q, In q ps -> sep p (16 + e) q (16 + e).
  Lemma chain_keeps h p y h' ps : wr h p y h' -> nlen y = 16 + e -> clear_of p ps ->
    forall pv xs nx, chain h pv ps xs nx -> chain h' pv ps xs nx.
  Proof.
    intros W LY. induction ps as [|q ps IH]; intros S pv [|x xs] nx H; try contradiction; [exact I|].
    destruct H as [H1 H2]. split; [|apply IH; auto; intros q' I'; apply S; now right].
    eapply reg_keeps; eauto. apply S. now left.
  Qed.
  (** Any change of memory that keeps the blocks of the nodes. *)
  Lemma chain_heap h h' ps : (forall q, In q ps -> h' (pb q) = h (pb q)) ->
    forall pv xs nx, chain h pv ps xs nx -> chain h' pv ps xs nx.
  Proof.
    induction ps as [|q ps IH]; intros S pv [|x xs] nx H; try contradiction; [exact I|].
    destruct H as [H1 H2]. split; [|apply IH; auto; intros q' I'; apply S; now right].
    destruct H1 as ((a & c & HH & L) & LL). split; [|exact LL]. exists a, c. split; [|exact L].
    rewrite S by now left. exact HH.
  Qed.
End Nodes.

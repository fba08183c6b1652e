(** How long the pointers that vectors and strings give out stay valid. *)
From Coq Require Import ZifyBool ZifyNat ZifyN.
From Verif Require Import Base NListFacts Status Mem MemFacts VectorModel VectorSpec VectorDriver RefuseSpec StableSpec
  VectorRep VectorProofs VectorProofs2 VectorProofs3 VectorRefine VectorFail VectorMore OracleProofs RefuseProofs.

Section Steps.
  Context {C : Type}.
  Notation vec := (vector C).
  Implicit Types (w : world C) (v : vec).

  (** Time passes: blocks that are gone stay gone. *)
  Definition later w w' : Prop :=
    orc w' = orc w /\ tick w <= tick w' /\ nextb w <= nextb w' /\
    forall b, b < nextb w -> heap w b = None -> heap w' b = None.
  Lemma later_refl w : later w w.
  Proof. repeat split; auto; lia. Qed.
  Lemma later_trans w1 w2 w3 : later w1 w2 -> later w2 w3 -> later w1 w3.
  Proof.
    intros (A1 & A2 & A3 & A4) (B1 & B2 & B3 & B4). repeat split; [congruence|lia|lia|].
    intros b L H. apply B4; [lia|]. now apply A4.
  Qed.

  (** A piece of code that makes no request. *)
  Definition still {A} (m : Mem.M C A) : Prop := forall w a w', m w = Ok a w' -> later w w' /\ tick w' = tick w.
  (** The data pointer of a vector after some calls: the old one if no request was granted, otherwise one to a new
      block, and the old one has gone. *)
  Definition moved w v w' v' : Prop :=
    later w w' /\ (v_esz v' = v_esz v /\ v_alloc v' = v_alloc v /\ (v_alloc v = false -> tick w' = tick w)) /\
    ((~ granted w w' /\ v_data v' = v_data v) \/
     (granted w w' /\ (exists b, v_data v' = Some (mkptr b 0) /\ nextb w <= b) /\
      forall q, v_data v = Some q -> pb q < nextb w -> heap w' (pb q) = None)).
  Definition tracks {A} (get : A -> vec) v (m : Mem.M C A) : Prop :=
    forall w a w', m w = Ok a w' -> moved w v w' (get a).

  Lemma granted_none w w' : tick w' = tick w -> ~ granted w w'.
  Proof. intros E (t & f & L1 & L2 & _). lia. Qed.
  Lemma granted_split w1 w2 w3 : later w1 w2 -> later w2 w3 -> granted w1 w3 <-> granted w1 w2 \/ granted w2 w3.
  Proof.
    intros (A1 & A2 & _) (B1 & B2 & _). split.
    - intros (t & f & L1 & L2 & O). destruct (N.ltb_spec t (tick w2)).
      + left. now exists t, f.
      + right. exists t, f. rewrite A1. repeat split; auto; lia.
    - intros [(t & f & L1 & L2 & O)|(t & f & L1 & L2 & O)]; exists t, f.
      + repeat split; auto; lia.
      + rewrite A1 in O. repeat split; auto; lia.
  Qed.
  Lemma moved_trans w1 v1 w2 v2 w3 v3 : moved w1 v1 w2 v2 -> moved w2 v2 w3 v3 -> moved w1 v1 w3 v3.
  Proof.
    intros (L1 & (Z1 & Y1 & F1) & H1) (L2 & (Z2 & Y2 & F2) & H2). split; [eapply later_trans; eauto|].
    split; [split; [congruence|split; [congruence|]]; intros F; rewrite F2 by congruence; auto|].
    pose proof (granted_split _ _ _ L1 L2) as GS. destruct L1 as (A1 & A2 & A3 & A4), L2 as (B1 & B2 & B3 & B4).
    destruct H1 as [[G1 E1]|(G1 & (b1 & E1 & X1) & D1)]; destruct H2 as [[G2 E2]|(G2 & (b2 & E2 & X2) & D2)]; rewrite E1 in *.
    - left. tauto.
    - right. split; [tauto|]. split; [exists b2; split; auto; lia|]. intros q E L. apply D2; auto. lia.
    - right. split; [tauto|]. split; [now exists b1|]. intros q E L. apply B4; [lia|]. now apply D1.
    - right. split; [tauto|]. split; [exists b2; split; auto; lia|]. intros q E L. apply B4; [lia|]. now apply D1.
  Qed.

  Lemma still_ret {A} (a : A) : still (@ret C A a).
  Proof. intros w x w' H. injection H as <- <-. split; [apply later_refl|reflexivity]. Qed.
  Lemma still_fail {A} f : still (@fail C A f).
  Proof. intros w x w' H. discriminate H. Qed.
  Lemma still_bind {A B} (m : Mem.M C A) (f : A -> Mem.M C B) : still m -> (forall a, still (f a)) -> still (bind m f).
  Proof.
    intros H K w b w2 E. unfold bind in E. destruct (m w) as [a w1|] eqn:F; [|discriminate E].
    apply H in F as [F1 F2]. apply K in E as [E1 E2]. split; [eapply later_trans; eauto|lia].
  Qed.
  Lemma still_assert b : still (@assert C b).
  Proof.
    intros w a w' H. destruct (assert_cases b w) as [E|E]; rewrite E in H; [|discriminate H]. injection H as <- <-.
    split; [apply later_refl|reflexivity].
  Qed.
  Lemma still_mread p n : still (@mread C p n).
  Proof. intros w a w' H. apply mread_tick in H. subst. split; [apply later_refl|reflexivity]. Qed.
  Lemma still_mwrite p x : still (@mwrite C p x).
  Proof.
    intros w a w' H. unfold mwrite in H. destruct p as [p|]; [|discriminate H].
    destruct (heap w (pb p)) as [buf|] eqn:E; [|discriminate H]. destruct (_ <=? _); [|discriminate H]. injection H as <- <-.
    split; [|reflexivity]. unfold later. cbn. repeat split; try lia. intros b L N. unfold hset.
    destruct (N.eqb_spec b (pb p)); [subst; congruence|assumption].
  Qed.
  Lemma still_memmove p q n : still (@memmove C p q n).
  Proof. apply still_bind; [apply still_mread|intros; apply still_mwrite]. Qed.
  Lemma still_memcpy p q n : still (@memcpy C p q n).
  Proof. unfold memcpy. destruct (overlap p q n); [apply still_fail|apply still_memmove]. Qed.
  Lemma still_call_dtor f p e : still (@call_dtor C f p e).
  Proof.
    intros w a w' H. unfold call_dtor in H. destruct (mread p e w) as [x w1|] eqn:E; [|discriminate H].
    apply mread_tick in E. subst w1. apply still_mwrite in H as [H1 H2]. split; [|exact H2].
    destruct H1 as (A1 & A2 & A3 & A4). repeat split; auto.
  Qed.
  Lemma still_assert_valid v : still (@assert_valid C v).
  Proof. apply still_bind; intros; apply still_assert. Qed.
End Steps.

Ltac calm := repeat first
  [ apply still_ret | apply still_fail | apply still_assert | apply still_mread | apply still_mwrite | apply still_memmove
  | apply still_memcpy | apply still_call_dtor | apply still_assert_valid
  | match goal with
    | |- still (bind _ _) => apply still_bind; [|intros ?]
    | |- still (if ?b then _ else _) => destruct b
    | |- still (match ?b with _ => _ end) => destruct b
    end ].

Section Tracks.
  Context {C : Type}.
  Notation vec := (vector C).
  Implicit Types (w : world C) (v : vec).
  Definition vdata (a : status * vec) : vec := snd a.

  Lemma still_destroy_range v i j : still (@destroy_range C v i j).
  Proof.
    unfold destroy_range. destruct (v_dtor v) as [f|]; [|apply still_ret].
    generalize (N.to_nat (j - i)) as n. intros n. revert i. induction n as [|n IH]; intros i; cbn; calm. apply IH.
  Qed.
  Lemma still_shift_left v i n : still (@vshift_left C v i n).
  Proof. unfold vshift_left. calm. Qed.
  Lemma still_shift_right v i n : still (@vshift_right C v i n).
  Proof. unfold vshift_right. calm. Qed.
  Lemma still_init_loop v p n : forall i, still (@init_loop C v i p n).
  Proof. induction n as [|n IH]; intros i; cbn [init_loop]; calm. apply IH. Qed.

  Lemma tracks_still {A} get v (m : Mem.M C A) : still m ->
    (forall w a w', m w = Ok a w' -> v_data (get a) = v_data v /\ v_esz (get a) = v_esz v /\ v_alloc (get a) = v_alloc v) -> tracks get v m.
  Proof.
    intros H K w a w' E. destruct (K _ _ _ E) as (K1 & K2 & K3). apply H in E as [L T]. split; [exact L|]. split; [auto|].
    left. split; [now apply granted_none|assumption].
  Qed.
  Lemma tracks_ret {A} get v (a : A) : v_data (get a) = v_data v -> v_esz (get a) = v_esz v -> v_alloc (get a) = v_alloc v ->
    tracks get v (@ret C A a).
  Proof. intros E1 E2 E3. apply tracks_still; [apply still_ret|]. intros w x w' H. now injection H as <- <-. Qed.
  Lemma tracks_bind {A B} get1 get2 v (m : Mem.M C A) (f : A -> Mem.M C B) :
    tracks get1 v m -> (forall a, tracks get2 (get1 a) (f a)) -> tracks get2 v (bind m f).
  Proof.
    intros H K w b w2 E. unfold bind in E. destruct (m w) as [a w1|] eqn:F; [|discriminate E].
    apply H in F. apply K in E. eapply moved_trans; eauto.
  Qed.
  Lemma tracks_then {A B} get v (m : Mem.M C A) (f : A -> Mem.M C B) :
    still m -> (forall a, tracks get v (f a)) -> tracks get v (bind m f).
  Proof. intros H K. apply (tracks_bind (fun _ => v)); [|exact K]. now apply tracks_still. Qed.
  Lemma tracks_with_arg {A} get v x (k : option ptr -> Mem.M C A) :
    (forall q, tracks get v (k (Some q))) -> tracks get v (with_arg x k).
  Proof.
    intros K w a w' H. unfold with_arg in H.
    match type of H with match k ?q ?w1 with _ => _ end = _ => destruct (k q w1) as [b w2|] eqn:F; [|discriminate H]; apply K in F end.
    injection H as <- <-. destruct F as ((A1 & A2 & A3 & A4) & Z & F). cbn in *.
    split; [|split; [exact Z|]].
    - unfold later. cbn. repeat split; auto; try lia. intros c L N. unfold hset. destruct (c =? nextb w); [reflexivity|].
      apply A4; [lia|]. unfold hset. destruct (N.eqb_spec c (nextb w)); [lia|assumption].
    - destruct F as [[F1 F2]|(F1 & (c & F2 & F3) & F4)].
      + left. split; [|exact F2]. intros (t & fl & L). apply F1. now exists t, fl.
      + right. split; [destruct F1 as (t & fl & L); now exists t, fl|]. cbn in *.
        split; [exists c; split; [exact F2|lia]|]. intros q E L. unfold hset. destruct (pb q =? nextb w); [reflexivity|].
        apply F4; [exact E|lia].
  Qed.

  Lemma tracks_vreallocate_to v c : v_alloc v = true -> tracks vdata v (@vreallocate_to C v c).
  Proof.
    intros AL. unfold vreallocate_to. intros w a w' H. unfold bind in H.
    destruct (realloc _ _ _ w) as [[st p] w1|] eqn:RE; [|discriminate H]. injection H as <- <-. cbn [set_cap v_data v_esz v_cap] in RE.
    unfold vdata. cbn [snd]. unfold moved. cbn [set_data set_cap v_data v_esz v_alloc].
    unfold realloc in RE. destruct (_ && _); [discriminate RE|]. destruct (v_data v) as [q|] eqn:DV; [|discriminate RE].
    destruct (heap w (pb q)) as [buf|] eqn:E; [|discriminate RE]. destruct (negb _); [discriminate RE|].
    destruct (orc w (tick w)) as [e|fill] eqn:O; injection RE as <- <- <-.
    - split; [unfold later; cbn; repeat split; auto; lia|]. split; [repeat split; auto; congruence|]. left. split; [|reflexivity].
      intros (t & f & L1 & L2 & O'). cbn in *. replace t with (tick w) in O' by lia. congruence.
    - split; [|split; [repeat split; auto; congruence|]].
      + unfold later. cbn. repeat split; try lia. intros b L N. unfold hset. destruct (N.eqb_spec b (nextb w)); [lia|].
        now destruct (b =? pb q).
      + right. split; [exists (tick w), fill; cbn; repeat split; auto; lia|]. cbn.
        split; [exists (nextb w); split; [reflexivity|lia]|]. intros r X L. injection X as <-. unfold hset.
        destruct (N.eqb_spec (pb q) (nextb w)); [lia|]. now rewrite N.eqb_refl.
  Qed.
  Lemma tracks_vreallocate v c : tracks vdata v (@vreallocate C v c).
  Proof.
    unfold vreallocate. apply tracks_then; [calm|intros _]. apply tracks_then; [calm|intros _].
    destruct (v_alloc v) eqn:AL; cbn [negb].
    2:{ destruct (_ <? _); [now apply tracks_ret|now apply tracks_ret]. }
    destruct (_ <? _); [|now apply tracks_vreallocate_to]. destruct (_ <? _); [now apply tracks_vreallocate_to|now apply tracks_ret].
  Qed.
  Lemma tracks_vgrow v n : tracks vdata v (@vgrow C v n).
  Proof. unfold vgrow. destruct (should_grow _ _); [apply tracks_vreallocate|now apply tracks_ret]. Qed.
  Lemma tracks_maybe_shrink v : tracks vdata v (@vmaybe_shrink C v).
  Proof. unfold vmaybe_shrink. destruct (should_shrink _ _ _); [apply tracks_vreallocate|now apply tracks_ret]. Qed.

  Ltac same v := now apply tracks_ret.

  Lemma tracks_sized v n : tracks vdata v (@vmaybe_shrink C (set_size v n)).
  Proof. intros w a w' H. apply tracks_maybe_shrink in H. exact H. Qed.

  Lemma tracks_push_back v p : tracks vdata v (@vpush_back C v p).
  Proof.
    unfold vpush_back. destruct (negb _); [same v|]. apply tracks_then; [calm|intros _].
    apply (tracks_bind vdata); [apply tracks_vgrow|]. intros [st v1]. change (vdata (st, v1)) with v1. destruct (negb _); [same v1|].
    apply tracks_then; [calm|intros _]. same v1.
  Qed.
  Lemma tracks_insert_range v i p n : tracks vdata v (@vinsert_range C v i p n).
  Proof.
    unfold vinsert_range. destruct (_ || _); [same v|]. destruct (_ <? _); [same v|]. apply tracks_then; [calm|intros _].
    apply (tracks_bind vdata); [apply tracks_vgrow|]. intros [st v1]. change (vdata (st, v1)) with v1. destruct (negb _); [same v1|].
    apply tracks_then; [destruct (_ <? _); [apply still_shift_right|calm]|intros r]. destruct (negb _); [same v1|].
    apply tracks_then; [calm|intros _]. same v1.
  Qed.
  Lemma tracks_emplace v i f : tracks (fun a : status * vec * option ptr => snd (fst a)) v (@vemplace_ex C v i f).
  Proof.
    unfold vemplace_ex. destruct (_ <? _); [now apply tracks_ret|]. apply tracks_then; [calm|intros _].
    apply (tracks_bind vdata); [apply tracks_vgrow|]. intros [st v1]. change (vdata (st, v1)) with v1. destruct (negb _); [now apply tracks_ret|].
    apply tracks_then; [destruct (_ <? _); [apply still_shift_right|calm]|intros r]. destruct (negb _); [now apply tracks_ret|].
    apply tracks_then; [calm|intros s]. destruct (negb _); now apply tracks_ret.
  Qed.
  Lemma tracks_set v i p : tracks vdata v (@vset C v i p).
  Proof.
    unfold vset. destruct (negb _); [same v|]. destruct (_ <=? _); [same v|]. apply tracks_then; [calm|intros _].
    apply tracks_then; [calm|intros _]. apply tracks_then; [calm|intros _]. same v.
  Qed.
  Lemma tracks_swap v i j : tracks vdata v (@vswap C v i j).
  Proof.
    unfold vswap. destruct (_ || _); [same v|]. destruct (_ =? _); [same v|]. apply tracks_then; [calm|intros _].
    apply tracks_then; [calm|intros _]. apply tracks_then; [calm|intros _]. apply tracks_then; [calm|intros _]. same v.
  Qed.
  Lemma tracks_delete_range v i n : tracks vdata v (@vdelete_range C v i n).
  Proof.
    unfold vdelete_range. destruct (_ =? _); [same v|]. destruct (_ <? _); [same v|].
    apply tracks_then; [apply still_destroy_range|intros _].
    apply tracks_then; [destruct (_ <? _); [apply still_shift_left|calm]|intros r]. destruct (negb _); [same v|].
    apply tracks_sized.
  Qed.
  Lemma tracks_pop_back v : tracks vdata v (@vpop_back C v).
  Proof.
    unfold vpop_back. destruct (_ =? _); [same v|]. apply tracks_then; [calm|intros _]. apply tracks_sized.
  Qed.
  Lemma tracks_resize v n p : tracks vdata v (@vresize_ex C v n p).
  Proof.
    unfold vresize_ex. destruct (_ =? _); [same v|].
    apply tracks_then; [destruct (_ <? _); [apply still_destroy_range|calm]|intros _].
    apply (tracks_bind vdata).
    { destruct (_ || _); [|same v]. apply tracks_then; [calm|intros _]. apply tracks_vreallocate. }
    intros [st v1]. change (vdata (st, v1)) with v1. destruct (negb _); [same v1|].
    apply tracks_then; [destruct (_ && _); [apply still_init_loop|calm]|intros _]. same v1.
  Qed.
  Lemma tracks_reserve v n : tracks vdata v (@vreserve C v n).
  Proof. unfold vreserve. destruct (_ <? _); [apply tracks_vreallocate|same v]. Qed.

  Lemma tracks_run_op v o : tracks vdata v (run_op v o).
  Proof.
    destruct o; cbn [run_op].
    - apply tracks_with_arg. intros q. apply tracks_push_back.
    - apply tracks_with_arg. intros q. apply tracks_insert_range.
    - apply tracks_with_arg. intros q. apply tracks_insert_range.
    - eapply tracks_bind; [apply tracks_emplace|]. intros [[st u] q]. now apply tracks_ret.
    - eapply tracks_bind; [apply tracks_emplace|]. intros [[st u] q]. now apply tracks_ret.
    - apply tracks_with_arg. intros q. apply tracks_set.
    - apply tracks_swap.
    - apply tracks_delete_range.
    - apply tracks_delete_range.
    - apply tracks_pop_back.
    - apply tracks_resize.
    - apply tracks_resize.
    - apply tracks_with_arg. intros q. apply tracks_resize.
    - apply tracks_reserve.
    - apply tracks_vreallocate.
  Qed.
  Lemma tracks_run_ops : forall ops v, tracks (fun a : list status * vec => snd a) v (run_ops v ops).
  Proof.
    induction ops as [|o ops IH]; intros v; cbn [run_ops]; [now apply tracks_ret|].
    apply (tracks_bind vdata); [apply tracks_run_op|]. intros [r v1]. change (vdata (r, v1)) with v1.
    eapply tracks_bind; [apply IH|]. intros [rs v2]. now apply tracks_ret.
  Qed.
End Tracks.

(** ** Vectors that a history has reached *)
Section Reached.
  Context {C : Type}.
  Notation vec := (vector C).
  Implicit Types (w : world C) (v : vec).

  Lemma rep_live w v pre xs post : vrep w v pre xs post -> v_data v = Some (mkptr (blk v) (nlen pre)) /\ blk v < nextb w.
  Proof.
    intros R. split; [apply (r_data _ _ _ _ _ R)|]. destruct (r_heap _ _ _ _ _ R) as (s & _ & H).
    destruct (N.ltb_spec (blk v) (nextb w)); [assumption|]. rewrite (r_wf _ _ _ _ _ R) in H by assumption. discriminate H.
  Qed.
  Lemma dead_block w q : heap w (pb q) = None -> dead (Some q) w.
  Proof. intros H d. unfold padd, mread, mwrite. cbn [pb]. rewrite H. auto. Qed.
  Lemma dead_padd w p d : dead p w -> dead (padd p d) w.
  Proof.
    intros H e. specialize (H (d + e)). replace (padd (padd p d) e) with (padd p (d + e)); [exact H|].
    destruct p as [q|]; [|reflexivity]. cbn [padd pb po]. f_equal. f_equal. lia.
  Qed.
  Lemma vget_val v i w a w' : i < v_size v -> vget v i w = Ok a w' -> a = offset v i /\ w' = w.
  Proof.
    intros L H. unfold vget in H. destruct (N.leb_spec (v_size v) i); [lia|]. unfold assert_valid, bind in H.
    destruct (assert_cases (negb (v_esz v =? 0)) w) as [E|E]; rewrite E in H; [|discriminate H].
    destruct (assert_cases (nonnull (v_data v)) w) as [E2|E2]; rewrite E2 in H; [|discriminate H]. now injection H as <- <-.
  Qed.
  Lemma shown_get w v xs i x : shows w v xs -> nnth i xs = Some x ->
    vget v i w = Ok (offset v i) w /\ mread (offset v i) (v_esz v) w = Ok x w.
  Proof.
    intros [SZ RD] NX. specialize (RD i). rewrite NX in RD. injection SZ as SZ.
    assert (L : i < v_size v) by (rewrite SZ; eapply nnth_lt; eauto).
    unfold read_elem, bind in RD. destruct (vget v i w) as [a w1|] eqn:G; [|discriminate RD].
    destruct (vget_val _ _ _ _ _ L G) as [-> ->]. split; [reflexivity|].
    destruct (offset v i) as [q|]; [|discriminate RD]. destruct (mread (Some q) (v_esz v) w) as [y w2|] eqn:MR; [|discriminate RD].
    injection RD as -> ->. reflexivity.
  Qed.

  Lemma moved_oracle w o w' v v' : moved (with_oracle w o) v w' v' ->
    v_esz v' = v_esz v /\
    ((~ granted (with_oracle w o) w' /\ v_data v' = v_data v) \/
     (granted (with_oracle w o) w' /\ forall q, v_data v = Some q -> pb q < nextb w -> heap w' (pb q) = None)).
  Proof. intros (_ & (Z & _) & [H|(H1 & _ & H3)]); auto. Qed.

  (** The pointer is to be used as long as no request has been granted ... *)
  Theorem pointers_stay w v xs o ops rs v' w' xs' i p x :
    reached w v xs -> run_ops v ops (with_oracle w o) = Ok (rs, v') w' -> shows w' v' xs' ->
    ~ granted (with_oracle w o) w' -> i < nlen xs -> vget v i w = Ok p w -> nnth i xs' = Some x ->
    vget v' i w' = Ok p w' /\ mread p (v_esz v) w' = Ok x w'.
  Proof.
    intros H E SH NG L G NX. destruct (reached_rep _ _ _ H) as (pre & post & R & _ & _).
    apply tracks_run_ops in E. apply moved_oracle in E as [Z E]. cbn [snd] in *.
    destruct E as [[_ D]|[G' _]]; [|contradiction].
    apply vget_val in G as [-> _]; [|rewrite (r_size _ _ _ _ _ R); exact L].
    replace (offset v i) with (offset v' i) by (unfold offset; congruence). rewrite <- Z. eapply shown_get; eauto.
  Qed.
  (** ... and not any longer. *)
  Theorem pointers_end w v xs o ops rs v' w' i p :
    reached w v xs -> run_ops v ops (with_oracle w o) = Ok (rs, v') w' ->
    granted (with_oracle w o) w' -> i < nlen xs -> vget v i w = Ok p w -> dead p w'.
  Proof.
    intros H E GR L G. destruct (reached_rep _ _ _ H) as (pre & post & R & _ & _).
    apply tracks_run_ops in E. apply moved_oracle in E as [Z E]. cbn [snd] in *.
    destruct E as [[NG _]|[_ D]]; [contradiction|].
    apply vget_val in G as [-> _]; [|rewrite (r_size _ _ _ _ _ R); exact L].
    destruct (rep_live _ _ _ _ _ R) as [DV LV]. unfold offset. apply dead_padd. rewrite DV. apply dead_block. cbn [pb].
    apply (D _ DV). exact LV.
  Qed.

  Lemma run_one v o w r v' w' : run_op v o w = Ok (r, v') w' -> run_ops v [o] w = Ok ([r], v') w'.
  Proof. intros H. cbn [run_ops]. unfold bind at 1. rewrite H. reflexivity. Qed.

  (** One call, in terms of the size and the capacity. *)
  Theorem pointers_call w v xs o :
    reached_own w v xs -> arg_ok (v_esz v) o -> room (nlen xs + demand o) (v_esz v) ->
    exists r v' w' xs', run_op v o w = Ok (r, v') w' /\ shows w' v' xs' /\
      (granted w w' <-> asked (mkcfg false (v_growth v) (v_shrink v) (v_esz v) (v_dtor v)) o (nlen xs) (snd (vget_capacity v)) <> None).
  Proof.
    intros H AO F. destruct (reached_own_rep _ _ _ H) as (R & _ & A & O).
    destruct (run_op_ok w v [] xs [] o R) as (r & w' & v' & xs' & E & G & _); auto.
    { intros _. apply O. }
    exists r, v', w', xs'. split; [exact E|]. split; [apply (rep_shows _ _ _ _ _ (g_rep _ _ _ _ _ _ _ G))|].
    pose proof (run_op_asks _ _ _ _ _ o (dlog w) R A AO F _ _ _ E) as T. unfold requests in T. cbn [s_elems s_cap] in T.
    unfold cfg_of in T. rewrite A in T. cbn [negb] in T. cbn [vget_capacity snd].
    destruct (asked _ o (nlen xs) (v_cap v)).
    - split; [discriminate|]. intros _. destruct (O (tick w)) as [fill OE]. exists (tick w), fill. repeat split; auto; lia.
    - split; [|congruence]. intros (t & f & L1 & L2 & _). lia.
  Qed.
  (** A vector on a buffer of the caller never moves. *)
  Theorem buffer_never_moves w v xs o ops rs v' w' :
    reached_buf w v xs -> run_ops v ops (with_oracle w o) = Ok (rs, v') w' -> tick w' = tick w.
  Proof.
    intros H E. destruct (reached_rep _ _ _ (or_intror H)) as (pre & post & R & _ & _).
    assert (A : v_alloc v = false).
    { destruct H as (w0 & e & cap & d & b & pre0 & buf & post0 & v0 & w1 & ops1 & rs1 & I & _ & _ & IE & ER & _).
      apply tracks_run_ops in ER as (_ & (_ & Y & _) & _). cbn [snd] in Y. rewrite Y.
      clear -IE. unfold vinit_custom in IE.
      repeat match type of IE with (if ?b then _ else _) _ = _ => destruct b; [discriminate IE|] end.
      repeat match type of IE with (if ?b then _ else _) = _ => destruct b; [discriminate IE|] end.
      injection IE as <- <-. reflexivity. }
    apply tracks_run_ops in E as (_ & (_ & _ & T) & _). exact (T A).
  Qed.
  (** Destroy ends all of them. *)
  Theorem pointers_destroyed w v xs i p :
    reached_own w v xs -> i < nlen xs -> vget v i w = Ok p w ->
    exists v' w', vdestroy v w = Ok (ST_SUCCESS, v') w' /\ dead p w'.
  Proof.
    intros H L G. destruct (reached_own_rep _ _ _ H) as (R & _ & A & O).
    destruct (destroy_ok _ _ _ _ _ R) as (w' & E & X). exists (idle v), w'. split; [exact E|].
    apply vget_val in G as [-> _]; [|rewrite (r_size _ _ _ _ _ R); exact L].
    destruct (rep_live _ _ _ _ _ R) as [DV LV]. unfold offset. apply dead_padd. rewrite DV. apply dead_block. cbn [pb].
    apply X. exact A.
  Qed.
End Reached.

(** Proofs about the bitset: one call. *)
From Verif Require Import Base NListFacts Status Mem MemFacts VectorModel VectorSpec VectorDriver
  VectorRep VectorProofs VectorProofs2 VectorProofs3 VectorRefine StringModel StringBytes StringProofs
  BitsetModel BitsetSpec BitsetDriver BitsetBits.
From Coq Require Import ZifyBool ZifyNat ZifyN.

Implicit Types (w : world) (b : bitset) (v : vector N).

(** ** Byte vectors *)
Lemma bpush_ok w v pre l post c q : brep w v pre l post -> grants w v -> (nlen l + 1) * 256 < W64 ->
  src w q [c] -> pb q <> blk v ->
  exists r w' v' l', vpush_back v (Some q) w = Ok (r, v') w' /\ bgood w v w' v' pre l' post /\
    (if bholds v (nlen l + 1) then r = ST_SUCCESS /\ l' = l ++ [c] else r = ST_INSUFFICIENT_BUFFER_SIZE /\ l' = l).
Proof.
  intros R NF F Q NB. pose proof R as (VR & E & D). destruct (growth_bounds _ _ _ _ _ VR) as [GB SB].
  destruct (push_back_ok w v pre (cells l) post [c] q VR NF) as (r & w' & v' & xs' & EQ & G & SP); auto.
  { rewrite !nlen_cells, E. nia. }
  exists r, w', v', (concat xs').
  assert (K : (v_alloc v = false -> v_cap v' = v_cap v) /\
    (if bholds v (nlen l + 1) then r = ST_SUCCESS /\ xs' = cells (l ++ [c])
     else r = ST_INSUFFICIENT_BUFFER_SIZE /\ xs' = cells l)).
  { unfold spec_insert in SP. cbn [s_elems s_cap s_log] in SP. rewrite !nlen_cells in SP.
    change (nlen [[c]]) with 1 in SP. destruct (N.ltb_spec (nlen l) (nlen l)); [lia|].
    unfold bholds, regrow, cfg_of in *. cbn [c_fixed c_growth] in SP.
    unfold linsert in SP. change [[c]] with (cells [c]) in SP. rewrite nfirst_cells, nskip_cells, <- !cells_app in SP.
    rewrite nfirst_all, nskip_all, app_nil_r in SP by lia.
    destruct (N.leb_spec (nlen l + 1) (v_cap v)).
    - rewrite orb_true_r. destruct SP as [-> SP]. injection SP as SX SC _. split; [intros; exact SC|now split].
    - destruct (v_alloc v); cbn [negb orb] in *; destruct SP as [-> SP]; injection SP as SX SC _.
      + split; [discriminate|now split].
      + split; [intros; exact SC|now split]. }
  destruct K as [K1 K2]. destruct (good_bgood _ _ _ _ _ _ _ _ R G K1) as [X BG].
  split; [exact EQ|]. split; [exact BG|].
  destruct (bholds v _); destruct K2 as [-> ->]; (split; [reflexivity|]; apply concat_cells).
Qed.
Lemma bpop_ok w v pre l post : brep w v pre l post -> grants w v -> nlen l * 256 < W64 -> nlen l <> 0 ->
  exists w' v', vpop_back v w = Ok (ST_SUCCESS, v') w' /\ bgood w v w' v' pre (nfirst (nlen l - 1) l) post.
Proof.
  intros R NF F L. pose proof R as (VR & E & D).
  destruct (pop_back_ok w v pre (cells l) post VR NF) as (r & w' & v' & xs' & EQ & G & SP).
  { unfold fits. rewrite nlen_cells, E. lia. }
  cbn [vspec] in SP. unfold spec_delete in SP. cbn [s_elems s_cap s_log] in SP. rewrite nlen_cells in SP.
  destruct (N.eqb_spec (nlen l) 0); [lia|]. change (1 =? 0) with false in SP. cbv iota in SP.
  destruct (N.ltb_spec (nlen l) (nlen l - 1 + 1)); [lia|]. destruct SP as [-> SP]. injection SP as SX SC _.
  unfold ldelete in SX. rewrite nfirst_cells, nskip_cells, <- cells_app in SX.
  rewrite (nskip_all (nlen l - 1 + 1)), app_nil_r in SX by lia.
  assert (K1 : v_alloc v = false -> v_cap v' = v_cap v).
  { intros A. rewrite SC. unfold reshrink, cfg_of. cbn. now rewrite A. }
  destruct (good_bgood _ _ _ _ _ _ _ _ R G K1) as [X BG].
  exists w', v'. split; [exact EQ|]. rewrite SX, concat_cells in BG. exact BG.
Qed.
Lemma bptr w v pre l post i : brep w v pre l post -> i < nlen l ->
  vget_pointer v i w = Ok (ST_SUCCESS, padd (v_data v) i) w.
Proof.
  intros R L. pose proof (brep_le _ _ _ _ _ R). unfold vget_pointer. rewrite (brep_size _ _ _ _ _ R).
  destruct (N.leb_spec (nlen l) i); [lia|]. rewrite (bind_ok _ _ _ _ _ (rep_assert_valid _ _ _ _ _ (proj1 R))).
  rewrite (brep_offset _ _ _ _ _ _ R), (brep_at _ _ _ _ _ _ R) by lia. reflexivity.
Qed.
Lemma bptr_out w v pre l post i : brep w v pre l post -> nlen l <= i ->
  vget_pointer v i w = Ok (ST_OUT_OF_RANGE, None) w.
Proof.
  intros R L. unfold vget_pointer. rewrite (brep_size _ _ _ _ _ R). now destruct (N.leb_spec (nlen l) i); [|lia].
Qed.
Lemma bread1 w v pre a x c post : brep w v pre (a ++ x :: c) post -> mread1 (padd (v_data v) (nlen a)) w = Ok x w.
Proof.
  intros R. unfold mread1. rewrite (bind_ok _ _ w [x] w); [reflexivity|]. exact (bread_ok w v pre a [x] c post R).
Qed.
Lemma bwrite1 w v pre a x y c post : brep w v pre (a ++ x :: c) post ->
  exists w', mwrite (padd (v_data v) (nlen a)) [y] w = Ok tt w' /\ bgood w v w' v pre (a ++ y :: c) post.
Proof. intros R. exact (bwrite_ok w v pre a [x] [y] c post R eq_refl). Qed.

(** The loops over all bytes. *)
Lemma each_ok f b post c : forall w pre a, brep w (bs_bits b) pre (a ++ c) post -> nlen (a ++ c) < W64 ->
  exists w', each_byte f b (nlen a) (length c) w = Ok ST_SUCCESS w' /\
    bgood w (bs_bits b) w' (bs_bits b) pre (a ++ map f c) post.
Proof.
  induction c as [|x c IH]; intros w pre a R L.
  - exists w. split; [reflexivity|]. now apply bgood_refl.
  - cbn [each_byte length map]. rewrite nlen_app, nlen_cons in L.
    rewrite (bind_ok _ _ _ _ _ (bptr _ _ _ _ _ (nlen a) R ltac:(rewrite nlen_app, nlen_cons; lia))). sst.
    rewrite (bind_ok _ _ _ _ _ (bread1 _ _ _ _ _ _ _ R)).
    destruct (bwrite1 _ _ _ _ _ (f x) _ _ R) as (w1 & E1 & G1). rewrite (bind_ok _ _ _ _ _ E1).
    rewrite wadd_small by lia.
    destruct (IH w1 pre (a ++ [f x])) as (w2 & E2 & G2).
    { rewrite <- app_assoc. apply G1. } { rewrite !nlen_app. change (nlen [f x]) with 1. lia. }
    rewrite nlen_app in E2. change (nlen [f x]) with 1 in E2. exists w2. split; [exact E2|].
    rewrite <- app_assoc in G2. eapply bgood_trans; [exact G1|eapply brep_wf; eauto|exact G2].
Qed.

(** ** Bitsets *)
Record xrep w b pre l post bs : Prop := mkxrep {
  x_rep : brep w (bs_bits b) pre l post;
  x_bytes : Forall isbyte l;
  x_size : bs_size b = nlen bs;
  x_len : nlen l = (nlen bs + 7) / 8;
  x_bits : forall i, i < nlen bs -> nnth i bs = Some (bitat l i)
}.
Definition xclean (l : list N) (bs : list bool) : Prop := forall i, nlen bs <= i -> bitat l i = false.
Definition bitlimit b : option N := if v_alloc (bs_bits b) then None else Some (8 * v_cap (bs_bits b)).

Lemma bits_ext (bs bs' : list bool) : nlen bs = nlen bs' -> (forall i, i < nlen bs -> nnth i bs = nnth i bs') -> bs = bs'.
Proof.
  revert bs'. induction bs as [|x bs IH]; intros [|y bs'] L H; rewrite ?nlen_cons, ?nlen_nil in L; try lia; [reflexivity|].
  f_equal.
  - assert (Z : 0 < nlen (x :: bs)) by (rewrite nlen_cons; lia). specialize (H 0 Z). now injection H.
  - apply IH; [lia|]. intros i Li. specialize (H (1 + i) ltac:(rewrite nlen_cons; lia)).
    unfold nnth in *. now replace (N.to_nat (1 + i)) with (S (N.to_nat i)) in H by lia.
Qed.
Lemma xrep_lt w b pre l post bs : xrep w b pre l post bs -> nlen l < W64.
Proof. intros [R _ _ _ _]. pose proof (brep_le _ _ _ _ _ R). pose proof (brep_cap _ _ _ _ _ R). lia. Qed.

(** Changing one bit. *)
Lemma change_ok (F : N -> N -> N) f w b pre l post bs i :
  (forall j x, x < 256 -> j < 8 -> F j x < 256) ->
  (forall j k x, x < 256 -> j < 8 -> k < 8 ->
     N.testbit (F j x) k = if j =? k then f (N.testbit x k) else N.testbit x k) ->
  xrep w b pre l post bs -> exists w' l',
    bs_change (F (bit_offset i)) b i w = Ok (fst (change_bit f i bs)) w' /\
    xrep w' b pre l' post (snd (change_bit f i bs)) /\ bgood w (bs_bits b) w' (bs_bits b) pre l' post /\
    (xclean l bs -> xclean l' (snd (change_bit f i bs))).
Proof.
  intros FB FT X. destruct X as [R B S0 L H]. unfold bs_change, change_bit. rewrite S0.
  destruct (N.leb_spec (nlen bs) i) as [LE|LT].
  { exists w, l. split; [reflexivity|]. split; [now split|]. split; [now apply bgood_refl|auto]. }
  cbn [fst snd]. assert (LI : i / 8 < nlen l) by lia.
  destruct (nsplit1 _ _ LI) as (a & x & c & -> & LA). rewrite <- LA.
  rewrite (bind_ok _ _ _ _ _ (bptr _ _ _ _ _ (nlen a) R ltac:(rewrite LA; exact LI))). sst.
  rewrite (bind_ok _ _ _ _ _ (bread1 _ _ _ _ _ _ _ R)).
  set (y := F (bit_offset i) x).
  destruct (bwrite1 _ _ _ _ _ y _ _ R) as (w' & E & G). rewrite (bind_ok _ _ _ _ _ E).
  apply Forall_app in B as [B1 B2]. inversion_clear B2. rename H0 into BX, H1 into B2. unfold isbyte in BX.
  assert (BIT : forall k, bitat (a ++ y :: c) k = if i =? k then f (bitat (a ++ x :: c) k) else bitat (a ++ x :: c) k).
  { intros k. destruct (N.eq_dec (k / 8) (nlen a)) as [EK|NK].
    - rewrite !bitat_mid by exact EK. unfold y. rewrite FT by (auto using bit_offset_lt).
      destruct (N.eqb_spec i k) as [->|NE]; [now rewrite N.eqb_refl|].
      destruct (N.eqb_spec (bit_offset i) (bit_offset k)) as [EO|]; [|reflexivity].
      exfalso. apply NE. apply same_byte; [congruence|exact EO].
    - rewrite (bitat_other a y x c k NK). destruct (N.eqb_spec i k) as [->|]; [lia|reflexivity]. }
  exists w', (a ++ y :: c). split; [reflexivity|]. split; [split|split].
  - apply G.
  - apply Forall_app. split; [exact B1|]. constructor; [apply FB; auto using bit_offset_lt|exact B2].
  - now rewrite nlen_put.
  - rewrite nlen_put. rewrite nlen_app, nlen_cons in *. exact L.
  - intros k LK. rewrite nlen_put in LK. rewrite nnth_put by exact LT. rewrite H, BIT by exact LK.
    now destruct (N.eqb_spec i k).
  - exact G.
  - intros C k LK. rewrite nlen_put in LK. rewrite BIT. destruct (N.eqb_spec i k); [lia|]. now apply C.
Qed.
Lemma each_bits F f w b pre l post bs :
  (forall x, x < 256 -> F x < 256) ->
  (forall x k, x < 256 -> k < 8 -> N.testbit (F x) k = f (N.testbit x k)) ->
  xrep w b pre l post bs -> exists w',
    bs_each F b w = Ok ST_SUCCESS w' /\
    xrep w' b pre (map F l) post (map f bs) /\ bgood w (bs_bits b) w' (bs_bits b) pre (map F l) post.
Proof.
  intros FB FT X. pose proof (xrep_lt _ _ _ _ _ _ X) as LL. destruct X as [R B S0 L H].
  destruct (each_ok F b post l w pre [] R LL) as (w' & E & G). unfold bs_each. rewrite (brep_size _ _ _ _ _ R).
  unfold nlen at 1. rewrite Nnat.Nat2N.id. exists w'. split; [exact E|]. cbn [app] in G. split; [|exact G]. split.
  - apply G.
  - apply Forall_forall. intros y IY. apply in_map_iff in IY as (x & <- & IX). apply FB.
    rewrite Forall_forall in B. now apply B.
  - now rewrite nlen_map.
  - now rewrite !nlen_map.
  - intros i LI. rewrite nlen_map in LI. rewrite nnth_map, H by exact LI. cbn [option_map]. f_equal. symmetry.
    apply bitat_map; [lia|exact B|]. intros x BX. apply FT; auto using bit_offset_lt.
Qed.

(** What the API shows. *)
Lemma test_ok w b pre l post bs i : xrep w b pre l post bs -> bs_test b i w = Ok (verdict (nnth i bs)) w.
Proof.
  intros [R B S0 L H]. unfold bs_test. rewrite S0. destruct (N.leb_spec (nlen bs) i) as [LE|LT].
  { now rewrite nnth_ge by exact LE. }
  rewrite (H _ LT). assert (LI : i / 8 < nlen l) by lia. destruct (nsplit1 _ _ LI) as (a & x & c & -> & LA).
  rewrite <- LA. rewrite (bind_ok _ _ _ _ _ (bptr _ _ _ _ _ (nlen a) R ltac:(rewrite LA; exact LI))). sst.
  rewrite (bind_ok _ _ _ _ _ (bread1 _ _ _ _ _ _ _ R)). rewrite bitat_mid by congruence.
  apply Forall_app in B as [B1 B2]. inversion_clear B2. rewrite test_bit by (auto using bit_offset_lt).
  now destruct (N.testbit x (bit_offset i)).
Qed.
Lemma xrep_shows w b pre l post bs : xrep w b pre l post bs -> nlen bs < W64 -> bitshows w b bs.
Proof.
  intros X LT. split; [unfold bs_get_size; now rewrite (x_size _ _ _ _ _ _ X)|]. split.
  { intros i _. eapply test_ok; eauto. }
  split; [|split].
  - unfold bs_test_msb. rewrite (test_ok _ _ _ _ _ _ _ X), (x_size _ _ _ _ _ _ X), nnth_rev0. do 2 f_equal.
    destruct (N.eq_dec (nlen bs) 0) as [Z|NZ].
    + rewrite !nnth_ge; [reflexivity| |]; rewrite Z; cbn; lia.
    + now rewrite wsub_small by lia.
  - unfold bs_test_lsb. apply (test_ok _ _ _ _ _ _ _ X).
  - unfold bs_get_size_bytes, vget_size. now rewrite (brep_size _ _ _ _ _ (x_rep _ _ _ _ _ _ X)), (x_len _ _ _ _ _ _ X).
Qed.

(** Push and Pop. *)
Lemma assign_ok w b pre l post bs i value : xrep w b pre l post bs -> exists w' l',
    bs_assign b i value w = Ok (fst (change_bit (fun _ => value) i bs)) w' /\
    xrep w' b pre l' post (snd (change_bit (fun _ => value) i bs)) /\ bgood w (bs_bits b) w' (bs_bits b) pre l' post /\
    (xclean l bs -> xclean l' (snd (change_bit (fun _ => value) i bs))).
Proof.
  intros X. pose proof (change_ok (put1 value) (fun _ => value) w b pre l post bs i) as C.
  assert (E : bs_assign b i value = bs_change (put1 value (bit_offset i)) b i) by now destruct value. rewrite E.
  apply C; [| |exact X].
  - intros. now apply put1_byte.
  - intros. now apply put1_bit.
Qed.
Lemma put_last f (bs : list bool) x : put_bit f (nlen bs) (bs ++ [x]) = bs ++ [f x].
Proof.
  unfold put_bit. rewrite nfirst_app_l by reflexivity. rewrite nsub_mid_end by reflexivity.
  rewrite nskip_all by (rewrite nlen_app; change (nlen [x]) with 1; lia). now rewrite app_nil_r.
Qed.
Lemma nlen_bits1 (bs : list bool) x : nlen (bs ++ [x]) = nlen bs + 1.
Proof. rewrite nlen_app. reflexivity. Qed.

Lemma push_ok w b pre l post bs value q :
  xrep w b pre l post bs -> grants w (bs_bits b) -> bitroom (nlen bs) ->
  holds_bits (bitlimit b) (nlen bs + 1) = true -> src w q [0] -> pb q <> blk (bs_bits b) ->
  exists w' b' l', bs_push (Some q) b value w = Ok (ST_SUCCESS, b') w' /\
    xrep w' b' pre l' post (bs ++ [value]) /\ bgood w (bs_bits b) w' (bs_bits b') pre l' post /\
    (xclean l bs -> xclean l' (bs ++ [value])).
Proof.
  intros X NF RM HB Q NB. pose proof X as [R B S0 L H]. unfold bs_push. cbn [bs_size bs_bits].
  assert (LS : nlen bs + 1 < W64). { unfold bitroom in RM. change W64 with 18446744073709551616 in *. lia. }
  rewrite S0, wadd_small by exact LS.
  assert (GR : exists w1 b1 l1 x,
     (let* (st, b) := if nlen bs mod 8 =? 0
                  then let* (st, v) := vpush_back (bs_bits b) (Some q) in ret (st, mkbitset (nlen bs + 1) v)
                  else ret (ST_SUCCESS, mkbitset (nlen bs + 1) (bs_bits b)) in
      if negb (st_success st) then ret (st, b) else
      let* st := bs_assign b (wsub (bs_size b) 1) value in
      ret (st, b)) w =
     (let* st := bs_assign b1 (nlen bs) value in ret (st, b1)) w1 /\
     xrep w1 b1 pre l1 post (bs ++ [x]) /\ bgood w (bs_bits b) w1 (bs_bits b1) pre l1 post /\
     (xclean l bs -> xclean l1 (bs ++ [x]))).
  { assert (WS : wsub (nlen bs + 1) 1 = nlen bs). { rewrite wsub_small by lia. lia. }
    destruct (N.eqb_spec (nlen bs mod 8) 0) as [Z|NZ].
    - destruct (bpush_ok w (bs_bits b) pre l post 0 q R NF) as (r & w1 & v1 & l1 & E & G & K); auto.
      { unfold bitroom in RM. lia. }
      assert (HV : bholds (bs_bits b) (nlen l + 1) = true).
      { unfold bholds, bitlimit in *. destruct (v_alloc (bs_bits b)); [reflexivity|]. cbn [orb holds_bits] in *. lia. }
      rewrite HV in K. destruct K as [-> ->]. exists w1, (mkbitset (nlen bs + 1) v1), (l ++ [0]), false.
      split.
      { unfold bind at 1 2. rewrite E. unfold ret at 1. cbv beta iota. sst. cbn [bs_size]. now rewrite WS. }
      assert (BT : forall k, bitat (l ++ [0]) k = bitat l k).
      { intros k. destruct (N.lt_ge_cases (k / 8) (nlen l)) as [LK|LK].
        - now apply bitat_app1.
        - rewrite (bitat_ge l k) by lia. destruct (N.eq_dec (k / 8) (nlen l)) as [EK|NK].
          + rewrite bitat_mid by exact EK. apply N.bits_0.
          + apply bitat_ge. rewrite nlen_app. change (nlen [0]) with 1. lia. }
      split; [split|split].
      + apply G.
      + apply Forall_app. split; [exact B|]. repeat constructor.
      + cbn [bs_size]. now rewrite nlen_bits1.
      + rewrite nlen_bits1, nlen_app. change (nlen [0]) with 1. lia.
      + intros i LI. rewrite nlen_bits1 in LI. rewrite BT. destruct (N.eq_dec i (nlen bs)) as [->|NE].
        * rewrite nnth_mid by reflexivity. rewrite bitat_ge by lia. reflexivity.
        * rewrite nnth_app1 by lia. apply H. lia.
      + exact G.
      + intros C i LI. rewrite nlen_bits1 in LI. rewrite BT. apply C. lia.
    - exists w, (mkbitset (nlen bs + 1) (bs_bits b)), l, (bitat l (nlen bs)). split.
      { unfold bind at 1, ret at 1. sst. cbn [bs_size]. now rewrite WS. }
      split; [split|split].
      + exact R.
      + exact B.
      + cbn [bs_size]. now rewrite nlen_bits1.
      + rewrite nlen_bits1. lia.
      + intros i LI. rewrite nlen_bits1 in LI. destruct (N.eq_dec i (nlen bs)) as [->|NE].
        * now rewrite nnth_mid by reflexivity.
        * rewrite nnth_app1 by lia. apply H. lia.
      + now apply bgood_refl.
      + intros C i LI. rewrite nlen_bits1 in LI. apply C. lia. }
  destruct GR as (w1 & b1 & l1 & x & -> & X1 & G1 & C1).
  destruct (assign_ok w1 b1 pre l1 post (bs ++ [x]) (nlen bs) value X1) as (w2 & l2 & E2 & X2 & G2 & C2).
  unfold change_bit in *. rewrite nlen_bits1 in *. destruct (N.leb_spec (nlen bs + 1) (nlen bs)); [lia|]. cbn [fst snd] in *.
  rewrite put_last in *. rewrite (bind_ok _ _ _ _ _ E2). exists w2, b1, l2. split; [reflexivity|]. split; [exact X2|].
  split; [|auto]. eapply bgood_trans; [exact G1|eapply brep_wf; eauto|exact G2].
Qed.

Lemma nlen_cut (bs : list bool) : nlen (nfirst (nlen bs - 1) bs) = nlen bs - 1.
Proof. rewrite nlen_nfirst. lia. Qed.
Lemma pop_ok w b pre l post bs :
  xrep w b pre l post bs -> grants w (bs_bits b) -> bitroom (nlen bs) -> nlen bs <> 0 ->
  exists w' b' l', bs_pop b w = Ok (ST_SUCCESS, b') w' /\
    xrep w' b' pre l' post (nfirst (nlen bs - 1) bs) /\ bgood w (bs_bits b) w' (bs_bits b') pre l' post /\
    (xclean l bs -> tidy_op BPop bs -> xclean l' (nfirst (nlen bs - 1) bs)).
Proof.
  intros X NF RM NZ. pose proof X as [R B S0 L H]. unfold bs_pop. cbn [bs_size bs_bits].
  assert (LS : nlen bs < W64). { unfold bitroom in RM. change W64 with 18446744073709551616 in *. lia. }
  rewrite S0, wsub_small by lia. destruct (N.eqb_spec ((nlen bs - 1) mod 8) 0) as [Z|NZ8].
  - destruct (bpop_ok w (bs_bits b) pre l post R NF) as (w' & v' & E & G).
    { unfold bitroom in RM. lia. } { lia. }
    rewrite (bind_ok _ _ _ _ _ E). exists w', (mkbitset (nlen bs - 1) v'), (nfirst (nlen l - 1) l).
    split; [reflexivity|]. split; [split|split].
    + apply G.
    + rewrite <- (nfirst_skip (nlen l - 1) l) in B. now apply Forall_app in B.
    + cbn [bs_size]. now rewrite nlen_cut.
    + rewrite nlen_cut, nlen_nfirst. lia.
    + intros i LI. rewrite nlen_cut in LI. rewrite nnth_nfirst by lia. rewrite H by lia. f_equal.
      rewrite <- (nfirst_skip (nlen l - 1) l) at 1. apply bitat_app1. rewrite nlen_nfirst. lia.
    + exact G.
    + intros _ _ i LI. rewrite nlen_cut in LI. apply bitat_ge. rewrite nlen_nfirst. lia.
  - exists w, (mkbitset (nlen bs - 1) (bs_bits b)), l. split; [reflexivity|]. split; [split|split].
    + exact R.
    + exact B.
    + cbn [bs_size]. now rewrite nlen_cut.
    + rewrite nlen_cut. lia.
    + intros i LI. rewrite nlen_cut in LI. rewrite nnth_nfirst by lia. apply H. lia.
    + now apply bgood_refl.
    + intros C T i LI. rewrite nlen_cut in LI. cbn in T. destruct T as [T|T]; [lia|].
      destruct (N.eq_dec i (nlen bs - 1)) as [->|NE].
      * rewrite H in T by lia. congruence.
      * apply C. lia.
Qed.

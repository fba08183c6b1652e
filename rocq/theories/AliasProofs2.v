(** C77 for vectors and strings in reached states. *)
From Verif Require Import Base NListFacts Status Mem MemFacts VectorModel VectorSpec VectorDriver
  VectorRep VectorProofs VectorProofs2 VectorProofs3 VectorRefine VectorSearch VectorFail VectorMore
  VectorFinal VectorFinal2 AliasSpec AliasProofs.
From Verif Require Import StringModel StringSpec StringDriver StringBytes StringProofs StringFinal StringFinal2.
From Coq Require Import ZifyBool ZifyNat ZifyN.

Section Vectors.
  Context {C : Type}.
  Notation vec := (vector C).
  Implicit Types (w : Mem.world C) (v : vec).

  Lemma insert_own_reached w v xs i j n : reached w v xs -> 1 <= n -> i + n <= nlen xs -> j <= nlen xs ->
    nlen xs + n <= snd (vget_capacity v) ->
    exists p, vget v i w = Ok (Some p) w /\
      (if (i + n <=? j) || (j + n <=? i)
       then exists v' w', vinsert_range v j (Some p) n w = Ok (ST_SUCCESS, v') w' /\
         shows w' v' (linsert j (nsub (if i + n <=? j then i else i - n) n xs) xs) /\ dlog w' = dlog w
       else vinsert_range v j (Some p) n w = Fault Overlapping).
  Proof.
    intros H N1 I J L. destruct (reached_rep _ _ _ H) as (pre & post & R & F & NF).
    eexists. split; [apply (own_pointer _ _ _ _ _ i R); lia|].
    pose proof (insert_own w v pre xs post i j n R N1 I J L) as X.
    destruct ((i + n <=? j) || (j + n <=? i)); [|exact X].
    destruct X as (v' & w' & E & G & D). exists v', w'. split; [exact E|]. split; [|exact D].
    eapply rep_shows, G.
  Qed.
  Lemma insert_own_after w v xs i j n : reached w v xs -> 1 <= n -> i + n <= j -> j <= nlen xs ->
    nlen xs + n <= snd (vget_capacity v) ->
    exists p v' w', vget v i w = Ok (Some p) w /\ vinsert_range v j (Some p) n w = Ok (ST_SUCCESS, v') w' /\
      shows w' v' (linsert j (nsub i n xs) xs) /\ dlog w' = dlog w.
  Proof.
    intros H N1 I J L. destruct (insert_own_reached w v xs i j n H N1 ltac:(lia) J L) as (p & E & X).
    replace (i + n <=? j) with true in X by lia. cbn [orb] in X. destruct X as (v' & w' & X). now exists p, v', w'.
  Qed.
  Lemma insert_own_before w v xs i j n : reached w v xs -> 1 <= n -> j + n <= i -> i + n <= nlen xs ->
    nlen xs + n <= snd (vget_capacity v) ->
    exists p v' w', vget v i w = Ok (Some p) w /\ vinsert_range v j (Some p) n w = Ok (ST_SUCCESS, v') w' /\
      shows w' v' (linsert j (nsub (i - n) n xs) xs).
  Proof.
    intros H N1 I J L. destruct (insert_own_reached w v xs i j n H N1 J ltac:(lia) L) as (p & E & X).
    replace (j + n <=? i) with true in X by lia. replace (i + n <=? j) with false in X by lia.
    cbn [orb] in X. destruct X as (v' & w' & X1 & X2 & _). now exists p, v', w'.
  Qed.
  Lemma insert_own_over w v xs i j n : reached w v xs -> 1 <= n -> i + n <= nlen xs -> j <= nlen xs -> j < i + n -> i < j + n ->
    nlen xs + n <= snd (vget_capacity v) ->
    exists p, vget v i w = Ok (Some p) w /\ vinsert_range v j (Some p) n w = Fault Overlapping.
  Proof.
    intros H N1 I J A B L. destruct (insert_own_reached w v xs i j n H N1 I J L) as (p & E & X).
    replace (j + n <=? i) with false in X by lia. replace (i + n <=? j) with false in X by lia. now exists p.
  Qed.
  Lemma insert_own_full w v xs i j n : reached_own w v xs -> 1 <= n -> i + n <= nlen xs -> j <= nlen xs ->
    room (nlen xs + n) (v_esz v) -> snd (vget_capacity v) < nlen xs + n ->
    exists p, vget v i w = Ok (Some p) w /\ vinsert_range v j (Some p) n w = Fault UseAfterFree.
  Proof.
    intros H N1 I J F L. destruct (reached_own_rep _ _ _ H) as (R & _ & A & O).
    eexists. split; [apply (own_pointer _ _ _ _ _ i R); lia|].
    eapply insert_own_grow; eauto. intros _. apply O.
  Qed.
  Lemma push_own_full w v xs i : reached_own w v xs -> i < nlen xs ->
    room (nlen xs + 1) (v_esz v) -> nlen xs = snd (vget_capacity v) ->
    exists p, vget v i w = Ok (Some p) w /\ vpush_back v (Some p) w = Fault UseAfterFree.
  Proof.
    intros H I F L. destruct (reached_own_rep _ _ _ H) as (R & _ & A & O). cbn [vget_capacity snd] in L.
    eexists. split; [apply (own_pointer _ _ _ _ _ i R); lia|].
    eapply push_own_grow; eauto; [intros _; apply O|lia].
  Qed.
  Lemma set_own_reached w v xs i j x y : reached w v xs -> nnth i xs = Some y -> nnth j xs = Some x -> i <> j ->
    exists p w', vget v j w = Ok (Some p) w /\ vset v i (Some p) w = Ok (ST_SUCCESS, v) w' /\
      shows w' v (lset i x xs) /\ dlog w' = dlog w ++ (match v_dtor v with Some _ => [y] | None => [] end).
  Proof.
    intros H NY NX D. destruct (reached_rep _ _ _ H) as (pre & post & R & F & NF).
    pose proof (set_own w v pre xs post i j x y R NY NX) as X. replace (i =? j) with false in X by lia.
    destruct X as (w' & E & G & DL). eexists. exists w'. split; [apply (own_pointer _ _ _ _ _ j R); eapply nnth_lt; eauto|].
    split; [exact E|]. split; [eapply rep_shows, G|exact DL].
  Qed.
  Lemma set_own_same w v xs i : reached w v xs -> i < nlen xs ->
    exists p, vget v i w = Ok (Some p) w /\ vset v i (Some p) w = Fault Overlapping.
  Proof.
    intros H L. destruct (reached_rep _ _ _ H) as (pre & post & R & F & NF). destruct (nnth_exists _ _ L) as [x NX].
    pose proof (set_own w v pre xs post i i x x R NX NX) as X. rewrite N.eqb_refl in X.
    eexists. split; [apply (own_pointer _ _ _ _ _ i R L)|exact X].
  Qed.
  Lemma swap_same_reached w v xs i : reached w v xs -> i < nlen xs -> nlen xs < snd (vget_capacity v) ->
    vswap v i i w = Fault Overlapping.
  Proof.
    intros H L F. destruct (reached_rep _ _ _ H) as (pre & post & R & _ & NF). cbn [vget_capacity snd] in F.
    rewrite (swap_same _ _ _ _ _ _ R L). now replace (nlen xs =? v_cap v) with false by lia.
  Qed.

  Lemma resize_own_reached w v xs i x n : reached w v xs -> room n (v_esz v) -> nlen xs < n -> nnth i xs = Some x ->
    exists p, vget v i w = Ok (Some p) w /\
     (if v_alloc v && resize_moves v n then vresize_ex v n (Some p) w = Fault UseAfterFree
      else if v_cap v <? n then vresize_ex v n (Some p) w = Ok (ST_INSUFFICIENT_BUFFER_SIZE, v) w
      else exists v' w', vresize_ex v n (Some p) w = Ok (ST_SUCCESS, v') w' /\
        shows w' v' (xs ++ nrepeat x (n - nlen xs)) /\ dlog w' = dlog w).
  Proof.
    intros H F L NX. destruct (reached_rep _ _ _ H) as (pre & post & R & _ & NF).
    eexists. split; [apply (own_pointer _ _ _ _ _ i R); eapply nnth_lt; eauto|].
    pose proof (resize_own w v pre xs post i x n R (nofail_grants _ _ NF) F L NX) as X.
    destruct (v_alloc v && resize_moves v n); [exact X|]. destruct (v_cap v <? n); [exact X|].
    destruct X as (w' & E & G & D). exists (set_size v n), w'. split; [exact E|]. split; [eapply rep_shows, G|exact D].
  Qed.
  Lemma resize_own_stays w v xs i x n : reached w v xs -> room n (v_esz v) -> nlen xs < n -> nnth i xs = Some x ->
    resize_moves v n = false ->
    exists p v' w', vget v i w = Ok (Some p) w /\ vresize_ex v n (Some p) w = Ok (ST_SUCCESS, v') w' /\
        shows w' v' (xs ++ nrepeat x (n - nlen xs)) /\ dlog w' = dlog w.
  Proof.
    intros H F L NX M. destruct (resize_own_reached w v xs i x n H F L NX) as (p & E & X). rewrite M, andb_false_r in X.
    unfold resize_moves in M. apply orb_false_iff in M as [M _]. rewrite M in X. destruct X as (v' & w' & X).
    now exists p, v', w'.
  Qed.
  Lemma resize_own_moves w v xs i n : reached_own w v xs -> room n (v_esz v) -> nlen xs < n -> i < nlen xs ->
    resize_moves v n = true ->
    exists p, vget v i w = Ok (Some p) w /\ vresize_ex v n (Some p) w = Fault UseAfterFree.
  Proof.
    intros H F L LI M. destruct (nnth_exists _ _ LI) as [x NX].
    destruct (resize_own_reached w v xs i x n (or_introl H) F L NX) as (p & E & X). rewrite M in X.
    destruct (reached_own_rep _ _ _ H) as (_ & _ & A & _). rewrite A in X. now exists p.
  Qed.
End Vectors.

(** ** Strings *)
Lemma own_part_ptr w s pre cs post q i n : srep w s pre cs post -> own_part q s i n ->
  sdata q = Some (mkptr (blk (s_vec s)) (nlen pre + i)) /\ ssize q = n + 1.
Proof.
  intros [R FL] [A B]. split; [|exact B]. rewrite A. unfold sget_data. cbn [snd]. unfold sdata.
  apply (brep_at _ _ _ _ _ _ R).
Qed.
Lemma cells_len l : nlen (cells l) = nlen l.
Proof. unfold cells, nlen. now rewrite map_length. Qed.
Lemma cells_nsub i n l : nsub i n (cells l) = cells (nsub i n l).
Proof. unfold nsub, nfirst, nskip, cells. now rewrite <- firstn_map, <- skipn_map. Qed.
Lemma cells_linsert i x l : linsert i (cells x) (cells l) = cells (nfirst i l ++ x ++ nskip i l).
Proof. unfold linsert, nfirst, nskip, cells. now rewrite !map_app, <- firstn_map, <- skipn_map. Qed.

Lemma insert_part w s pre cs post q i j n : srep w s pre cs post -> own_part q s i n -> snofail w s -> sroom (nlen cs + n) ->
  1 <= n -> i + n <= nlen cs -> j <= nlen cs ->
  if v_cap (s_vec s) <? nlen cs + n + 1
  then (v_alloc (s_vec s) = true -> sinsert s j q w = Fault UseAfterFree)
  else if (i + n <=? j) || (j + n <=? i)
  then exists s' w', sinsert s j q w = Ok (ST_SUCCESS, s') w' /\
    srep w' s' pre (nfirst j cs ++ nsub (if i + n <=? j then i else i - n) n cs ++ nskip j cs) post
  else sinsert s j q w = Fault Overlapping.
Proof.
  intros SR OP NF F N1 I J. destruct (own_part_ptr _ _ _ _ _ _ _ _ SR OP) as [PD PS]. pose proof SR as [BR FL].
  pose proof BR as (R & E1 & DT). unfold sroom in F.
  unfold sinsert. rewrite PS, PD, (srep_size _ _ _ _ _ SR). replace (n + 1 =? 0) with false by lia.
  replace (j =? nlen cs + 1) with false by lia. replace (nlen cs + 1 <=? j) with false by lia.
  rewrite wsub_small by lia. replace (n + 1 - 1) with n by lia.
  assert (LL : nlen (cells (cs ++ [0])) = nlen cs + 1) by (rewrite cells_len, nlen_app; reflexivity).
  destruct (N.ltb_spec (v_cap (s_vec s)) (nlen cs + n + 1)) as [LC|LC].
  - intros A. apply bind_fault. eapply insert_own_grow; eauto.
    + now apply nofail_grants. + rewrite LL, E1. unfold fits. lia. + lia. + lia.
  - pose proof (insert_own w (s_vec s) pre _ post i j n R N1 ltac:(lia) ltac:(lia) ltac:(lia)) as X.
    rewrite E1, N.mul_1_r in X.
    destruct ((i + n <=? j) || (j + n <=? i)); [|now apply bind_fault].
    destruct X as (v' & w' & E & G & D). rewrite (bind_ok _ _ _ _ _ E). change (negb (st_success ST_SUCCESS)) with false. cbv iota.
    rewrite cells_nsub, cells_linsert in G.
    set (k := if i + n <=? j then i else i - n) in *.
    assert (KL : k + n <= nlen cs) by (unfold k; destruct (i + n <=? j); lia).
    assert (EQ : nfirst j (cs ++ [0]) ++ nsub k n (cs ++ [0]) ++ nskip j (cs ++ [0]) =
                 (nfirst j cs ++ nsub k n cs ++ nskip j cs) ++ [0]).
    { unfold nsub, nfirst, nskip. rewrite !firstn_app, !skipn_app, !firstn_app.
      unfold nlen in *. 
      replace (N.to_nat j - length cs)%nat with 0%nat by lia.
      replace (N.to_nat n - length (skipn (N.to_nat k) cs))%nat with 0%nat by (rewrite skipn_length; lia).
      cbn [firstn skipn]. rewrite !app_nil_r. rewrite <- !app_assoc. reflexivity. }
    rewrite EQ in G.
    destruct G as [G1 G2 G3]. destruct G2 as (C1 & C2 & C3 & C4 & C5).
    assert (BR' : brep w' v' pre ((nfirst j cs ++ nsub k n cs ++ nskip j cs) ++ [0]) post)
      by (split; [exact G1|split; congruence]).
    rewrite (bind_ok _ _ _ _ _ (assert_null_ok w' (with_vec s v') _ _ _ BR')).
    exists (with_vec s v'), w'. split; [reflexivity|]. split; [exact BR'|]. cbn [s_vec s_flags with_vec].
    rewrite FL. now replace (v_alloc v') with (v_alloc (s_vec s)) by congruence.
Qed.

Lemma insert_part_after w s cs q i j n : sreached w s cs -> own_part q s i n -> sroom (nlen cs + n) ->
  1 <= n -> i + n <= j -> j <= nlen cs -> nlen cs + n + 1 <= snd (vget_capacity (s_vec s)) ->
  exists s' w', sinsert s j q w = Ok (ST_SUCCESS, s') w' /\ sshows w' s' (nfirst j cs ++ nsub i n cs ++ nskip j cs).
Proof.
  intros H OP F N1 I J L. cbn [vget_capacity snd] in L. apply sreached_rep in H as (pre & post & R & NF).
  pose proof (insert_part w s pre cs post q i j n R OP NF F N1 ltac:(lia) J) as X.
  replace (v_cap (s_vec s) <? nlen cs + n + 1) with false in X by lia. replace (i + n <=? j) with true in X by lia.
  cbn [orb] in X. destruct X as (s' & w' & E & R'). exists s', w'. split; [exact E|]. eapply srep_shows, R'.
Qed.
Lemma insert_part_before w s cs q i j n : sreached w s cs -> own_part q s i n -> sroom (nlen cs + n) ->
  1 <= n -> j + n <= i -> i + n <= nlen cs -> nlen cs + n + 1 <= snd (vget_capacity (s_vec s)) ->
  exists s' w', sinsert s j q w = Ok (ST_SUCCESS, s') w' /\ sshows w' s' (nfirst j cs ++ nsub (i - n) n cs ++ nskip j cs).
Proof.
  intros H OP F N1 I J L. cbn [vget_capacity snd] in L. apply sreached_rep in H as (pre & post & R & NF).
  pose proof (insert_part w s pre cs post q i j n R OP NF F N1 ltac:(lia) ltac:(lia)) as X.
  replace (v_cap (s_vec s) <? nlen cs + n + 1) with false in X by lia. replace (i + n <=? j) with false in X by lia.
  replace (j + n <=? i) with true in X by lia.
  cbn [orb] in X. destruct X as (s' & w' & E & R'). exists s', w'. split; [exact E|]. eapply srep_shows, R'.
Qed.
Lemma insert_part_over w s cs q i j n : sreached w s cs -> own_part q s i n -> sroom (nlen cs + n) ->
  1 <= n -> i + n <= nlen cs -> j <= nlen cs -> j < i + n -> i < j + n -> nlen cs + n + 1 <= snd (vget_capacity (s_vec s)) ->
  sinsert s j q w = Fault Overlapping.
Proof.
  intros H OP F N1 I J A B L. cbn [vget_capacity snd] in L. apply sreached_rep in H as (pre & post & R & NF).
  pose proof (insert_part w s pre cs post q i j n R OP NF F N1 I J) as X.
  replace (v_cap (s_vec s) <? nlen cs + n + 1) with false in X by lia. replace (i + n <=? j) with false in X by lia.
  replace (j + n <=? i) with false in X by lia. exact X.
Qed.
Lemma insert_part_full w s cs q i j n : sreached_own w s cs -> own_part q s i n -> sroom (nlen cs + n) ->
  1 <= n -> i + n <= nlen cs -> j <= nlen cs -> snd (vget_capacity (s_vec s)) < nlen cs + n + 1 ->
  sinsert s j q w = Fault UseAfterFree.
Proof.
  intros H OP F N1 I J L. cbn [vget_capacity snd] in L. apply sreached_own_rep in H as (R & NF & A).
  pose proof (insert_part w s _ cs _ q i j n R OP NF F N1 I J) as X.
  replace (v_cap (s_vec s) <? nlen cs + n + 1) with true in X by lia. now apply X.
Qed.
Lemma self_part w s cs : sreached w s cs -> own_part s s 0 (nlen cs).
Proof.
  intros H. apply sreached_rep in H as (pre & post & R & NF). split; [|apply (srep_size _ _ _ _ _ R)].
  unfold sget_data. cbn [snd]. unfold sdata. destruct R as [R _]. rewrite (brep_at _ _ _ _ _ _ R), (brep_data _ _ _ _ _ R).
  now rewrite N.add_0_r.
Qed.
Lemma insert_self_faults w s cs j : sreached_own w s cs -> sroom (2 * nlen cs) -> j < nlen cs ->
  exists f, sinsert s j s w = Fault f /\ (f = Overlapping \/ f = UseAfterFree).
Proof.
  intros H F J. pose proof (self_part w s cs (or_introl H)) as OP.
  destruct (N.lt_ge_cases (snd (vget_capacity (s_vec s))) (nlen cs + nlen cs + 1)) as [L|L].
  - exists UseAfterFree. split; [|now right]. eapply (insert_part_full w s cs s 0 j (nlen cs)); eauto; try lia.
    now replace (nlen cs + nlen cs) with (2 * nlen cs) by lia.
  - exists Overlapping. split; [|now left]. eapply (insert_part_over w s cs s 0 j (nlen cs)); eauto; try lia. { now left. }
    now replace (nlen cs + nlen cs) with (2 * nlen cs) by lia.
Qed.

(** *** Append *)
Lemma append_part w s pre cs post q i n : srep w s pre cs post -> own_part q s i n -> snofail w s -> sroom (nlen cs + n) ->
  1 <= n -> i + n <= nlen cs ->
  if v_alloc (s_vec s) && resize_moves (s_vec s) (nlen cs + n + 1) then sappend s q w = Fault UseAfterFree
  else if v_cap (s_vec s) <? nlen cs + n + 1 then sappend s q w = Ok (ST_INSUFFICIENT_BUFFER_SIZE, s) w
  else exists s' w', sappend s q w = Ok (ST_SUCCESS, s') w' /\ srep w' s' pre (cs ++ nsub i n cs) post.
Proof.
  intros SR OP NF F N1 I. destruct (own_part_ptr _ _ _ _ _ _ _ _ SR OP) as [PD PS]. pose proof SR as [BR FL].
  pose proof BR as (R & E1 & DT). unfold sroom in F.
  unfold sappend. rewrite PS, PD, (srep_size _ _ _ _ _ SR). replace (n + 1 =? 0) with false by lia.
  rewrite wadd_small by lia. rewrite !wsub_small by lia.
  replace (nlen cs + 1 + (n + 1) - 1) with (nlen cs + n + 1) by lia.
  replace (nlen cs + 1 - 1) with (nlen cs) by lia. replace (n + 1 - 1) with n by lia.
  assert (LL : nlen (cells (cs ++ [0])) = nlen cs + 1) by (rewrite cells_len, nlen_app; reflexivity).
  pose proof (resize_move w (s_vec s) pre _ post (nlen cs + n + 1) R (nofail_grants _ _ NF)) as X.
  specialize (X ltac:(rewrite E1; unfold fits; lia) ltac:(lia)).
  destruct (v_alloc (s_vec s) && resize_moves (s_vec s) (nlen cs + n + 1)).
  - destruct X as (w1 & v1 & E & B & HN & PV & SZ). rewrite (bind_ok _ _ _ _ _ E).
    change (negb (st_success ST_SUCCESS)) with false. cbv iota. apply bind_fault.
    unfold sdata. cbn [s_vec with_vec]. rewrite PV. cbn [padd].
    eapply memcpy_dangling; [exact HN|reflexivity|cbn [pb]; congruence].
  - destruct (N.ltb_spec (v_cap (s_vec s)) (nlen cs + n + 1)) as [LC|LC].
    + rewrite (bind_ok _ _ _ _ _ X). change (negb (st_success ST_INSUFFICIENT_BUFFER_SIZE)) with true. cbv iota.
      now rewrite with_vec_self.
    + rewrite (bind_ok _ _ _ _ _ X). change (negb (st_success ST_SUCCESS)) with false. cbv iota.
      destruct (rep_extend w (s_vec s) _ pre _ post n (rep_self _ _ _ _ _ R)) as (ts & Lt & Kt & R1).
      { rewrite LL. lia. }
      rewrite E1 in Kt. apply cells_of in Kt. rewrite Kt in R1, Lt. set (t := concat ts) in *. rewrite cells_len in Lt.
      clearbody t. clear Kt ts. rewrite LL in R1. replace (nlen cs + 1 + n) with (nlen cs + n + 1) in R1 by lia.
      set (s1 := with_vec s (set_size (s_vec s) (nlen cs + n + 1))).
      assert (B1 : brep w (s_vec s1) pre ((cs ++ [0]) ++ t) post).
      { split; [|now split]. unfold cells in *. rewrite map_app. exact R1. }
      assert (ST : exists b z, (cs ++ [0]) ++ t = cs ++ b ++ [z] /\ nlen b = n).
      { destruct (nsplit n (0 :: t)) as (b & z & E & LB). { rewrite nlen_cons. lia. }
        assert (LZ : nlen z = 1). { apply (f_equal nlen) in E. rewrite nlen_cons, nlen_app in E. lia. }
        destruct z as [|z [|? ?]]; [discriminate| |rewrite !nlen_cons in LZ; lia].
        exists b, z. split; [|exact LB]. rewrite <- app_assoc. cbn [app]. now rewrite E. }
      destruct ST as (b & z & EB & LB). rewrite EB in B1.
      assert (LS : nlen (nsub i n cs) = n) by (apply nlen_nsub; lia).
      destruct (bwrite_ok w (s_vec s1) pre cs b (nsub i n cs) [z] post B1) as (w1 & EW & GW). { lia. }
      pose proof (bread_ok w (s_vec s1) pre (nfirst i cs) (nsub i n cs) (nskip (i + n) cs ++ b ++ [z]) post) as RD.
      rewrite LS in RD. rewrite nlen_nfirst in RD. replace (N.min i (nlen cs)) with i in RD by lia.
      rewrite (brep_at _ _ _ _ _ _ B1) in RD. rewrite (brep_at _ _ _ _ _ _ B1) in EW.
      assert (RD' := RD ltac:(replace (nfirst i cs ++ nsub i n cs ++ nskip (i + n) cs ++ b ++ [z]) with (cs ++ b ++ [z]);
        [exact B1|rewrite <- (nthree i n cs) at 1; now rewrite <- !app_assoc])). clear RD.
      assert (MC : memcpy (padd (sdata s1) (nlen cs)) (Some (mkptr (blk (s_vec s)) (nlen pre + i))) n w = Ok tt w1).
      { unfold sdata. rewrite (brep_at _ _ _ _ _ _ B1). unfold memcpy.
        match goal with |- context [overlap ?a ?b ?c] => replace (overlap a b c) with false end.
        2:{ unfold overlap. cbn [pb po]. lia. }
        unfold memmove. change (blk (s_vec s1)) with (blk (s_vec s)) in *. rewrite (bind_ok _ _ _ _ _ RD'). exact EW. }
      rewrite (bind_ok _ _ _ _ _ MC).
      destruct (nullterminate_ok w1 s1 pre (cs ++ nsub i n cs) z post) as (w2 & E2 & G2).
      { rewrite <- app_assoc. exact (b_rep _ _ _ _ _ _ _ GW). }
      rewrite (bind_ok _ _ _ _ _ E2). exists s1, w2. split; [reflexivity|]. split; [apply G2|exact FL].
Qed.
Lemma append_part_stays w s cs q i n : sreached w s cs -> own_part q s i n -> sroom (nlen cs + n) ->
  1 <= n -> i + n <= nlen cs -> resize_moves (s_vec s) (nlen cs + n + 1) = false ->
  exists s' w', sappend s q w = Ok (ST_SUCCESS, s') w' /\ sshows w' s' (cs ++ nsub i n cs).
Proof.
  intros H OP F N1 I M. apply sreached_rep in H as (pre & post & R & NF).
  pose proof (append_part w s pre cs post q i n R OP NF F N1 I) as X. rewrite M, andb_false_r in X.
  unfold resize_moves in M. apply orb_false_iff in M as [M _]. rewrite M in X. destruct X as (s' & w' & E & R').
  exists s', w'. split; [exact E|]. eapply srep_shows, R'.
Qed.
Lemma append_part_moves w s cs q i n : sreached_own w s cs -> own_part q s i n -> sroom (nlen cs + n) ->
  1 <= n -> i + n <= nlen cs -> resize_moves (s_vec s) (nlen cs + n + 1) = true ->
  sappend s q w = Fault UseAfterFree.
Proof.
  intros H OP F N1 I M. apply sreached_own_rep in H as (R & NF & A).
  pose proof (append_part w s _ cs _ q i n R OP NF F N1 I) as X. now rewrite M, A in X.
Qed.

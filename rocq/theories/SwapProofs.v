(** Rearranging with SwapElements. *)
From Verif Require Import Base NListFacts Status MemFacts VectorModel VectorSpec VectorDriver
  VectorRep VectorProofs VectorProofs2 VectorProofs3 VectorRefine VectorSearch VectorFail VectorMore VectorFinal VectorFinal2 PurgeProofs SwapDriver Mem.
From Coq Require Import ZifyBool ZifyNat ZifyN Sorting.Permutation Sorting.Sorted.

Section SwapProofs.
  Context {C : Type}.
  Implicit Types (w : world C) (v : vector C).

  Lemma in_place_refl w v : in_place w v w.
  Proof. repeat split. Qed.
  Lemma in_place_trans w1 v w2 w3 : in_place w1 v w2 -> in_place w2 v w3 -> in_place w1 v w3.
  Proof.
    intros (D & H) (D' & H'). split; [congruence|]. intros b B. rewrite H' by exact B. auto.
  Qed.
  Lemma reached_size w v xs : reached w v xs -> vget_size v = (ST_SUCCESS, nlen xs).
  Proof. intros [R|R]; repeat (destruct R as [? R]); assumption. Qed.
  Lemma reached_read w v xs i : reached w v xs -> read_elem v i w = Ok (nnth i xs) w.
  Proof. intros R. destruct (reached_rep _ _ _ R) as (pre & post & RR & _). eapply read_elem_ok; eauto. Qed.
  Lemma reached_esz w v xs x : reached w v xs -> In x xs -> nlen x = v_esz v.
  Proof.
    intros R I. destruct (reached_rep _ _ _ R) as (pre & post & RR & _). pose proof (r_chunk _ _ _ _ _ RR) as K.
    unfold chunked in K. rewrite Forall_forall in K. now apply K.
  Qed.

  (** One swap. *)
  Lemma swap_two w v a x b y c : reached w v (a ++ x :: b ++ y :: c) -> nlen (a ++ x :: b ++ y :: c) < snd (vget_capacity v) ->
    exists w', vswap v (nlen a) (nlen a + 1 + nlen b) w = Ok (ST_SUCCESS, v) w' /\
      reached w' v (a ++ y :: b ++ x :: c) /\ in_place w v w'.
  Proof.
    intros R L. destruct (reached_rep _ _ _ R) as (pre & post & RR & _).
    unfold vget_capacity in L. cbn [snd] in L.
    destruct (swap_ok w v pre _ post (nlen a) (nlen a + 1 + nlen b) RR) as (r & w' & v' & xs' & E & G & S); [lia|].
    assert (v' = v) as ->.
    { clear - E. unfold vswap, ret, bind in E. repeat match type of E with
      | (if ?b then _ else _) _ = _ => destruct b
      | match ?m with _ => _ end = _ => destruct m
      end; congruence. }
    cbn [vspec s_elems s_cap s_log] in S.
    assert (NL : nlen (a ++ x :: b ++ y :: c) = nlen a + 1 + nlen b + 1 + nlen c) by (rewrite nlen_app, nlen_cons, nlen_app, nlen_cons; lia).
    rewrite NL in *.
    replace ((nlen a + 1 + nlen b + 1 + nlen c <=? nlen a) || (nlen a + 1 + nlen b + 1 + nlen c <=? nlen a + 1 + nlen b)) with false in S by lia.
    destruct (N.eqb_spec (nlen a + 1 + nlen b + 1 + nlen c) (v_cap v)); [lia|].
    destruct S as [-> S]. injection S as S1 S2.
    assert (LS : lswap (nlen a) (nlen a + 1 + nlen b) (a ++ x :: b ++ y :: c) = a ++ y :: b ++ x :: c).
    { assert (K : forall z, a ++ z :: b ++ y :: c = (a ++ z :: b) ++ y :: c) by (intros; now rewrite <- app_assoc).
      unfold lswap. rewrite nnth_mid by reflexivity. rewrite K at 1.
      rewrite nnth_mid by (rewrite nlen_app, nlen_cons; lia).
      rewrite lset_split by reflexivity. rewrite K. rewrite lset_split by (rewrite nlen_app, nlen_cons; lia).
      now rewrite <- app_assoc. }
    rewrite LS in S1. subst xs'. exists w'. split; [exact E|]. split.
    - apply (reached_on w v (a ++ x :: b ++ y :: c) (OSwap (nlen a) (nlen a + 1 + nlen b)) ST_SUCCESS); [exact R| |reflexivity|exact E|].
      + intros e. cbn [arg_ok]. lia.
      + eapply rep_shows. apply G.
    - split; [exact S2|]. intros b' B.
      assert (b' <> blk v). { intros ->. apply B. pose proof (r_data _ _ _ _ _ RR) as P. rewrite P. reflexivity. }
      now apply (fr_heap _ _ _ _ (g_frame _ _ _ _ _ _ _ G)).
  Qed.
  Lemma swap_full w v xs i j : reached w v xs -> nlen xs = snd (vget_capacity v) -> i < nlen xs -> j < nlen xs ->
    vswap v i j w = Ok (ST_INSUFFICIENT_BUFFER_SIZE, v) w.
  Proof.
    intros R L I J. destruct (reached_rep _ _ _ R) as (pre & post & RR & _).
    unfold vget_capacity in L. cbn [snd] in L. unfold vswap. rewrite (r_size _ _ _ _ _ RR).
    replace ((nlen xs <=? i) || (nlen xs <=? j)) with false by lia. rewrite <- L, N.eqb_refl. reflexivity.
  Qed.

  (** The sort as a function. *)
  Section Order.
    Context (cmp : list C -> list C -> Z).
    Fixpoint sunk (ra : list (list C)) (x : list C) : list (list C) :=
      match ra with
      | [] => [x]
      | y :: ra' => if (0 <? cmp y x)%Z then sunk ra' x ++ [y] else rev ra ++ [x]
      end.
    Fixpoint sorted_so_far (done todo : list (list C)) : list (list C) :=
      match todo with [] => done | x :: todo => sorted_so_far (sunk (rev done) x) todo end.

    Lemma nlen_sunk ra x : nlen (sunk ra x) = nlen ra + 1.
    Proof.
      induction ra as [|y ra IH]; cbn [sunk]; [reflexivity|]. destruct (0 <? cmp y x)%Z.
      - rewrite nlen_app, IH. change (nlen [y]) with 1. rewrite nlen_cons. lia.
      - rewrite nlen_app, nlen_rev. reflexivity.
    Qed.

    Lemma sink_run : forall ra w v x b,
      reached w v (rev ra ++ x :: b) -> nlen (rev ra ++ x :: b) < snd (vget_capacity v) ->
      exists w', sink cmp v (length ra) w = Ok (ST_SUCCESS, v) w' /\ reached w' v (sunk ra x ++ b) /\ in_place w v w'.
    Proof.
      induction ra as [|y ra IH]; intros w v x b R L; cbn [sink length sunk].
      - exists w. split; [reflexivity|]. split; [exact R|apply in_place_refl].
      - cbn [rev] in R, L. rewrite <- app_assoc in R, L. cbn [app] in R, L.
        assert (LR : nlen (rev ra) = N.of_nat (length ra)) by (rewrite nlen_rev; reflexivity).
        rewrite (bind_ok _ _ _ _ _ (reached_read _ _ _ (N.of_nat (length ra)) R)).
        rewrite (bind_ok _ _ _ _ _ (reached_read _ _ _ (N.of_nat (length ra) + 1) R)).
        rewrite nnth_mid by exact LR.
        replace (rev ra ++ y :: x :: b) with ((rev ra ++ [y]) ++ x :: b) by now rewrite <- app_assoc.
        rewrite nnth_mid by (rewrite nlen_app, LR; reflexivity).
        destruct (0 <? cmp y x)%Z eqn:G.
        + destruct (swap_two w v (rev ra) y [] x b R L) as (w1 & E1 & R1 & P1).
          change (nlen (@nil (list C))) with 0 in E1. rewrite N.add_0_r, LR in E1.
          rewrite (bind_ok _ _ _ _ _ E1). cbv iota. change (st_success ST_SUCCESS) with true. cbv iota. cbn [app] in R1.
          destruct (IH w1 v x (y :: b) R1) as (w2 & E2 & R2 & P2).
          { revert L. rewrite !nlen_app, !nlen_cons. lia. }
          exists w2. split; [exact E2|]. rewrite <- app_assoc. split; [exact R2|]. eapply in_place_trans; eauto.
        + exists w. split; [reflexivity|]. split; [|apply in_place_refl]. cbn [rev]. rewrite <- !app_assoc. exact R.
    Qed.
    Lemma sort_run : forall todo done w v,
      reached w v (done ++ todo) -> nlen (done ++ todo) < snd (vget_capacity v) ->
      exists w', sort_loop cmp v (length done) (length todo) w = Ok (ST_SUCCESS, v) w' /\
        reached w' v (sorted_so_far done todo) /\ in_place w v w'.
    Proof.
      induction todo as [|x todo IH]; intros done w v R L; cbn [sort_loop length sorted_so_far].
      - rewrite app_nil_r in R. exists w. split; [reflexivity|]. split; [exact R|apply in_place_refl].
      - destruct (sink_run (rev done) w v x todo) as (w1 & E1 & R1 & P1); [now rewrite rev_involutive|now rewrite rev_involutive|].
        rewrite rev_length in E1. rewrite (bind_ok _ _ _ _ _ E1). cbv iota. change (st_success ST_SUCCESS) with true. cbv iota.
        destruct (IH (sunk (rev done) x) w1 v R1) as (w2 & E2 & R2 & P2).
        { revert L. rewrite !nlen_app, nlen_cons, nlen_sunk, nlen_rev. lia. }
        assert (LN : length (sunk (rev done) x) = Datatypes.S (length done)).
        { pose proof (nlen_sunk (rev done) x) as K. rewrite nlen_rev in K. unfold nlen in K. lia. }
        rewrite LN in E2. exists w2. split; [exact E2|]. split; [exact R2|]. eapply in_place_trans; eauto.
    Qed.

    Lemma sunk_perm ra x : Permutation (sunk ra x) (rev ra ++ [x]).
    Proof.
      induction ra as [|y ra IH]; cbn [sunk rev]; [reflexivity|]. destruct (0 <? cmp y x)%Z; [|reflexivity].
      rewrite IH. rewrite <- !app_assoc. apply Permutation_app_head. cbn [app]. constructor.
    Qed.
    Lemma sorted_perm todo : forall done, Permutation (done ++ todo) (sorted_so_far done todo).
    Proof.
      induction todo as [|x todo IH]; intros done; cbn [sorted_so_far]; [now rewrite app_nil_r|].
      rewrite <- IH, sunk_perm, rev_involutive, <- app_assoc. reflexivity.
    Qed.

    Context (e : N) (CO : cmp_order e cmp).
    Definition le x y := (cmp x y <= 0)%Z.
    Lemma ss_app (a b : list (list C)) : StronglySorted le a -> StronglySorted le b ->
      (forall x y, In x a -> In y b -> le x y) -> StronglySorted le (a ++ b).
    Proof.
      induction a as [|h a IH]; intros A B H; [exact B|]. cbn. apply StronglySorted_inv in A as [A F].
      constructor; [apply IH; auto; intros; apply H; auto; now right|]. apply Forall_app. split; [exact F|].
      apply Forall_forall. intros y Y. apply H; [now left|exact Y].
    Qed.
    Lemma ss_snoc_inv (a : list (list C)) x : StronglySorted le (a ++ [x]) -> StronglySorted le a /\ (forall y, In y a -> le y x).
    Proof.
      induction a as [|h a IH]; intros H; [split; [constructor|intros y []]|]. cbn in H.
      apply StronglySorted_inv in H as [H F]. destruct (IH H) as [I J]. apply Forall_app in F as [F1 F2].
      split; [constructor; assumption|]. intros y [->|Y]; [now inversion F2|auto].
    Qed.
    Lemma sunk_sorted ra x : nlen x = e -> Forall (fun y => nlen y = e) ra -> StronglySorted le (rev ra) -> StronglySorted le (sunk ra x).
    Proof.
      intros X. induction ra as [|y ra IH]; intros F S; cbn [sunk].
      - repeat constructor.
      - apply Forall_cons_iff in F as [Y F]. cbn [rev] in S. pose proof S as S0. apply ss_snoc_inv in S as [S H].
        destruct CO as [CO1 CO2]. destruct (0 <? cmp y x)%Z eqn:G.
        + apply ss_app; [now apply IH|repeat constructor|]. intros z t Z [<-|[]].
          apply (Permutation_in _ (sunk_perm ra x)) in Z. apply in_app_iff in Z as [Z|[<-|[]]]; [now apply H|].
          unfold le. apply CO1; [assumption..|]. lia.
        + cbn [rev]. apply ss_app; [exact S0|repeat constructor|]. intros z t Z [<-|[]].
          assert (YX : le y x) by (unfold le; lia).
          apply in_app_iff in Z as [Z|[<-|[]]]; [|exact YX]. 
          assert (nlen z = e). { rewrite Forall_forall in F. apply F. now apply in_rev. }
          unfold le in *. eapply (CO2 z y x); auto.
    Qed.
    Lemma sorted_sorted todo : forall done, Forall (fun y => nlen y = e) done -> Forall (fun y => nlen y = e) todo ->
      StronglySorted le done -> StronglySorted le (sorted_so_far done todo).
    Proof.
      induction todo as [|x todo IH]; intros done D T S; cbn [sorted_so_far]; [exact S|].
      apply Forall_cons_iff in T as [X T]. apply IH; [|exact T|].
      - apply Forall_forall. intros z Z. apply (Permutation_in _ (sunk_perm _ x)) in Z. rewrite rev_involutive in Z.
        apply in_app_iff in Z as [Z|[<-|[]]]; [|exact X]. rewrite Forall_forall in D. auto.
      - apply sunk_sorted; [exact X|now apply Forall_rev|now rewrite rev_involutive].
    Qed.
    Lemma sunk_stable z ra x : nlen z = e -> nlen x = e -> Forall (fun y => nlen y = e) ra ->
      filter (fun x => Z.eqb (cmp x z) 0) (sunk ra x) = filter (fun x => Z.eqb (cmp x z) 0) (rev ra ++ [x]).
    Proof.
      intros Z X. induction ra as [|y ra IH]; intros F; cbn [sunk]; [reflexivity|]. apply Forall_cons_iff in F as [Y F].
      destruct (0 <? cmp y x)%Z eqn:G; [|reflexivity]. cbn [rev]. rewrite filter_app, (IH F), !filter_app, <- !app_assoc. f_equal.
      cbn [filter]. destruct (Z.eqb_spec (cmp x z) 0) as [E1|]; [|now rewrite app_nil_r].
      destruct (Z.eqb_spec (cmp y z) 0) as [E2|]; [|reflexivity]. exfalso. destruct CO as [CO1 CO2].
      assert (cmp z x <= 0)%Z by (apply CO1; [assumption..|lia]).
      assert (cmp y x <= 0)%Z by (eapply (CO2 y z x); auto; lia). lia.
    Qed.
    Lemma sorted_stable z todo : nlen z = e -> forall done, Forall (fun y => nlen y = e) done -> Forall (fun y => nlen y = e) todo ->
      filter (fun x => Z.eqb (cmp x z) 0) (sorted_so_far done todo) = filter (fun x => Z.eqb (cmp x z) 0) (done ++ todo).
    Proof.
      intros Z. induction todo as [|x todo IH]; intros done D T; cbn [sorted_so_far]; [now rewrite app_nil_r|].
      apply Forall_cons_iff in T as [X T]. rewrite IH; [|apply Forall_forall|exact T].
      - rewrite filter_app, sunk_stable; [|assumption..|now apply Forall_rev]. rewrite rev_involutive, <- filter_app, <- app_assoc. reflexivity.
      - intros y I. apply (Permutation_in _ (sunk_perm _ x)) in I. rewrite rev_involutive in I.
        apply in_app_iff in I as [I|[<-|[]]]; [|exact X]. rewrite Forall_forall in D. auto.
    Qed.
    Lemma ss_range (xs : list (list C)) : StronglySorted le xs -> sorted_range cmp xs 0 (nlen xs).
    Proof.
      intros S i j x y _ IJ _ X Y. apply nnth_some in X as (a & c & -> & LA). 
      assert (SC : Forall (le x) c).
      { clear - S. induction a as [|h a IH]; cbn in S; apply StronglySorted_inv in S as [S F]; auto. }
      replace (a ++ x :: c) with ((a ++ [x]) ++ c) in Y by now rewrite <- app_assoc.
      rewrite nnth_app2 in Y by (rewrite nlen_app; change (nlen [x]) with 1; lia).
      apply nnth_some in Y as (c1 & c2 & -> & _). rewrite Forall_forall in SC. apply SC, in_app_iff. right. now left.
    Qed.
  End Order.

  Lemma sort_ok w v xs cmp : reached w v xs -> nlen xs < snd (vget_capacity v) -> cmp_order (v_esz v) cmp ->
    exists w' ys, sort_by cmp v w = Ok (ST_SUCCESS, v) w' /\ reached w' v ys /\ in_place w v w' /\
      Permutation xs ys /\ sorted_range cmp ys 0 (nlen ys) /\ stable cmp (v_esz v) xs ys.
  Proof.
    intros R L CO. destruct (sort_run cmp xs [] w v R L) as (w' & E & R' & P).
    assert (F : Forall (fun y => nlen y = v_esz v) xs) by (apply Forall_forall; intros x; now apply (reached_esz w v xs)).
    exists w', (sorted_so_far cmp [] xs). split; [|split; [exact R'|split; [exact P|split; [|split]]]].
    - unfold sort_by. rewrite (reached_size _ _ _ R). cbn [snd]. unfold nlen. rewrite Nnat.Nat2N.id. exact E.
    - apply (sorted_perm cmp xs []).
    - apply ss_range. apply (sorted_sorted cmp (v_esz v) CO xs []); [constructor|exact F|constructor].
    - intros z Z. apply (sorted_stable cmp (v_esz v) CO z xs Z []); [constructor|exact F].
  Qed.

  Lemma app_eq_len {A} : forall a a' b b' : list A, a ++ b = a' ++ b' -> length a = length a' -> a = a' /\ b = b'.
  Proof.
    induction a as [|x a IH]; intros [|x' a'] b b' E L; try discriminate; [auto|]. cbn in E, L. injection E as -> E. injection L as L.
    destruct (IH _ _ _ E L) as [-> ->]. auto.
  Qed.
  (** Nothing to do, or no room to do it. *)
  Lemma sink_look w v a x y b cmp : reached w v (a ++ x :: y :: b) ->
    sink cmp v (Datatypes.S (length a)) w =
      if (0 <? cmp x y)%Z then
        bind (vswap v (N.of_nat (length a)) (N.of_nat (length a) + 1)) (fun '(st, v) => if st_success st then sink cmp v (length a) else ret (st, v)) w
      else Ok (ST_SUCCESS, v) w.
  Proof.
    intros R. cbn [sink].
    rewrite (bind_ok _ _ _ _ _ (reached_read _ _ _ (N.of_nat (length a)) R)).
    rewrite (bind_ok _ _ _ _ _ (reached_read _ _ _ (N.of_nat (length a) + 1) R)).
    rewrite nnth_mid by reflexivity.
    replace (a ++ x :: y :: b) with ((a ++ [x]) ++ y :: b) by now rewrite <- app_assoc.
    rewrite nnth_mid by (rewrite nlen_app; reflexivity). now destruct (0 <? cmp x y)%Z.
  Qed.
  Lemma sort_still w v cmp : forall todo done, reached w v (done ++ todo) -> 
    (forall a x y b, done ++ todo = a ++ x :: y :: b -> nlen done <= nlen a + 1 -> (cmp x y <= 0)%Z) ->
    sort_loop cmp v (length done) (length todo) w = Ok (ST_SUCCESS, v) w.
  Proof.
    induction todo as [|t todo IH]; intros done R H; cbn [sort_loop length]; [reflexivity|].
    assert (E : sink cmp v (length done) w = Ok (ST_SUCCESS, v) w).
    { destruct done as [|h done0] using rev_ind; [reflexivity|clear IHdone0].
      rewrite <- app_assoc in R. cbn [app] in R. rewrite app_length. cbn [length]. rewrite Nat.add_1_r, (sink_look w v done0 h t todo cmp R).
      assert (cmp h t <= 0)%Z.
      { apply (H done0 h t todo); [now rewrite <- app_assoc|]. rewrite nlen_app. change (nlen [h]) with 1. lia. }
      now replace (0 <? cmp h t)%Z with false by lia. }
    rewrite (bind_ok _ _ _ _ _ E). cbv iota. change (st_success ST_SUCCESS) with true. cbv iota.
    replace (Datatypes.S (length done)) with (length (done ++ [t])) by (rewrite app_length; cbn [length]; lia).
    apply IH; [now rewrite <- app_assoc|]. intros a x y b EQ LE. apply (H a x y b); [now rewrite <- EQ, <- app_assoc|].
    rewrite nlen_app in LE. change (nlen [t]) with 1 in LE. lia.
  Qed.
  Lemma order_split cmp (xs : list (list C)) a x y b : in_order cmp xs -> xs = a ++ x :: y :: b -> (cmp x y <= 0)%Z.
  Proof.
    intros O ->. apply (O (nlen a)); [now apply nnth_mid|].
    replace (a ++ x :: y :: b) with ((a ++ [x]) ++ y :: b) by now rewrite <- app_assoc.
    apply nnth_mid. rewrite nlen_app. reflexivity.
  Qed.
  Lemma sort_untouched w v xs cmp : reached w v xs -> in_order cmp xs -> sort_by cmp v w = Ok (ST_SUCCESS, v) w.
  Proof.
    intros R O. unfold sort_by. rewrite (reached_size _ _ _ R). cbn [snd]. unfold nlen. rewrite Nnat.Nat2N.id.
    apply (sort_still w v cmp xs [] R). intros a x y b E _. eapply order_split; eauto.
  Qed.
  Lemma sort_stuck w v cmp : forall todo done, reached w v (done ++ todo) -> nlen (done ++ todo) = snd (vget_capacity v) ->
    (exists a x y b, done ++ todo = a ++ x :: y :: b /\ nlen done <= nlen a + 1 /\ (0 < cmp x y)%Z) ->
    sort_loop cmp v (length done) (length todo) w = Ok (ST_INSUFFICIENT_BUFFER_SIZE, v) w.
  Proof.
    induction todo as [|t todo IH]; intros done R L H; cbn [sort_loop length].
    { destruct H as (a & x & y & b & EQ & LE & _). rewrite app_nil_r in EQ. subst done. rewrite nlen_app, !nlen_cons in LE. lia. }
    destruct H as (a & x & y & b & EQ & LE & GT).
    assert (D : exists s, sink cmp v (length done) w = Ok (s, v) w /\
      (s = ST_INSUFFICIENT_BUFFER_SIZE \/ s = ST_SUCCESS /\ nlen done <> nlen a + 1)).
    { destruct done as [|h done0] using rev_ind; [exists ST_SUCCESS; split; [reflexivity|right; split; [reflexivity|]]; change (nlen (@nil (list C))) with 0; lia|clear IHdone0].
      rewrite <- app_assoc in R, L. cbn [app] in R, L. rewrite app_length. cbn [length]. rewrite Nat.add_1_r, (sink_look w v done0 h t todo cmp R).
      destruct (0 <? cmp h t)%Z eqn:G.
      - exists ST_INSUFFICIENT_BUFFER_SIZE. split; [|now left].
        erewrite bind_ok; [|eapply swap_full; [exact R|exact L| |]]; [reflexivity|rewrite nlen_app, !nlen_cons; unfold nlen; lia..].
      - exists ST_SUCCESS. split; [reflexivity|]. right. split; [reflexivity|]. rewrite nlen_app. change (nlen [h]) with 1.
        intros K. assert (nlen done0 = nlen a) as K' by lia. rewrite <- app_assoc in EQ. cbn [app] in EQ.
        assert (KL : length done0 = length a) by (unfold nlen in K'; lia).
        destruct (app_eq_len _ _ _ _ EQ KL) as [_ EQ2]. injection EQ2 as -> -> _. lia. }
    destruct D as (s & E & [->|[-> NE]]); rewrite (bind_ok _ _ _ _ _ E); cbv iota; [reflexivity|].
    change (st_success ST_SUCCESS) with true. cbv iota.
    replace (Datatypes.S (length done)) with (length (done ++ [t])) by (rewrite app_length; cbn [length]; lia).
    apply IH; [now rewrite <- app_assoc|now rewrite <- app_assoc|]. exists a, x, y, b. rewrite <- app_assoc. split; [exact EQ|].
    split; [|exact GT]. rewrite nlen_app. change (nlen [t]) with 1. lia.
  Qed.
  Lemma sort_full w v xs cmp : reached w v xs -> nlen xs = snd (vget_capacity v) -> ~ in_order cmp xs ->
    sort_by cmp v w = Ok (ST_INSUFFICIENT_BUFFER_SIZE, v) w.
  Proof.
    intros R L NO. unfold sort_by. rewrite (reached_size _ _ _ R). cbn [snd]. unfold nlen at 1. rewrite Nnat.Nat2N.id.
    apply (sort_stuck w v cmp xs [] R L).
    assert (D : in_order cmp xs \/ exists a x y b, xs = a ++ x :: y :: b /\ (0 < cmp x y)%Z).
    { clear. induction xs as [|x [|y xs] IH].
      - left. intros i x y X. apply nnth_some in X as (a & c & X & _). destruct a; discriminate.
      - left. intros i x0 y X Y. apply nnth_lt in Y. change (nlen [x]) with 1 in Y. lia.
      - destruct IH as [IH|(a & x' & y' & b & E & G)].
        + destruct (Z.ltb_spec 0 (cmp x y)) as [G|G]; [right; now exists [], x, y, xs|]. left.
          intros i x' y' X Y. destruct (N.eq_dec i 0) as [->|NZ]; [injection X as <-; injection Y as <-; exact G|].
          replace (x :: y :: xs) with ([x] ++ y :: xs) in X, Y by reflexivity.
          rewrite nnth_app2 in X, Y by (change (nlen [x]) with 1; lia). change (nlen [x]) with 1 in X, Y.
          apply (IH (i - 1)); [exact X|]. now replace (i - 1 + 1) with (i + 1 - 1) by lia.
        + right. exists (x :: a), x', y', b. split; [cbn [app]; now rewrite E|exact G]. }
    destruct D as [D|(a & x & y & b & E & G)]; [now destruct NO|]. exists a, x, y, b. split; [exact E|]. split; [change (nlen (@nil (list C))) with 0; lia|exact G].
  Qed.

  (** Sorting and searching. *)
  Lemma sort_search w v xs cmp y : reached w v xs -> nlen xs < snd (vget_capacity v) -> cmp_order (v_esz v) cmp -> nlen y = v_esz v ->
    exists w1 r k w2, sort_by cmp v w = Ok (ST_SUCCESS, v) w1 /\
      with_arg y (fun p => vbinary_search v p cmp) w1 = Ok (r, Some k) w2 /\
      (r = ST_TRUE /\ (exists x, In x xs /\ cmp x y = 0%Z) \/ r = ST_FALSE /\ forall x, In x xs -> cmp x y <> 0%Z).
  Proof.
    intros R L CO Y. destruct (sort_ok w v xs cmp R L CO) as (w1 & ys & E & R1 & _ & P & S & _).
    destruct (bsearch_all_reached w1 v ys y cmp R1 Y CO S) as (r & k & w2 & E2 & _ & Q & _).
    exists w1, r, k, w2. split; [exact E|]. split; [exact E2|]. destruct Q as [[-> (j & x & X & Z)]|[-> Q]]; [left|right]; (split; [reflexivity|]).
    - exists x. split; [|exact Z]. apply (Permutation_in _ (Permutation_sym P)). apply nnth_some in X as (a & c & -> & _). apply in_elt.
    - intros x X. apply (Permutation_in _ P) in X. apply in_split in X as (a & c & ->). apply (Q (nlen a)). now apply nnth_mid.
  Qed.

  (** Reversing. *)
  Lemma reverse_run w0 v : forall n w a m b, reached w v (a ++ m ++ b) -> nlen (a ++ m ++ b) < snd (vget_capacity v) -> in_place w0 v w ->
    N.of_nat n = nlen m / 2 -> 
    exists w', reverse_loop v (nlen a) (nlen a + nlen m - 1) n w = Ok (ST_SUCCESS, v) w' /\ reached w' v (a ++ rev m ++ b) /\ in_place w0 v w'.
  Proof.
    induction n as [|n IH]; intros w a m b R L P N; cbn [reverse_loop].
    - exists w. split; [reflexivity|]. split; [|exact P]. assert (nlen m < 2) by (destruct (N.ltb_spec (nlen m) 2); [assumption|]; assert (1 <= nlen m / 2) by (apply N.div_le_lower_bound; lia); lia).
      destruct m as [|x [|y m]]; [exact R|exact R|]. rewrite !nlen_cons in *. lia.
    - assert (2 <= nlen m). { destruct (N.ltb_spec (nlen m) 2) as [K|]; [|assumption]. rewrite (N.div_small _ _ K) in N. lia. }
      destruct m as [|x m]; [change (nlen (@nil (list C))) with 0 in *; lia|].
      destruct (@exists_last _ m) as (m1 & y & ->); [intros ->; change (nlen [x]) with 1 in *; lia|].
      cbn [app] in R, L. rewrite <- app_assoc in R, L. cbn [app] in R, L.
      destruct (swap_two w v a x m1 y b R L) as (w1 & E1 & R1 & P1).
      assert (ML : nlen (x :: m1 ++ [y]) = nlen m1 + 2) by (rewrite nlen_cons, nlen_app; change (nlen [y]) with 1; lia).
      rewrite ML in *. replace (nlen a + (nlen m1 + 2) - 1) with (nlen a + 1 + nlen m1) by lia.
      rewrite (bind_ok _ _ _ _ _ E1). cbv iota. change (st_success ST_SUCCESS) with true. cbv iota.
      destruct (IH w1 (a ++ [y]) m1 (x :: b)) as (w2 & E2 & R2 & P2).
      { rewrite <- app_assoc. exact R1. }
      { revert L. rewrite <- app_assoc. cbn [app]. rewrite !nlen_app, !nlen_cons, !nlen_app, !nlen_cons. lia. }
      { eapply in_place_trans; eauto. }
      { replace (nlen m1 + 2) with (nlen m1 + 1 * 2) in N by lia. rewrite N.div_add in N by lia. lia. }
      rewrite nlen_app in E2. change (nlen [y]) with 1 in E2.
      replace (nlen a + 1 + nlen m1 - 1) with (nlen a + 1 + nlen m1 - 1) in E2 by lia.
      exists w2. split; [exact E2|]. split; [|exact P2]. cbn [rev]. rewrite rev_app_distr. cbn [rev app].
      rewrite <- !app_assoc in *. cbn [app] in *. exact R2.
  Qed.
  Lemma reverse_ok w v xs : reached w v xs -> nlen xs < snd (vget_capacity v) ->
    exists w', reverse v w = Ok (ST_SUCCESS, v) w' /\ reached w' v (rev xs) /\ in_place w v w'.
  Proof.
    intros R L. unfold reverse. rewrite (reached_size _ _ _ R). cbn [snd].
    destruct (reverse_run w v (N.to_nat (nlen xs / 2)) w [] xs []) as (w' & E & R' & P).
    { cbn [app]. now rewrite app_nil_r. } { cbn [app]. now rewrite app_nil_r. } { apply in_place_refl. } { lia. }
    exists w'. cbn [app] in R'. rewrite app_nil_r in R'. change (nlen (@nil (list C))) with 0 in E. rewrite N.add_0_l in E. auto.
  Qed.
  Lemma reverse_full w v xs : reached w v xs -> nlen xs = snd (vget_capacity v) -> 
    reverse v w = Ok (if nlen xs <? 2 then ST_SUCCESS else ST_INSUFFICIENT_BUFFER_SIZE, v) w.
  Proof.
    intros R L. unfold reverse. rewrite (reached_size _ _ _ R). cbn [snd]. destruct (N.ltb_spec (nlen xs) 2) as [K|K].
    - rewrite (N.div_small _ _ K). reflexivity.
    - assert (1 <= nlen xs / 2) by (apply N.div_le_lower_bound; lia).
      destruct (N.to_nat (nlen xs / 2)) as [|n] eqn:E; [lia|]. cbn [reverse_loop].
      rewrite (bind_ok _ _ _ _ _ (swap_full w v xs 0 (nlen xs - 1) R L ltac:(lia) ltac:(lia))). reflexivity.
  Qed.
End SwapProofs.

(** How many memory requests the list functions make, and what their answers lead to. *)
From Verif Require Import Base NListFacts Status Mem MemFacts VectorModel VectorDriver RefuseProofs ListModel ListSpec ListDriver ListHeap ListRep
  ListProofs ListProofs2 ListFinal ListFinal2 ListAskSpec.
From Coq Require Import ZifyBool ZifyNat ZifyN.

Definition still {A} (m : M A) : Prop := forall w a w', m w = Ok a w' -> tick w' = tick w /\ orc w' = orc w.
Lemma still_ret {A} (a : A) : still (ret a).
Proof. intros w x w' H. now injection H as <- <-. Qed.
Lemma still_bind {A B} (m : M A) (f : A -> M B) : still m -> (forall a, still (f a)) -> still (bind m f).
Proof.
  intros H K w b w2 E. unfold bind in E. destruct (m w) as [a w1|] eqn:F; [|discriminate E].
  apply H in F as [F1 F2]. apply K in E as [E1 E2]. split; congruence.
Qed.
Lemma still_fail {A} f : still (@fail cell A f).
Proof. intros w a w' H. discriminate H. Qed.
Lemma still_assert b : still (assert b).
Proof. intros w a w' H. destruct (assert_cases b w) as [E|E]; rewrite E in H; [|discriminate H]. now injection H as <- <-. Qed.
Lemma still_mread p n : still (mread p n).
Proof.
  intros w a w' H. unfold mread in H. destruct p as [q|]; [|discriminate H]. destruct (heap w (pb q)); [|discriminate H].
  destruct (_ <=? _); [|discriminate H]. now injection H as <- <-.
Qed.
Lemma still_mwrite p x : still (mwrite p x).
Proof.
  intros w a w' H. unfold mwrite in H. destruct p as [q|]; [|discriminate H]. destruct (heap w (pb q)); [|discriminate H].
  destruct (_ <=? _); [|discriminate H]. now injection H as <- <-.
Qed.
Lemma still_memcpy p q n : still (memcpy p q n).
Proof. unfold memcpy. destruct (overlap p q n); [apply still_fail|]. apply still_bind; [apply still_mread|intros; apply still_mwrite]. Qed.
Lemma still_dealloc p e n : still (dealloc p e n).
Proof.
  intros w a w' H. unfold dealloc in H.
  repeat match type of H with context [match ?x with _ => _ end] => destruct x; try discriminate H end; now injection H as <- <-.
Qed.
Lemma still_call_dtor f p e : still (call_dtor f p e).
Proof.
  intros w a w' H. unfold call_dtor in H. destruct (mread p e w) as [x w1|] eqn:R; [|discriminate H]. apply still_mread in R as [R1 R2].
  apply still_mwrite in H as [H1 H2]. cbn [tick orc] in *. split; congruence.
Qed.
Lemma still_if {A} (b : bool) (m n : M A) : still m -> still n -> still (if b then m else n).
Proof. now destruct b. Qed.
Lemma still_load p : still (load_ptr p).
Proof. apply still_bind; [apply still_mread|]. intros x. destruct (dec x); [apply still_ret|apply still_fail]. Qed.
Lemma still_store p q : still (store_ptr p q).
Proof. apply still_mwrite. Qed.
Lemma still_destroy_node l p : still (destroy_node l p).
Proof. unfold destroy_node. destruct (l_dtor l); [apply still_call_dtor|apply still_ret]. Qed.
Lemma still_ldealloc l p : still (ldealloc_node l p).
Proof.
  unfold ldealloc_node. apply still_if; apply still_bind; try intros; try apply still_ret; [apply still_dealloc|apply still_store].
Qed.
Lemma still_link_back l p : still (link_back l p).
Proof. unfold link_back. apply still_if; [apply still_ret|]. apply still_bind; [apply still_store|intros; apply still_ret]. Qed.
Lemma still_link_front l p : still (link_front l p).
Proof. unfold link_front. apply still_if; [apply still_ret|]. apply still_bind; [apply still_store|intros; apply still_ret]. Qed.
Lemma still_ctor f p e : still (call_ctor f p e).
Proof. unfold call_ctor. destruct f; [|apply still_ret]. apply still_bind; [apply still_mread|intros; apply still_mwrite]. Qed.
Lemma still_destroy_loop l fuel : forall p, still (destroy_loop l p fuel).
Proof.
  induction fuel as [|fuel IH]; intros [p|]; cbn [destroy_loop]; try apply still_ret; try apply still_fail.
  apply still_bind; [apply still_destroy_node|intros _]. apply still_bind; [apply still_load|intros nx].
  apply still_bind; [apply still_if; [apply still_dealloc|apply still_ret]|intros st]. apply still_if; [apply still_ret|apply IH].
Qed.
Lemma still_shrink n : forall l, still (shrink_loop l n).
Proof.
  induction n as [|n IH]; intros l; cbn [shrink_loop]; [apply still_ret|].
  apply still_bind; [apply still_destroy_node|intros _]. apply still_bind; [apply still_load|intros pv].
  apply still_bind; [apply still_if; [apply still_store|apply still_ret]|intros _].
  apply still_bind; [apply still_ldealloc|intros [st l']]. apply still_if; [apply still_ret|apply IH].
Qed.
Lemma still_resize l n init : n <= l_size l -> still (lresize_ex l n init).
Proof.
  intros L. unfold lresize_ex. apply still_if; [apply still_ret|]. apply still_if.
  - apply still_bind; [apply still_destroy_loop|intros st]. apply still_if; apply still_ret.
  - replace (l_size l <? n) with false by lia. apply still_bind; [apply still_shrink|intros [st l']]. apply still_if; apply still_ret.
Qed.
Lemma still_pop_back l : still (lpop_back l).
Proof.
  unfold lpop_back. apply still_if; [apply still_ret|]. apply still_bind; [apply still_destroy_node|intros _].
  apply still_bind; [apply still_load|intros pv]. apply still_bind; [apply still_if; [apply still_store|apply still_ret]|intros _]. apply still_ldealloc.
Qed.
Lemma still_pop_front l : still (lpop_front l).
Proof.
  unfold lpop_front. apply still_if; [apply still_ret|]. apply still_bind; [apply still_destroy_node|intros _].
  apply still_bind; [apply still_load|intros pv]. apply still_bind; [apply still_if; [apply still_store|apply still_ret]|intros _]. apply still_ldealloc.
Qed.
Lemma still_walk n : forall p, still (walk p n).
Proof.
  induction n as [|n IH]; intros p; cbn [walk]; [apply still_ret|]. apply still_bind; [|intros [st q]; apply IH].
  unfold lget_next_node. apply still_if; [apply still_ret|]. apply still_bind; [apply still_load|intros q; apply still_ret].
Qed.
Lemma still_set l p q : still (lset_node_data l p q).
Proof.
  unfold lset_node_data. apply still_if; [apply still_ret|]. apply still_bind; [apply still_destroy_node|intros _].
  apply still_bind; [apply still_assert|intros _]. apply still_bind; [apply still_memcpy|intros _; apply still_ret].
Qed.
Lemma still_with_arg {A} x (k : option ptr -> M A) : (forall p, still (k (Some p))) -> still (with_arg x k).
Proof.
  intros K w a w' H. unfold with_arg in H.
  match type of H with match k ?p ?w1 with _ => _ end = _ => destruct (k p w1) as [b w2|] eqn:F; [|discriminate H]; apply K in F end.
  injection H as <- <-. exact F.
Qed.
Lemma still_with_opt {A} x (k : option ptr -> M A) : (forall p, still (k p)) -> still (with_opt x k).
Proof. intros K. destruct x; cbn [with_opt]; [apply still_with_arg; intros p; apply K|apply K]. Qed.
Lemma still_op l o : adds_some (l_size l) o = false -> still (run_lop l o).
Proof.
  destruct o; cbn [adds_some adds_one]; intros H; try discriminate H; cbn [run_lop].
  - apply still_pop_back.
  - apply still_pop_front.
  - apply still_resize. lia.
  - apply still_with_opt. intros p. apply still_resize. lia.
  - apply still_bind; [apply still_walk|intros p]. apply still_with_arg. intros q. apply still_bind; [apply still_set|intros st; apply still_ret].
Qed.

(** ** One request *)
(** The answer to request [t] of [w] decides about the status. *)
Definition answered w (t : N) (r : status) : Prop := (grants w t /\ r = ST_SUCCESS) \/ (exists c, refuses w t c /\ r = err_status c).
Definition one {A} (m : M (status * A)) : Prop :=
  forall w r a w', m w = Ok (r, a) w' -> tick w' = tick w + 1 /\ orc w' = orc w /\ answered w (tick w) r.
Lemma alloc_node_one l w r l' p w' : l_alloc l = true -> lalloc_node l w = Ok (r, l', p) w' ->
  tick w' = tick w + 1 /\ orc w' = orc w /\ answered w (tick w) r /\ l' = l.
Proof.
  intros A H. unfold lalloc_node in H. rewrite A in H. unfold bind, alloc in H. destruct (_ && _); [discriminate H|].
  unfold answered, grants, refuses. destruct (orc w (tick w)) as [fill|c]; injection H as <- <- <- <-; cbn [tick orc]; repeat split; eauto.
Qed.
Lemma one_after {A} l (f : zlist -> option ptr -> M (status * A)) (g : status -> zlist -> option ptr -> A) : l_alloc l = true ->
  (forall l p, still (f l p)) -> (forall l p w r a w', f l p w = Ok (r, a) w' -> r = ST_SUCCESS) ->
  one (let* (st, l, p) := lalloc_node l in if negb (st_success st) then ret (st, g st l p) else f l p).
Proof.
  intros AL ST SU w r a w' H. unfold bind in H. destruct (lalloc_node l w) as [[[st l'] p] w1|] eqn:E; [|discriminate H].
  apply alloc_node_one in E as (T & O & AN & ->); [|exact AL]. destruct AN as [[G ->]|(c & R & ->)].
  - change (negb (st_success ST_SUCCESS)) with false in H. cbn iota in H. pose proof (SU _ _ _ _ _ _ H) as ->. apply ST in H as [H1 H2].
    split; [congruence|]. split; [congruence|]. now left.
  - rewrite st_success_err in H. cbn [negb] in H. injection H as <- <- <-. split; [exact T|]. split; [exact O|]. right. eauto.
Qed.
Lemma ret_success {A} (m : M zlist) (k : zlist -> A) w r a w' : (let* l := m in ret (ST_SUCCESS, k l)) w = Ok (r, a) w' -> r = ST_SUCCESS.
Proof. unfold bind, ret. destruct (m w); [|discriminate]. now intros [= <- <- <-]. Qed.
Lemma then_success {A B} (m : M B) (f : B -> M (status * A)) : (forall b w r a w', f b w = Ok (r, a) w' -> r = ST_SUCCESS) ->
  forall w r a w', bind m f w = Ok (r, a) w' -> r = ST_SUCCESS.
Proof. intros H w r a w' E. unfold bind in E. destruct (m w); [|discriminate E]. eapply H, E. Qed.
Lemma one_push_back l p : l_alloc l = true -> one (lpush_back l (Some p)).
Proof.
  intros AL. unfold lpush_back. cbn [nonnull negb]. apply (one_after l _ (fun _ l _ => l) AL); [intros l' q|intros l' q].
  - repeat (apply still_bind; [first [apply still_store|apply still_memcpy|apply still_link_back]|intros]). apply still_ret.
  - do 3 (apply then_success; intros _). apply ret_success.
Qed.
Lemma one_push_front l p : l_alloc l = true -> one (lpush_front l (Some p)).
Proof.
  intros AL. unfold lpush_front. cbn [nonnull negb]. apply (one_after l _ (fun _ l _ => l) AL); [intros l' q|intros l' q].
  - repeat (apply still_bind; [first [apply still_store|apply still_memcpy|apply still_link_front]|intros]). apply still_ret.
  - do 3 (apply then_success; intros _). apply ret_success.
Qed.
(** Emplace returns three values. *)
Definition one3 {A B} (m : M (status * A * B)) : Prop :=
  forall w r a b w', m w = Ok (r, a, b) w' -> tick w' = tick w + 1 /\ orc w' = orc w /\ answered w (tick w) r.
Lemma one_after3 {A B} l (f : zlist -> option ptr -> M (status * A * B)) (g : status -> zlist -> option ptr -> A) (h : B) : l_alloc l = true ->
  (forall l p, still (f l p)) -> (forall l p w r a b w', f l p w = Ok (r, a, b) w' -> r = ST_SUCCESS) ->
  one3 (let* (st, l, p) := lalloc_node l in if negb (st_success st) then ret (st, g st l p, h) else f l p).
Proof.
  intros AL ST SU w r a b w' H. unfold bind in H. destruct (lalloc_node l w) as [[[st l'] p] w1|] eqn:E; [|discriminate H].
  apply alloc_node_one in E as (T & O & AN & ->); [|exact AL]. destruct AN as [[G ->]|(c & R & ->)].
  - change (negb (st_success ST_SUCCESS)) with false in H. cbn iota in H. pose proof (SU _ _ _ _ _ _ _ H) as ->. apply ST in H as [H1 H2].
    split; [congruence|]. split; [congruence|]. now left.
  - rewrite st_success_err in H. cbn [negb] in H. injection H as <- <- <- <-. split; [exact T|]. split; [exact O|]. right. eauto.
Qed.
Lemma then_success3 {A B C} (m : M C) (f : C -> M (status * A * B)) : (forall b w r a c w', f b w = Ok (r, a, c) w' -> r = ST_SUCCESS) ->
  forall w r a c w', bind m f w = Ok (r, a, c) w' -> r = ST_SUCCESS.
Proof. intros H w r a c w' E. unfold bind in E. destruct (m w); [|discriminate E]. eapply H, E. Qed.
Lemma one_emplace_back l f : l_alloc l = true -> one3 (lemplace_back l f).
Proof.
  intros AL. unfold lemplace_back. apply (one_after3 l _ (fun _ l _ => l) None AL); [intros l' q|intros l' q].
  - repeat (apply still_bind; [first [apply still_store|apply still_ctor|apply still_link_back]|intros]). apply still_ret.
  - do 4 (apply then_success3; intros ?). now intros w r a c w' [= <- <- <- <-].
Qed.
Lemma one_emplace_front l f : l_alloc l = true -> one3 (lemplace_front l f).
Proof.
  intros AL. unfold lemplace_front. apply (one_after3 l _ (fun _ l _ => l) None AL); [intros l' q|intros l' q].
  - repeat (apply still_bind; [first [apply still_store|apply still_ctor|apply still_link_front]|intros]). apply still_ret.
  - do 4 (apply then_success3; intros ?). now intros w r a c w' [= <- <- <- <-].
Qed.
Lemma one_after_emplace (m : M (status * zlist * option ptr)) s : one3 m -> one (after_emplace m s).
Proof.
  intros O w r l w' H. unfold after_emplace, bind in H. destruct (m w) as [[[st l1] p] w1|] eqn:E; [|discriminate H]. apply O in E as (T & OO & AN).
  assert (S' : still (if st_success st then store_item p s else ret tt)).
  { apply still_if; [|apply still_ret]. destruct s; [apply still_mwrite|apply still_ret]. }
  destruct ((if st_success st then store_item p s else ret tt) w1) as [[] w2|] eqn:E2; [|discriminate H].
  apply S' in E2 as [X Y]. injection H as <- <- <-. split; [congruence|]. split; [congruence|exact AN].
Qed.
Lemma one_with_arg {A} x (k : option ptr -> M (status * A)) : (forall p, one (k (Some p))) -> one (with_arg x k).
Proof.
  intros K w r a w' H. unfold with_arg in H.
  match type of H with match k ?p ?w1 with _ => _ end = _ => destruct (k p w1) as [b w2|] eqn:F; [|discriminate H] end.
  injection H as -> <-. apply K in F. exact F.
Qed.
Lemma one_op l o : l_alloc l = true -> adds_one o = true -> one (run_lop l o).
Proof.
  intros AL. destruct o; cbn [adds_one]; intros H; try discriminate H; cbn [run_lop].
  - apply one_with_arg. intros p. now apply one_push_back.
  - apply one_with_arg. intros p. now apply one_push_front.
  - apply one_after_emplace. now apply one_emplace_back.
  - apply one_after_emplace. now apply one_emplace_front.
Qed.

(** ** Resize *)
Lemma link_back_size l p w l' w' : link_back l p w = Ok l' w' -> l_size l' = wadd (l_size l) 1 /\ l_alloc l' = l_alloc l.
Proof.
  unfold link_back. destruct (negb _); [intros [= <- <-]; now split|]. unfold bind. destruct (set_next _ _ w); [|discriminate].
  intros [= <- <-]. now split.
Qed.
Definition many w w' (n k : N) (r : status) : Prop :=
  grants_next w k /\ orc w' = orc w /\
  ((k = n /\ tick w' = tick w + k /\ r = ST_SUCCESS) \/
   (k < n /\ tick w' = tick w + k + 1 /\ exists c, refuses w (tick w + k) c /\ r = err_status c)).
Lemma grow_many init n : forall l w r l' w', l_alloc l = true -> l_size l + N.of_nat n < W64 -> grow_loop l init n w = Ok (r, l') w' ->
  exists k, l_size l' = l_size l + k /\ many w w' (N.of_nat n) k r.
Proof.
  induction n as [|n IH]; intros l w r l' w' AL LN H.
  - injection H as <- <- <-. exists 0. split; [lia|]. split; [intros i L; lia|]. split; [reflexivity|]. left. repeat split. lia.
  - cbn [grow_loop] in H. unfold bind in H at 1. destruct (lalloc_node l w) as [[[st l1] p] w1|] eqn:E; [|discriminate H].
    apply alloc_node_one in E as (T & O & AN & ->); [|exact AL]. destruct AN as [[G ->]|(c & R & ->)].
    + change (negb (st_success ST_SUCCESS)) with false in H. cbn iota in H.
      unfold bind in H at 1. destruct (set_prev p (l_tail l) w1) as [[] w2|] eqn:E1; [|discriminate H]. apply still_store in E1 as [T1 O1].
      unfold bind in H at 1. destruct (set_next p None w2) as [[] w3|] eqn:E2; [|discriminate H]. apply still_store in E2 as [T2 O2].
      unfold bind in H at 1.
      assert (S' : still (if nonnull init then memcpy (node_data p) init (l_esz l) else ret tt)) by (apply still_if; [apply still_memcpy|apply still_ret]).
      destruct ((if nonnull init then memcpy (node_data p) init (l_esz l) else ret tt) w3) as [[] w4|] eqn:E3; [|discriminate H]. apply S' in E3 as [T3 O3].
      unfold bind in H at 1. destruct (link_back l p w4) as [l2 w5|] eqn:E4; [|discriminate H].
      pose proof (link_back_size _ _ _ _ _ E4) as [LS LA]. apply still_link_back in E4 as [T4 O4]. rewrite wadd_small in LS by lia.
      assert (AL2 : l_alloc l2 = true) by congruence. assert (LN2 : l_size l2 + N.of_nat n < W64) by lia.
      destruct (IH _ _ _ _ _ AL2 LN2 H) as (k & LK & GN & OO & C).
      assert (TT : tick w5 = tick w + 1) by congruence. assert (OE : orc w5 = orc w) by congruence.
      exists (k + 1). split; [lia|]. split; [|split; [congruence|]].
      * intros i L. destruct (N.eq_dec i 0) as [->|]; [now rewrite N.add_0_r|]. specialize (GN (i - 1) ltac:(lia)). unfold grants in *.
        rewrite OE, TT in GN. replace (tick w + i) with (tick w + 1 + (i - 1)) by lia. exact GN.
      * unfold refuses in *. rewrite TT, OE in C. destruct C as [(-> & C2 & C3)|(C1 & C2 & c & C3 & C4)]; [left|right].
        -- split; [lia|]. split; [lia|exact C3].
        -- split; [lia|]. split; [lia|]. exists c. replace (tick w + (k + 1)) with (tick w + 1 + k) by lia. auto.
    + rewrite st_success_err in H. cbn [negb] in H. injection H as <- <- <-. exists 0. split; [lia|]. split; [intros i L; lia|].
      split; [exact O|]. right. split; [lia|]. split; [lia|]. exists c. now rewrite N.add_0_r.
Qed.
Lemma resize_many l n init w r l' w' : l_alloc l = true -> l_size l < n -> n < W64 -> run_lop l (LResize n init) w = Ok (r, l') w' ->
  exists k, l_size l' = l_size l + k /\ many w w' (n - l_size l) k r.
Proof.
  intros AL L NW H. cbn [run_lop] in H.
  assert (K : forall p w r l' w', lresize_ex l n p w = Ok (r, l') w' -> exists k, l_size l' = l_size l + k /\ many w w' (n - l_size l) k r).
  { clear H. intros p w1 r1 l1 w1' H. unfold lresize_ex in H. replace (n =? l_size l) with false in H by lia. replace (n =? 0) with false in H by lia.
    replace (l_size l <? n) with true in H by lia. apply grow_many in H; [|exact AL|lia]. now rewrite N2Nat.id in H. }
  destruct init as [x|]; cbn [with_opt] in H; [|now apply K in H].
  unfold with_arg in H. match type of H with match lresize_ex l n ?p ?w1 with _ => _ end = _ => destruct (lresize_ex l n p w1) as [b w2|] eqn:F; [|discriminate H] end.
  injection H as -> <-. apply K in F. exact F.
Qed.

(** ** Reached lists *)
Lemma reached_alloc limit w l xs : lreached limit w l xs -> l_alloc l = match limit with None => true | Some _ => false end /\ l_size l = nlen xs.
Proof.
  intros RE. destruct (reached_rep _ _ _ _ RE) as (e & d & m & base & ps & us & -> & REP).
  destruct REP as (_ & (_ & _ & _ & _ & CF) & SZ & _). split; [|exact SZ]. destruct m; cbn [limit_of]; apply CF.
Qed.
Lemma shows_size w l ps xs : lshows w l ps xs -> l_size l = nlen xs.
Proof. intros (_ & S1 & _). now injection S1 as ->. Qed.
Lemma ask_add w l ps xs o : lreached None w l xs -> lshows w l ps xs -> larg_ok (l_esz l) o -> nlen xs + 1 < W64 -> adds_one o = true ->
  exists r l' w' ps' xs' gone new, run_lop l o w = Ok (r, l') w' /\ tick w' = tick w + 1 /\
    ((grants w (tick w) /\ r = ST_SUCCESS) \/ (exists c, refuses w (tick w) c /\ r = err_status c)) /\
    lspec (l_esz l) None (fails w) o xs r xs' gone new /\ lshows w' l' ps' xs' /\ lnodes o r ps ps'.
Proof.
  intros RE SH AO NW AD. destruct (reached_alloc _ _ _ _ RE) as [AL _].
  assert (DW : nlen xs + ldemand o < W64) by (destruct o; try discriminate AD; exact NW).
  destruct (reached_step _ _ _ _ _ _ RE SH AO DW) as (r & l' & w' & ps' & xs' & gone & new & R & SP & SH' & ND & _).
  exists r, l', w', ps', xs', gone, new. destruct (one_op l o AL AD _ _ _ _ R) as (T & _ & AN). auto 10.
Qed.
Lemma ask_none limit w l ps xs o : lreached limit w l xs -> lshows w l ps xs -> larg_ok (l_esz l) o -> nlen xs + ldemand o < W64 ->
  limit <> None \/ adds_some (nlen xs) o = false ->
  exists r l' w' ps' xs' gone new, run_lop l o w = Ok (r, l') w' /\ tick w' = tick w /\
    lspec (l_esz l) limit False o xs r xs' gone new /\ lshows w' l' ps' xs' /\ lnodes o r ps ps'.
Proof.
  intros RE SH AO DW C. destruct (reached_rep _ _ _ _ RE) as (e & d & m & base & ps0 & us & -> & REP).
  destruct (shows_unique _ _ _ _ _ _ SH (lrep_shows _ _ _ _ _ _ _ _ _ REP)) as [-> _].
  assert (EE : l_esz l = e) by apply REP. rewrite EE in *.
  destruct (run_lop_ok e d m base w l ps0 xs us o REP AO DW) as (w' & l' & r & ps' & us' & xs' & gone & new & R & SP & REP' & S & ND).
  exists r, l', w', ps', xs', gone, new. split; [exact R|].
  assert (SZ : l_size l = nlen xs) by apply REP.
  assert (NF : forall (fs : Prop) n r, limit_of e m <> None -> refusal (limit_of e m) fs n r -> refusal (limit_of e m) False n r).
  { intros fs n r1 NL. unfold refusal. destruct (full _ n); [auto|]. intros (X & _). congruence. }
  destruct C as [NL|AS].
  - assert (NG : m <> Grow) by (intros ->; apply NL; reflexivity). split; [apply S; exact NG|]. split; [|split; [eapply lrep_shows; eauto|exact ND]].
    destruct o; cbn [lspec] in *; try exact SP.
    + unfold added in *. destruct SP as [[X|[X Y]] Z]; split; auto. right. split; [eapply NF; eauto|exact Y].
    + unfold added in *. destruct SP as [[X|[X Y]] Z]; split; auto. right. split; [eapply NF; eauto|exact Y].
    + unfold added in *. destruct SP as (Z & x & EM & [X|[X Y]]); split; auto; exists x; split; auto. right. split; [eapply NF; eauto|exact Y].
    + unfold added in *. destruct SP as (Z & x & EM & [X|[X Y]]); split; auto; exists x; split; auto. right. split; [eapply NF; eauto|exact Y].
    + destruct (n =? 0); [exact SP|]. destruct (n <=? nlen xs); [exact SP|]. destruct SP as (X1 & X2 & X3 & [X|[X Y]]); repeat split; auto.
      right. split; [exact X|eapply NF; eauto].
  - split; [rewrite <- SZ in AS; exact (proj1 (still_op _ _ AS _ _ _ R))|]. split; [|split; [eapply lrep_shows; eauto|exact ND]].
    destruct o; cbn [adds_some adds_one] in AS; try discriminate AS; cbn [lspec] in *; try exact SP.
    replace (n <=? nlen xs) with true in * by lia. exact SP.
Qed.
Lemma ask_resize w l ps xs n init : lreached None w l xs -> lshows w l ps xs -> size_ok (l_esz l) init -> nlen xs < n -> nlen xs + n < W64 ->
  exists k r l' w' qs new, run_lop l (LResize n init) w = Ok (r, l') w' /\
    grants_next w k /\ nlen new = k /\ lshows w' l' (ps ++ qs) (xs ++ new) /\ Forall (initialised (l_esz l) init) new /\
    ((k = n - nlen xs /\ tick w' = tick w + k /\ r = ST_SUCCESS) \/
     (k < n - nlen xs /\ tick w' = tick w + k + 1 /\ exists c, refuses w (tick w + k) c /\ r = err_status c)).
Proof.
  intros RE SH AO L NW. destruct (reached_alloc _ _ _ _ RE) as [AL SZ].
  destruct (reached_step _ _ _ _ _ (LResize n init) RE SH AO NW) as (r & l' & w' & ps' & xs' & gone & new & R & SP & SH' & ND & _).
  destruct (resize_many l n init w r l' w' AL ltac:(lia) ltac:(lia) R) as (k & LK & GN & _ & C).
  cbn [lspec lnodes] in SP, ND. replace (n =? 0) with false in SP by lia. replace (n <=? nlen xs) with false in SP by lia.
  assert (LP : nlen ps = nlen xs) by (destruct SH as (X & _); unfold nlen; now rewrite X).
  replace (n <=? nlen ps) with false in ND by lia. destruct ND as [qs ->]. destruct SP as (_ & -> & F & _).
  pose proof (shows_size _ _ _ _ SH') as S'. rewrite nlen_app in S'.
  exists k, r, l', w', qs, new. rewrite SZ in *. split; [exact R|]. split; [exact GN|]. split; [lia|]. split; [exact SH'|]. split; [|exact C].
  destruct init; exact F.
Qed.
(** The requests determine [k]. *)
Lemma grants_refuses w t c : grants w t -> refuses w t c -> False.
Proof. intros (f & G) R. unfold refuses in R. congruence. Qed.
Lemma resize_fails w l ps xs n init k c : lreached None w l xs -> lshows w l ps xs -> size_ok (l_esz l) init -> nlen xs + n < W64 ->
  nlen xs + k < n -> grants_next w k -> refuses w (tick w + k) c ->
  exists l' w' qs new, run_lop l (LResize n init) w = Ok (err_status c, l') w' /\ nlen new = k /\
    lshows w' l' (ps ++ qs) (xs ++ new) /\ Forall (initialised (l_esz l) init) new /\ tick w' = tick w + k + 1.
Proof.
  intros RE SH AO NW L G RF. destruct (ask_resize w l ps xs n init RE SH AO ltac:(lia) NW) as (j & r & l' & w' & qs & new & R & GN & LN & SH' & F & C).
  destruct C as [(-> & _ & _)|(LJ & T & c' & RF' & ->)]; [exfalso; eapply grants_refuses; [apply (GN k); lia|exact RF]|].
  assert (j = k).
  { destruct (N.lt_trichotomy j k) as [X|[X|X]]; [|exact X|]; exfalso; eapply grants_refuses.
    - apply (G j X). - exact RF'. - apply (GN k X). - exact RF. }
  subst j. assert (c' = c) by (unfold refuses in *; congruence). subst c'.
  exists l', w', qs, new. rewrite <- H. auto 10.
Qed.
Lemma resize_succeeds w l ps xs n init : lreached None w l xs -> lshows w l ps xs -> size_ok (l_esz l) init -> nlen xs + n < W64 ->
  nlen xs < n -> grants_next w (n - nlen xs) ->
  exists l' w' qs new, run_lop l (LResize n init) w = Ok (ST_SUCCESS, l') w' /\ nlen (xs ++ new) = n /\
    lshows w' l' (ps ++ qs) (xs ++ new) /\ Forall (initialised (l_esz l) init) new /\ tick w' = tick w + (n - nlen xs).
Proof.
  intros RE SH AO NW L G. destruct (ask_resize w l ps xs n init RE SH AO L NW) as (j & r & l' & w' & qs & new & R & GN & LN & SH' & F & C).
  destruct C as [(-> & T & ->)|(LJ & T & c' & RF' & _)]; [|exfalso; eapply grants_refuses; [apply (G j LJ)|exact RF']].
  exists l', w', qs, new. split; [exact R|]. split; [rewrite nlen_app; lia|]. auto.
Qed.
Lemma fixed_length e d b pre post cap base w l ps xs us : lrep e d (Fixed b pre post cap) base w l ps xs us -> nlen xs <= nodes_in cap e.
Proof.
  intros REP. pose proof REP as (_ & _ & _ & _ & _ & _ & CH & P). destruct P as (_ & _ & (k & K & C) & _ & _).
  assert (KN : N.of_nat k <= nodes_in cap e). { unfold nodes_in, NODE_SIZE. apply N.div_le_lower_bound; lia. }
  pose proof (Permutation.Permutation_length C) as LC. rewrite app_length, slots_len in LC. pose proof (chain_length _ _ _ _ _ _ CH) as LP.
  unfold nlen. lia.
Qed.
Lemma resize_full k w l ps xs n init : lreached (Some k) w l xs -> lshows w l ps xs -> size_ok (l_esz l) init -> nlen xs + n < W64 -> k < n ->
  exists l' w' qs new, run_lop l (LResize n init) w = Ok (ST_INSUFFICIENT_BUFFER_SIZE, l') w' /\ nlen (xs ++ new) = k /\
    lshows w' l' (ps ++ qs) (xs ++ new) /\ Forall (initialised (l_esz l) init) new /\ tick w' = tick w.
Proof.
  intros RE SH AO NW L. destruct (reached_rep _ _ _ _ RE) as (e & d & m & base & ps0 & us & LE & REP).
  destruct (shows_unique _ _ _ _ _ _ SH (lrep_shows _ _ _ _ _ _ _ _ _ REP)) as [-> _].
  assert (EE : l_esz l = e) by apply REP. rewrite EE in *. destruct m as [|b pre post cap]; [discriminate LE|]. injection LE as ->.
  pose proof (fixed_length _ _ _ _ _ _ _ _ _ _ _ _ REP) as LX.
  destruct (run_lop_ok e d _ base w l ps0 xs us (LResize n init) REP AO NW) as (w' & l' & r & ps' & us' & xs' & gone & new & R & SP & REP' & S & ND).
  pose proof (fixed_length _ _ _ _ _ _ _ _ _ _ _ _ REP') as LX'. pose proof (lrep_shows _ _ _ _ _ _ _ _ _ REP') as SH'.
  assert (LP : nlen ps0 = nlen xs) by (destruct SH as (X & _); unfold nlen; now rewrite X).
  cbn [lspec lnodes limit_of] in SP, ND. replace (n =? 0) with false in SP by lia. replace (n <=? nlen xs) with false in SP by lia.
  replace (n <=? nlen ps0) with false in ND by lia. destruct ND as [qs ->]. destruct SP as (_ & -> & F & [(X & _ & Y)|(X & Y)]).
  - cbn [full] in Y. lia.
  - unfold refusal, full in Y. destruct (N.leb_spec (nodes_in cap e) (nlen (xs ++ new))) as [Z|Z]; [|destruct Y as (Q & _); discriminate Q]. subst r.
    exists l', w', qs, new. split; [exact R|]. split; [lia|]. split; [exact SH'|]. split; [destruct init; exact F|]. apply S. discriminate.
Qed.

(** Every mutating string call behaves as the specification says. *)
From Verif Require Import Base NListFacts Status Mem MemFacts VectorModel VectorSpec VectorDriver
  VectorRep VectorProofs VectorProofs2 VectorProofs3 VectorRefine StringModel StringSpec StringDriver StringBytes.
From Coq Require Import ZifyBool ZifyNat ZifyN.

Implicit Types (w : world) (s : str).

(** [srep w s pre cs post]: the string [s] holds the characters [cs] (and the terminator). *)
Definition srep w s pre (cs : list N) post : Prop :=
  brep w (s_vec s) pre (cs ++ [0]) post /\ s_flags s = (if v_alloc (s_vec s) then 0 else 1).
Record sgood w s w' s' pre cs' post : Prop := mksgood {
  sg_bytes : bgood w (s_vec s) w' (s_vec s') pre (cs' ++ [0]) post;
  sg_flags : s_flags s' = s_flags s
}.
Definition limit_of s : option N := if v_alloc (s_vec s) then None else Some (v_cap (s_vec s) - 1).
Definition snofail w s : Prop := nofail w (s_vec s).
(** The next request is granted. *)
Definition sgrants w s : Prop := grants w (s_vec s).
(** A view of the characters [x], which lie in other memory than the string [s]. *)
Definition is_view w (q : view) (x : list N) (b : N) : Prop :=
  exists p, sdata q = Some p /\ ssize q = nlen x + 1 /\ src w p x /\ pb p <> b.

Lemma sgood_refl w s pre cs post : srep w s pre cs post -> sgood w s w s pre cs post.
Proof. intros [R _]. split; [now apply bgood_refl|reflexivity]. Qed.
Lemma sgood_trans w1 s1 w2 s2 w3 s3 pre c1 c2 post :
  sgood w1 s1 w2 s2 pre c1 post -> wfw w1 -> sgood w2 s2 w3 s3 pre c2 post -> sgood w1 s1 w3 s3 pre c2 post.
Proof. intros [B1 F1] W [B2 F2]. split; [eapply bgood_trans; eauto|congruence]. Qed.
Lemma sgood_rep w s pre cs post w' s' cs' : srep w s pre cs post -> sgood w s w' s' pre cs' post ->
  srep w' s' pre cs' post.
Proof.
  intros [R F] [[B C _ _] F']. split; [exact B|]. destruct C as [-> _]. congruence.
Qed.
Lemma sgood_limit w s w' s' pre cs' post : sgood w s w' s' pre cs' post -> limit_of s' = limit_of s.
Proof.
  intros [[B C _ K] _]. unfold limit_of. destruct C as [-> _]. destruct (v_alloc (s_vec s)); [reflexivity|].
  now rewrite K.
Qed.
Lemma srep_size w s pre cs post : srep w s pre cs post -> ssize s = nlen cs + 1.
Proof. intros [R _]. unfold ssize. rewrite (brep_size _ _ _ _ _ R), nlen_app. reflexivity. Qed.
Lemma srep_lt w s pre cs post : srep w s pre cs post -> nlen cs + 1 < W64.
Proof.
  intros [R _]. pose proof (brep_le _ _ _ _ _ R) as L. pose proof (brep_cap _ _ _ _ _ R).
  rewrite nlen_app in L. change (nlen [0]) with 1 in L. lia.
Qed.
Lemma bholds_limit s n : 1 <= v_cap (s_vec s) -> bholds (s_vec s) (n + 1) = holds_chars (limit_of s) n.
Proof.
  intros L. unfold bholds, limit_of. destruct (v_alloc (s_vec s)); [reflexivity|]. cbn. lia.
Qed.
Lemma with_vec_self s : with_vec s (s_vec s) = s.
Proof. now destruct s. Qed.

Lemma nfirst_app_le {A} i (a b : list A) : i <= nlen a -> nfirst i (a ++ b) = nfirst i a.
Proof.
  intros L. destruct (nsplit i a L) as (x & y & -> & <-). rewrite <- app_assoc.
  now rewrite !nfirst_app_l.
Qed.
Lemma nskip_app_le {A} i (a b : list A) : i <= nlen a -> nskip i (a ++ b) = nskip i a ++ b.
Proof.
  intros L. destruct (nsplit i a L) as (x & y & -> & <-). rewrite <- app_assoc.
  now rewrite !nskip_app_l.
Qed.
Lemma nsub_all {A} (l : list A) : nsub 0 (nlen l) l = l.
Proof. unfold nsub. rewrite nskip_0. now apply nfirst_all. Qed.
Lemma nlen_1 {A} (l : list A) : nlen l = 1 -> exists x, l = [x].
Proof.
  destruct l as [|x [|y l]]; intros L.
  - discriminate.
  - now exists x.
  - rewrite !nlen_cons in L. lia.
Qed.
Lemma nlast {A} (l : list A) n : nlen l = n + 1 -> exists x, l = nfirst n l ++ [x].
Proof.
  intros L. destruct (nlen_1 (nskip n l)) as [x E]. { rewrite nlen_nskip. lia. }
  exists x. rewrite <- E. symmetry. apply nfirst_skip.
Qed.
Lemma nfirst_nfirst {A} i n (l : list A) : i <= n -> nfirst i (nfirst n l) = nfirst i l.
Proof.
  intros L. destruct (N.le_gt_cases (nlen l) n) as [G|G]; [now rewrite (nfirst_all n l)|].
  rewrite <- (nfirst_skip n l) at 2. symmetry. apply nfirst_app_le. rewrite nlen_nfirst. lia.
Qed.

Lemma src_sub w p a b c : src w p (a ++ b ++ c) -> src w (mkptr (pb p) (po p + nlen a)) b.
Proof.
  intros (u & z & H & P). exists (u ++ a), (c ++ z). cbn [pb po]. rewrite H, P. split.
  - now rewrite <- !app_assoc.
  - now rewrite nlen_app.
Qed.
Lemma src_nsub w p x j n : src w p x -> j + n <= nlen x -> src w (mkptr (pb p) (po p + j)) (nsub j n x).
Proof.
  intros Q L. rewrite <- (nthree j n x) in Q. apply src_sub in Q. rewrite nlen_nfirst in Q.
  replace (N.min j (nlen x)) with j in Q by lia. exact Q.
Qed.

Lemma nullterminate_ok w s pre a x post : brep w (s_vec s) pre (a ++ [x]) post ->
  exists w', nullterminate s w = Ok tt w' /\ bgood w (s_vec s) w' (s_vec s) pre (a ++ [0]) post.
Proof.
  intros R. pose proof (brep_size _ _ _ _ _ R) as E. pose proof (brep_le _ _ _ _ _ R) as L.
  pose proof (brep_cap _ _ _ _ _ R) as K. rewrite nlen_app in *. change (nlen [x]) with 1 in *.
  destruct (bwrite_ok w (s_vec s) pre a [x] [0] [] post) as (w' & EQ & G).
  - now rewrite app_nil_r.
  - reflexivity.
  - rewrite app_nil_r in G. exists w'. split; [|exact G]. unfold nullterminate, ssize, sdata.
    rewrite E, wsub_small by lia. replace (nlen a + 1 - 1) with (nlen a) by lia. exact EQ.
Qed.
Lemma bstart_ok w v pre post : brep w v pre [] post ->
  exists w', mwrite (v_data v) [0] w = Ok tt w' /\ bgood w v w' (set_size v 1) pre [0] post.
Proof.
  intros R. pose proof (brep_cap _ _ _ _ _ R) as K. destruct (brep_heap _ _ _ _ _ R) as (s & SL & H).
  change (nlen (@nil N)) with 0 in SL. destruct s as [|y s]; [exfalso; apply spare_le in SL; change (nlen (@nil N)) with 0 in SL; lia|].
  rewrite (brep_data _ _ _ _ _ R). eexists. split.
  - apply (mwrite_mid w (blk v) (nlen pre) pre [y] [0] (s ++ post)); [exact H|reflexivity|reflexivity].
  - change (pre ++ [0] ++ s ++ post) with (pre ++ [0] ++ (s ++ post)).
    apply (bupd w v pre [] [0] s post R).
    + change (nlen [0]) with 1. lia.
    + rewrite nlen_cons in SL. change (nlen [0]) with 1. eapply (spare_minus _ _ _ _ _ 1); [exact SL|lia|reflexivity].
Qed.

Lemma stw0 : st_success ST_SUCCESS = true. Proof. reflexivity. Qed.
Lemma stw1 : st_success ST_INSUFFICIENT_BUFFER_SIZE = false. Proof. reflexivity. Qed.
Ltac sst := rewrite ?stw0, ?stw1; cbn [negb].

(** ** Append *)
Lemma append_core w s pre cs post y q : srep w s pre cs post -> sgrants w s ->
  (nlen cs + nlen y + 1) * 256 < W64 -> src w q y -> pb q <> blk (s_vec s) ->
  exists r w' s' cs',
    (let* (st, v) := vresize (s_vec s) (nlen cs + 1 + nlen y) in
     let d := with_vec s v in
     if negb (st_success st) then ret (st, d) else
     memcpy (padd (sdata d) (nlen cs)) (Some q) (nlen y) ;;;
     nullterminate d ;;;
     ret (ST_SUCCESS, d)) w = Ok (r, s') w' /\ sgood w s w' s' pre cs' post /\
    become (limit_of s) (cs ++ y) cs r cs'.
Proof.
  intros [R FL] NF F Q NB. pose proof (brep_cap _ _ _ _ _ R) as CAP.
  destruct (bresize_ok w (s_vec s) pre (cs ++ [0]) post (nlen cs + 1 + nlen y) R NF) as (r & w1 & v1 & l1 & E1 & G1 & K).
  { rewrite nlen_app. change (nlen [0]) with 1. lia. } { lia. }
  rewrite (bind_ok _ _ _ _ _ E1).
  assert (CASES : (r = ST_SUCCESS /\ holds_chars (limit_of s) (nlen (cs ++ y)) = true /\
                   exists rest, l1 = cs ++ rest /\ nlen rest = nlen y + 1) \/
                  (r = ST_INSUFFICIENT_BUFFER_SIZE /\ holds_chars (limit_of s) (nlen (cs ++ y)) = false /\ l1 = cs ++ [0])).
  { rewrite <- bholds_limit by lia. rewrite !nlen_app in K. rewrite nlen_app. change (nlen [0]) with 1 in *.
    destruct (N.leb_spec (nlen cs + 1 + nlen y) (nlen cs + 1)).
    - left. destruct K as [-> ->]. split; [reflexivity|]. split.
      + unfold bholds. pose proof (brep_le _ _ _ _ _ R) as L. rewrite nlen_app in L. change (nlen [0]) with 1 in L. lia.
      + exists [0]. split; [|change (nlen [0]) with 1; lia]. apply nfirst_all. rewrite nlen_app. change (nlen [0]) with 1. lia.
    - replace (nlen cs + nlen y + 1) with (nlen cs + 1 + nlen y) by lia.
      destruct (bholds (s_vec s) (nlen cs + 1 + nlen y)).
      + left. destruct K as [-> (new & -> & LN)]. split; [reflexivity|]. split; [reflexivity|].
        exists ([0] ++ new). split; [now rewrite app_assoc|]. rewrite nlen_app. change (nlen [0]) with 1. lia.
      + right. destruct K as [-> ->]. now repeat split. }
  destruct CASES as [(-> & HH & rest & -> & LR)|(-> & HH & ->)]; sst.
  - destruct (src_frame _ _ _ _ _ _ Q NB (brep_wf _ _ _ _ _ R) (b_frame _ _ _ _ _ _ _ G1)) as [Q1 NB1].
    destruct (nsplit (nlen y) rest) as (b & c & -> & LB); [lia|].
    destruct (nlen_1 c) as [z ->]. { rewrite nlen_app in LR. lia. }
    destruct (bcopy_ok w1 v1 pre cs b y [z] post q) as (w2 & E2 & G2); auto.
    { apply G1. }
    unfold sdata at 1. cbn [s_vec with_vec]. rewrite (bind_ok _ _ _ _ _ E2).
    destruct (nullterminate_ok w2 (with_vec s v1) pre (cs ++ y) z post) as (w3 & E3 & G3).
    { cbn [s_vec with_vec]. rewrite <- app_assoc. apply G2. }
    rewrite (bind_ok _ _ _ _ _ E3). exists ST_SUCCESS, w3, (with_vec s v1), (cs ++ y).
    split; [reflexivity|]. split.
    + split; [|reflexivity]. eapply bgood_trans; [exact G1|eapply brep_wf; exact R|].
      eapply bgood_trans; [exact G2|eapply brep_wf; apply G1|exact G3].
    + unfold become. rewrite HH. now split.
  - exists ST_INSUFFICIENT_BUFFER_SIZE, w1, (with_vec s v1), cs. split; [reflexivity|]. split.
    + split; [exact G1|reflexivity].
    + unfold become. rewrite HH. now split.
Qed.

Lemma append_ok w s pre cs post q x : srep w s pre cs post -> sgrants w s ->
  (nlen cs + nlen x + 1) * 256 < W64 -> is_view w q x (blk (s_vec s)) ->
  exists r w' s' cs', sappend s q w = Ok (r, s') w' /\ sgood w s w' s' pre cs' post /\
    become (limit_of s) (cs ++ x) cs r cs'.
Proof.
  intros R NF F (p & PD & PS & Q & NB). unfold sappend. rewrite PS, PD, (srep_size _ _ _ _ _ R).
  destruct (N.eqb_spec (nlen x + 1) 0); [lia|].
  rewrite wadd_small, !wsub_small by lia.
  replace (nlen cs + 1 + (nlen x + 1) - 1) with (nlen cs + 1 + nlen x) by lia.
  replace (nlen cs + 1 - 1) with (nlen cs) by lia. replace (nlen x + 1 - 1) with (nlen x) by lia.
  now apply append_core.
Qed.
Lemma append_ex_ok w s pre cs post q x j n : srep w s pre cs post -> sgrants w s ->
  (nlen cs + nlen x + 1) * 256 < W64 -> is_view w q x (blk (s_vec s)) -> j + n < W64 ->
  exists r w' s' cs', sappend_ex s q j n w = Ok (r, s') w' /\ sgood w s w' s' pre cs' post /\
    sspec_append (limit_of s) x j n cs r cs'.
Proof.
  intros R NF F (p & PD & PS & Q & NB) J. unfold sappend_ex, sspec_append. rewrite PS, PD, (srep_size _ _ _ _ _ R).
  destruct (N.eqb_spec (nlen x + 1) 0); [lia|]. rewrite (wadd_small j n J).
  destruct (N.ltb_spec (nlen x) (j + n)).
  - destruct (N.leb_spec (nlen x + 1) (j + n)); [|lia].
    exists ST_OUT_OF_RANGE, w, s, cs. split; [reflexivity|]. split; [now apply sgood_refl|now split].
  - destruct (N.leb_spec (nlen x + 1) (j + n)); [lia|].
    rewrite wadd_small, !wsub_small by lia. replace (nlen cs + 1 - 1) with (nlen cs) by lia.
    assert (LS : nlen (nsub j n x) = n) by (apply nlen_nsub; lia).
    pose proof (append_core w s pre cs post (nsub j n x) (mkptr (pb p) (po p + j)) R NF) as A.
    rewrite LS in A. apply A; [lia|apply src_nsub; assumption|exact NB].
Qed.

(** ** Insert *)
Lemma assert_null_ok w s pre a post : brep w (s_vec s) pre (a ++ [0]) post -> assert_nullterminated s w = Ok tt w.
Proof.
  intros R. pose proof (brep_size _ _ _ _ _ R) as E. pose proof (brep_le _ _ _ _ _ R) as L.
  pose proof (brep_cap _ _ _ _ _ R) as K. rewrite nlen_app in *. change (nlen [0]) with 1 in *.
  unfold assert_nullterminated, ssize, sdata. destruct (checked w); [|reflexivity]. rewrite E, wsub_small by lia.
  replace (nlen a + 1 - 1) with (nlen a) by lia.
  rewrite (bind_ok _ _ w [0] w); [reflexivity|]. 
  apply (bread_ok w (s_vec s) pre a [0] [] post). now rewrite app_nil_r.
Qed.
Lemma insert_core w s pre cs post i y q : srep w s pre cs post -> sgrants w s -> i <= nlen cs ->
  (nlen cs + nlen y + 1) * 256 < W64 -> src w q y -> pb q <> blk (s_vec s) ->
  exists r w' s' cs',
    (let* (st, v) := vinsert_range (s_vec s) i (Some q) (nlen y) in
     let d := with_vec s v in
     if negb (st_success st) then ret (st, d) else
     assert_nullterminated d ;;;
     ret (ST_SUCCESS, d)) w = Ok (r, s') w' /\ sgood w s w' s' pre cs' post /\
    (if nlen y =? 0 then refuse ST_INVALID_ARGUMENT cs r cs'
     else become (limit_of s) (nfirst i cs ++ y ++ nskip i cs) cs r cs').
Proof.
  intros SR NF LI F Q NB. pose proof SR as [R FL]. pose proof (brep_cap _ _ _ _ _ R) as CAP.
  destruct (N.eqb_spec (nlen y) 0) as [E0|E0].
  { exists ST_INVALID_ARGUMENT, w, s, cs. rewrite E0. split; [|split; [now apply sgood_refl|now split]].
    unfold vinsert_range, bind, ret. cbn [nonnull negb orb N.eqb]. change (0 =? 0) with true. cbv iota.
    cbv beta iota. change (negb (st_success ST_INVALID_ARGUMENT)) with true. cbv iota. now rewrite with_vec_self. }
  destruct (binsert_ok w (s_vec s) pre (cs ++ [0]) post i y q R NF) as (r & w1 & v1 & l1 & E1 & G1 & K); auto.
  { lia. } { rewrite nlen_app. change (nlen [0]) with 1. lia. } { rewrite nlen_app. change (nlen [0]) with 1. lia. }
  rewrite (bind_ok _ _ _ _ _ E1). unfold become. rewrite <- bholds_limit by lia.
  rewrite nlen_app in K. change (nlen [0]) with 1 in K.
  rewrite !nlen_app, nlen_nfirst, nlen_nskip.
  replace (N.min i (nlen cs) + (nlen y + (nlen cs - i)) + 1) with (nlen cs + 1 + nlen y) by lia.
  destruct (bholds (s_vec s) (nlen cs + 1 + nlen y)); destruct K as [-> ->]; sst.
  - rewrite nfirst_app_le, nskip_app_le in G1 by assumption.
    replace (nfirst i cs ++ y ++ nskip i cs ++ [0]) with ((nfirst i cs ++ y ++ nskip i cs) ++ [0]) in G1
      by now rewrite <- !app_assoc.
    rewrite (bind_ok _ _ _ _ _ (assert_null_ok w1 (with_vec s v1) _ _ _ (b_rep _ _ _ _ _ _ _ G1))).
    exists ST_SUCCESS, w1, (with_vec s v1), (nfirst i cs ++ y ++ nskip i cs). split; [reflexivity|].
    split; [|now split]. split; [exact G1|reflexivity].
  - exists ST_INSUFFICIENT_BUFFER_SIZE, w1, (with_vec s v1), cs. split; [reflexivity|].
    split; [|now split]. split; [exact G1|reflexivity].
Qed.
Lemma insert_ok w s pre cs post i q x : srep w s pre cs post -> sgrants w s ->
  (nlen cs + nlen x + 1) * 256 < W64 -> is_view w q x (blk (s_vec s)) ->
  exists r w' s' cs', sinsert s i q w = Ok (r, s') w' /\ sgood w s w' s' pre cs' post /\
    sspec_insert (limit_of s) i x 0 (nlen x) cs r cs'.
Proof.
  intros R NF F V. unfold sinsert, sspec_insert, sspec_append. rewrite nsub_all.
  destruct (N.ltb_spec (nlen x) (0 + nlen x)); [lia|].
  pose proof V as (p & PD & PS & Q & NB). rewrite PS, (srep_size _ _ _ _ _ R).
  destruct (N.eqb_spec (nlen x + 1) 0); [lia|].
  destruct (N.eqb_spec i (nlen cs + 1)) as [->|NE]. { now apply append_ok. }
  destruct (N.leb_spec (nlen cs + 1) i).
  - destruct (N.ltb_spec (nlen cs) i); [|lia].
    exists ST_OUT_OF_RANGE, w, s, cs. split; [reflexivity|]. split; [now apply sgood_refl|now split].
  - destruct (N.ltb_spec (nlen cs) i); [lia|]. rewrite PD, wsub_small by lia.
    replace (nlen x + 1 - 1) with (nlen x) by lia. apply insert_core; auto.
Qed.
Lemma insert_ex_ok w s pre cs post i q x j n : srep w s pre cs post -> sgrants w s ->
  (nlen cs + nlen x + 1) * 256 < W64 -> is_view w q x (blk (s_vec s)) -> j + n < W64 ->
  exists r w' s' cs', sinsert_ex s i q j n w = Ok (r, s') w' /\ sgood w s w' s' pre cs' post /\
    sspec_insert (limit_of s) i x j n cs r cs'.
Proof.
  intros R NF F V J. unfold sinsert_ex, sspec_insert.
  destruct (N.eqb_spec i (nlen cs + 1)) as [->|NE].
  { pose proof V as (p & PD & PS & Q & NB). rewrite PS, (srep_size _ _ _ _ _ R), N.eqb_refl.
    destruct (N.eqb_spec (nlen x + 1) 0); [lia|]. now apply append_ex_ok. }
  pose proof V as (p & PD & PS & Q & NB). rewrite PS, (srep_size _ _ _ _ _ R).
  destruct (N.eqb_spec (nlen x + 1) 0); [lia|]. destruct (N.eqb_spec i (nlen cs + 1)); [lia|].
  rewrite (wadd_small j n J).
  assert (OOR : exists r w' s' cs', @ret N _ (ST_OUT_OF_RANGE, s) w = Ok (r, s') w' /\ sgood w s w' s' pre cs' post /\
    refuse ST_OUT_OF_RANGE cs r cs').
  { exists ST_OUT_OF_RANGE, w, s, cs. split; [reflexivity|]. split; [now apply sgood_refl|now split]. }
  destruct (N.leb_spec (nlen cs + 1) i); destruct (N.ltb_spec (nlen cs) i); try lia; [exact OOR|].
  destruct (N.leb_spec (nlen x + 1) (j + n)); destruct (N.ltb_spec (nlen x) (j + n)); try lia; [exact OOR|].
  rewrite PD. cbn [padd]. assert (LS : nlen (nsub j n x) = n) by (apply nlen_nsub; lia).
  pose proof (insert_core w s pre cs post i (nsub j n x) (mkptr (pb p) (po p + j)) R NF) as A.
  rewrite LS in A. apply A; [lia|lia|apply src_nsub; assumption|exact NB].
Qed.

(** ** Delete *)
Lemma delete_core w s pre cs post i n : srep w s pre cs post -> sgrants w s ->
  (nlen cs + 1) * 256 < W64 -> i + n <= nlen cs ->
  exists r w' s' cs',
    (let* (st, v) := vdelete_range (s_vec s) i n in
     let s := with_vec s v in
     if negb (st_success st) then ret (st, s) else
     nullterminate s ;;;
     ret (ST_SUCCESS, s)) w = Ok (r, s') w' /\ sgood w s w' s' pre cs' post /\ sspec_delete i n cs r cs'.
Proof.
  intros SR NF F L. pose proof SR as [R FL]. unfold sspec_delete.
  destruct (N.ltb_spec (nlen cs) (i + n)); [lia|]. destruct (N.eqb_spec n 0) as [->|N0].
  { exists ST_INVALID_ARGUMENT, w, s, cs. split; [|split; [now apply sgood_refl|now split]].
    unfold vdelete_range, bind, ret. change (0 =? 0) with true. cbv iota.
    cbv beta iota. change (negb (st_success ST_INVALID_ARGUMENT)) with true. cbv iota. now rewrite with_vec_self. }
  destruct (bdelete_ok w (s_vec s) pre (cs ++ [0]) post i n R NF) as (w1 & v1 & E1 & G1).
  { rewrite nlen_app. change (nlen [0]) with 1. lia. } { lia. } { rewrite nlen_app. lia. }
  rewrite (bind_ok _ _ _ _ _ E1). sst. rewrite nfirst_app_le, nskip_app_le, app_assoc in G1 by lia.
  destruct (nullterminate_ok w1 (with_vec s v1) pre _ 0 post (b_rep _ _ _ _ _ _ _ G1)) as (w2 & E2 & G2).
  rewrite (bind_ok _ _ _ _ _ E2). exists ST_SUCCESS, w2, (with_vec s v1), (nfirst i cs ++ nskip (i + n) cs).
  split; [reflexivity|]. split; [|now split]. split; [|reflexivity].
  eapply bgood_trans; [exact G1|eapply brep_wf; exact R|exact G2].
Qed.
Lemma delete_ok w s pre cs post i n : srep w s pre cs post -> sgrants w s ->
  (nlen cs + 1) * 256 < W64 -> i + n < W64 ->
  exists r w' s' cs', sdelete s i n w = Ok (r, s') w' /\ sgood w s w' s' pre cs' post /\ sspec_delete i n cs r cs'.
Proof.
  intros R NF F J. unfold sdelete. rewrite (srep_size _ _ _ _ _ R), (wadd_small _ _ J).
  destruct (N.leb_spec (nlen cs + 1) (i + n)).
  - exists ST_OUT_OF_RANGE, w, s, cs. split; [reflexivity|]. split; [now apply sgood_refl|].
    unfold sspec_delete. destruct (N.ltb_spec (nlen cs) (i + n)); [|lia]. now split.
  - apply delete_core; auto. lia.
Qed.
Lemma truncate_ok w s pre cs post i : srep w s pre cs post -> sgrants w s ->
  (nlen cs + 1) * 256 < W64 ->
  exists r w' s' cs', struncate s i w = Ok (r, s') w' /\ sgood w s w' s' pre cs' post /\
    sspec (limit_of s) (STruncate i) cs r cs'.
Proof.
  intros R NF F. unfold struncate, sspec. rewrite (srep_size _ _ _ _ _ R).
  destruct (N.leb_spec (nlen cs + 1) i); destruct (N.ltb_spec (nlen cs) i); try lia.
  - exists ST_OUT_OF_RANGE, w, s, cs. split; [reflexivity|]. split; [now apply sgood_refl|now split].
  - rewrite !wsub_small; try lia. 2:{ rewrite wsub_small; lia. } 2:{ rewrite wsub_small; lia. }
    replace (nlen cs + 1 - i - 1) with (nlen cs - i) by lia. apply delete_core; auto. lia.
Qed.
Lemma clear_ok w s pre cs post : srep w s pre cs post -> sgrants w s -> (nlen cs + 1) * 256 < W64 ->
  exists w' s', sclear s w = Ok (ST_SUCCESS, s') w' /\ sgood w s w' s' pre [] post.
Proof.
  intros [R FL] NF F. unfold sclear.
  destruct (bresize_ok w (s_vec s) pre (cs ++ [0]) post 0 R NF) as (r & w1 & v1 & l1 & E1 & G1 & K).
  { rewrite nlen_app. change (nlen [0]) with 1. lia. } { lia. }
  rewrite (bind_ok (vclear (s_vec s)) _ _ _ _ E1).
  destruct (N.leb_spec 0 (nlen (cs ++ [0]))); [|lia]. destruct K as [-> ->]. sst. rewrite nfirst_0 in G1.
  cbn [s_vec with_vec]. pose proof (brep_cap _ _ _ _ _ (b_rep _ _ _ _ _ _ _ G1)) as CAP.
  unfold bind at 1, assert, ret. destruct (N.leb_spec 1 (v_cap v1)); [|lia].
  destruct (bstart_ok _ _ _ _ (b_rep _ _ _ _ _ _ _ G1)) as (w2 & E2 & G2).
  unfold sdata. cbn [s_vec with_vec]. rewrite (bind_ok _ _ _ _ _ E2).
  unfold ssize. cbn [s_vec with_vec]. rewrite (brep_size _ _ _ _ _ (b_rep _ _ _ _ _ _ _ G1)).
  change (wadd (nlen []) 1) with 1. eexists w2, _. split; [reflexivity|]. split; [|reflexivity].
  eapply bgood_trans; [exact G1|eapply brep_wf; exact R|exact G2].
Qed.
Lemma sresize_ok w s pre cs post n : srep w s pre cs post -> sgrants w s -> (nlen cs + n + 1) * 256 < W64 ->
  exists r w' s' cs', sresize s n w = Ok (r, s') w' /\ sgood w s w' s' pre cs' post /\
    sspec (limit_of s) (SResize n) cs r cs'.
Proof.
  intros [R FL] NF F. pose proof (brep_cap _ _ _ _ _ R) as CAP. unfold sresize. rewrite wadd_small by lia.
  destruct (bresize_ok w (s_vec s) pre (cs ++ [0]) post (n + 1) R NF) as (r & w1 & v1 & l1 & E1 & G1 & K).
  { rewrite nlen_app. change (nlen [0]) with 1. lia. } { lia. }
  rewrite (bind_ok _ _ _ _ _ E1). rewrite nlen_app in K. change (nlen [0]) with 1 in K. cbn [sspec].
  assert (TAIL : forall l' new, r = ST_SUCCESS -> l1 = l' ++ new -> nlen new = 1 ->
    exists w', (if negb (st_success r) then ret (r, with_vec s v1) else nullterminate (with_vec s v1) ;;; ret (ST_SUCCESS, with_vec s v1)) w1
      = Ok (ST_SUCCESS, with_vec s v1) w' /\ sgood w s w' (with_vec s v1) pre l' post).
  { intros l' new -> -> L. destruct (nlen_1 _ L) as [z ->]. sst.
    destruct (nullterminate_ok w1 (with_vec s v1) pre _ z post (b_rep _ _ _ _ _ _ _ G1)) as (w2 & E2 & G2).
    rewrite (bind_ok _ _ _ _ _ E2). exists w2. split; [reflexivity|]. split; [|reflexivity].
    eapply bgood_trans; [exact G1|eapply brep_wf; exact R|exact G2]. }
  destruct (N.leb_spec (n + 1) (nlen cs + 1)); destruct (N.leb_spec n (nlen cs)); try lia.
  - destruct K as [-> ->]. destruct (nlast (nfirst (n + 1) (cs ++ [0])) n) as [z Z].
    { rewrite nlen_nfirst, nlen_app. change (nlen [0]) with 1. lia. }
    rewrite nfirst_nfirst in Z by lia. rewrite (nfirst_app_le n) in Z by lia.
    destruct (TAIL (nfirst n cs) [z] eq_refl Z eq_refl) as (w2 & E2 & G2).
    exists ST_SUCCESS, w2, (with_vec s v1), (nfirst n cs). now split.
  - rewrite bholds_limit in K by lia. unfold become. destruct (holds_chars (limit_of s) n) eqn:HH.
    + destruct K as [-> (new & -> & LN)].
      destruct (nlast ((cs ++ [0]) ++ new) n) as [z Z].
      { rewrite !nlen_app. change (nlen [0]) with 1. lia. }
      assert (LZ : nlen (nfirst n ((cs ++ [0]) ++ new)) = n).
      { rewrite nlen_nfirst, !nlen_app. change (nlen [0]) with 1. lia. }
      destruct (TAIL _ [z] eq_refl Z eq_refl) as (w2 & E2 & G2).
      eexists ST_SUCCESS, w2, (with_vec s v1), _. split; [exact E2|]. split; [exact G2|].
      exists (nskip (nlen cs) (nfirst n ((cs ++ [0]) ++ new))).
      assert (EQ : cs ++ nskip (nlen cs) (nfirst n ((cs ++ [0]) ++ new)) = nfirst n ((cs ++ [0]) ++ new)).
      { replace cs with (nfirst (nlen cs) (nfirst n ((cs ++ [0]) ++ new))) at 1; [apply nfirst_skip|].
        rewrite nfirst_nfirst, <- app_assoc by lia. now apply nfirst_app_l. }
      rewrite EQ, LZ, HH. split; [rewrite nlen_nskip, LZ; lia|now split].
    + destruct K as [-> ->]. sst. exists ST_INSUFFICIENT_BUFFER_SIZE, w1, (with_vec s v1), cs.
      split; [reflexivity|]. split; [split; [exact G1|reflexivity]|].
      exists (nrepeat 0 (n - nlen cs)). rewrite nlen_app, nlen_repeat.
      replace (nlen cs + (n - nlen cs)) with n by lia. rewrite HH. now repeat split.
Qed.
Lemma set_char_ok w s pre cs post i c q : srep w s pre cs post -> i < W64 -> src w q [c] -> pb q <> blk (s_vec s) ->
  exists r w' s' cs', sset_char s i (Some q) w = Ok (r, s') w' /\ sgood w s w' s' pre cs' post /\
    sspec (limit_of s) (SSetChar i c) cs r cs'.
Proof.
  intros SR LI Q NB. pose proof SR as [R FL]. unfold sset_char, sspec. rewrite (srep_size _ _ _ _ _ SR).
  pose proof (srep_lt _ _ _ _ _ SR) as LT.
  destruct (N.leb_spec (nlen cs) i).
  - exists ST_OUT_OF_RANGE, w, s, cs. split; [|split; [now apply sgood_refl|now split]].
    destruct (N.eq_dec i (W64 - 1)) as [->|NE].
    + replace (wadd (W64 - 1) 1) with 0 by reflexivity.
      destruct (N.leb_spec (nlen cs + 1) 0); [lia|]. unfold vset, bind. cbn [nonnull negb].
      change (v_size (s_vec s)) with (ssize s). rewrite (srep_size _ _ _ _ _ SR).
      destruct (N.leb_spec (nlen cs + 1) (W64 - 1)); [|lia]. unfold ret. now rewrite with_vec_self.
    + rewrite wadd_small by lia. destruct (N.leb_spec (nlen cs + 1) (i + 1)); [reflexivity|lia].
  - rewrite wadd_small by lia. destruct (N.leb_spec (nlen cs + 1) (i + 1)); [lia|].
    destruct (bset_ok w (s_vec s) pre (cs ++ [0]) post i c q R Q NB) as (w1 & E1 & G1).
    { rewrite nlen_app. lia. }
    rewrite (bind_ok _ _ _ _ _ E1). rewrite with_vec_self.
    rewrite nfirst_app_le, nskip_app_le in G1 by lia.
    eexists ST_SUCCESS, w1, s, (nfirst i cs ++ [c] ++ nskip (i + 1) cs). split; [reflexivity|].
    split; [|now split]. split; [|reflexivity]. rewrite <- !app_assoc. exact G1.
Qed.

(** ** Case conversion *)
Lemma case_loop_ok step f : (forall c, f c = match step c with Some c' => c' | None => c end) ->
  forall b w s pre a c post, brep w (s_vec s) pre (a ++ b ++ c) post ->
  exists w', case_loop step s (nlen a) (N.to_nat (nlen b)) w = Ok tt w' /\
    bgood w (s_vec s) w' (s_vec s) pre (a ++ map f b ++ c) post.
Proof.
  intros HF. induction b as [|x b IH]; intros w s pre a c post R.
  - exists w. split; [reflexivity|]. now apply bgood_refl.
  - rewrite nlen_cons. replace (N.to_nat (1 + nlen b)) with (S (N.to_nat (nlen b))) by lia. cbn [case_loop].
    assert (RD : mread1 (padd (sdata s) (nlen a)) w = Ok x w).
    { unfold mread1. rewrite (bind_ok _ _ w [x] w); [reflexivity|].
      apply (bread_ok w (s_vec s) pre a [x] (b ++ c) post). exact R. }
    rewrite (bind_ok _ _ _ _ _ RD). cbn [map].
    assert (WR : exists w1, (match step x with Some c' => mwrite (padd (sdata s) (nlen a)) [c'] | None => ret tt end) w = Ok tt w1
      /\ bgood w (s_vec s) w1 (s_vec s) pre (a ++ [f x] ++ b ++ c) post).
    { rewrite (HF x). destruct (step x) as [y|].
      - exact (bwrite_ok w (s_vec s) pre a [x] [y] (b ++ c) post R eq_refl).
      - exists w. split; [reflexivity|]. now apply bgood_refl. }
    destruct WR as (w1 & E1 & G1). rewrite (bind_ok _ _ _ _ _ E1).
    destruct (IH w1 s pre (a ++ [f x]) c post) as (w2 & E2 & G2).
    { rewrite <- app_assoc. apply G1. }
    rewrite nlen_app in E2. change (nlen [f x]) with 1 in E2. exists w2. split; [exact E2|].
    rewrite <- app_assoc in G2. eapply bgood_trans; [exact G1|eapply brep_wf; exact R|exact G2].
Qed.
Lemma case_ex_ok step f w s pre cs post i n : (forall c, f c = match step c with Some c' => c' | None => c end) ->
  srep w s pre cs post -> i + n < W64 ->
  exists r w' s' cs', scase_ex step s i n w = Ok (r, s') w' /\ sgood w s w' s' pre cs' post /\ sspec_case f i n cs r cs'.
Proof.
  intros HF SR J. pose proof SR as [R FL]. unfold scase_ex, sspec_case. rewrite (srep_size _ _ _ _ _ SR), (wadd_small _ _ J).
  destruct (N.leb_spec (nlen cs + 1) (i + n)); destruct (N.ltb_spec (nlen cs) (i + n)); try lia.
  - exists ST_OUT_OF_RANGE, w, s, cs. split; [reflexivity|]. split; [now apply sgood_refl|now split].
  - destruct (case_loop_ok step f HF (nsub i n cs) w s pre (nfirst i cs) (nskip (i + n) cs ++ [0]) post) as (w1 & E1 & G1).
    { replace (nfirst i cs ++ nsub i n cs ++ nskip (i + n) cs ++ [0]) with ((nfirst i cs ++ nsub i n cs ++ nskip (i + n) cs) ++ [0])
        by now rewrite <- !app_assoc. now rewrite nthree. }
    rewrite nlen_nfirst, nlen_nsub in E1 by lia. replace (N.min i (nlen cs)) with i in E1 by lia.
    replace (i + n - i) with n by lia. rewrite (bind_ok _ _ _ _ _ E1).
    eexists ST_SUCCESS, w1, s, (map_range f i n cs). split; [reflexivity|]. split; [|now split].
    split; [|reflexivity]. unfold map_range. rewrite <- !app_assoc. exact G1.
Qed.
Lemma lor32_letter c : 65 <= c <= 90 -> N.lor c 32 = c + 32.
Proof.
  intros H. replace c with (65 + N.of_nat (N.to_nat (c - 65))) by lia.
  assert (B : (N.to_nat (c - 65) < 26)%nat) by lia. generalize dependent (N.to_nat (c - 65)).
  clear H. intros k B. do 26 (destruct k as [|k]; [reflexivity|]). lia.
Qed.
Lemma land223_letter c : 97 <= c <= 122 -> N.land c 223 = c - 32.
Proof.
  intros H. replace c with (97 + N.of_nat (N.to_nat (c - 97))) by lia.
  assert (B : (N.to_nat (c - 97) < 26)%nat) by lia. generalize dependent (N.to_nat (c - 97)).
  clear H. intros k B. do 26 (destruct k as [|k]; [reflexivity|]). lia.
Qed.
Lemma schar_range c lo hi : (0 <= lo)%Z -> (hi < 128)%Z ->
  ((lo <=? schar c) && (schar c <=? hi))%Z = ((Z.to_N lo <=? c) && (c <=? Z.to_N hi)) \/ (hi < 0)%Z.
Proof.
  intros L H. destruct (Z.lt_ge_cases hi 0) as [|H0]; [now right|left]. unfold schar.
  destruct (N.ltb_spec c 128); [lia|].
  pose proof (N.mod_upper_bound c 256 ltac:(lia)). lia.
Qed.
Lemma lower_step_ok c : to_lower c = match lower_step c with Some c' => c' | None => c end.
Proof.
  unfold to_lower, lower_step. destruct (schar_range c 65 90) as [->|]; try lia.
  change (Z.to_N 65) with 65. change (Z.to_N 90) with 90.
  destruct ((65 <=? c) && (c <=? 90)) eqn:E; [|reflexivity]. rewrite lor32_letter; lia.
Qed.
Lemma upper_step_ok c : to_upper c = match upper_step c with Some c' => c' | None => c end.
Proof.
  unfold to_upper, upper_step. destruct (schar_range c 97 122) as [->|]; try lia.
  change (Z.to_N 97) with 97. change (Z.to_N 122) with 122.
  destruct ((97 <=? c) && (c <=? 122)) eqn:E; [|reflexivity]. rewrite land223_letter; lia.
Qed.
Lemma case_all_ok step f w s pre cs post : (forall c, f c = match step c with Some c' => c' | None => c end) ->
  srep w s pre cs post ->
  exists r w' s' cs', scase step s w = Ok (r, s') w' /\ sgood w s w' s' pre cs' post /\ r = ST_SUCCESS /\ cs' = map f cs.
Proof.
  intros HF SR. unfold scase. pose proof (srep_lt _ _ _ _ _ SR). rewrite (srep_size _ _ _ _ _ SR), wsub_small by lia.
  replace (nlen cs + 1 - 1) with (nlen cs) by lia.
  destruct (case_ex_ok step f w s pre cs post 0 (nlen cs) HF SR) as (r & w' & s' & cs' & E & G & K); [lia|].
  exists r, w', s', cs'. split; [exact E|]. split; [exact G|]. unfold sspec_case in K.
  destruct (N.ltb_spec (nlen cs) (0 + nlen cs)); [lia|]. destruct K as [-> ->]. split; [reflexivity|].
  unfold map_range. rewrite nfirst_0, nsub_all, nskip_all by lia. now rewrite app_nil_r.
Qed.

Lemma sreserve_ok w s pre cs post n : srep w s pre cs post -> sgrants w s -> n < W64 ->
  exists r w' s' cs', sreserve s n w = Ok (r, s') w' /\ sgood w s w' s' pre cs' post /\
    sspec (limit_of s) (SReserve n) cs r cs' /\
    v_cap (s_vec s') = (if v_alloc (s_vec s) then N.max n (v_cap (s_vec s)) else v_cap (s_vec s)).
Proof.
  intros [R FL] NF F. pose proof (brep_cap _ _ _ _ _ R) as CAP. unfold sreserve.
  destruct (breserve_ok w (s_vec s) pre (cs ++ [0]) post n R NF F) as (r & w1 & v1 & E1 & G1 & -> & K).
  rewrite (bind_ok _ _ _ _ _ E1). eexists _, w1, (with_vec s v1), cs. split; [reflexivity|].
  split; [split; [exact G1|reflexivity]|]. split; [|exact K]. cbn [sspec]. unfold limit_of, bholds, refuse.
  destruct (v_alloc (s_vec s)); cbn [orb]; [now split|].
  destruct (N.ltb_spec (v_cap (s_vec s) - 1 + 1) n); destruct (N.leb_spec n (v_cap (s_vec s))); try lia; now split.
Qed.
Lemma sshrink_ok w s pre cs post : srep w s pre cs post -> sgrants w s ->
  exists r w' s' cs', sshrink_to_fit s w = Ok (r, s') w' /\ sgood w s w' s' pre cs' post /\
    sspec (limit_of s) SShrinkToFit cs r cs' /\
    v_cap (s_vec s') = (if v_alloc (s_vec s) then nlen cs + 1 else v_cap (s_vec s)).
Proof.
  intros [R FL] NF. unfold sshrink_to_fit.
  destruct (bshrink_ok w (s_vec s) pre (cs ++ [0]) post R NF) as (w1 & v1 & E1 & G1 & K).
  rewrite (bind_ok _ _ _ _ _ E1). eexists _, w1, (with_vec s v1), cs. split; [reflexivity|].
  split; [split; [exact G1|reflexivity]|]. split; [now split|]. cbn [s_vec with_vec]. rewrite K, nlen_app.
  change (nlen [0]) with 1. destruct (v_alloc (s_vec s)); lia.
Qed.

(** ** One call, sequences of calls *)
Lemma with_sarg_step w s pre cs post x k (P : status -> list N -> Prop) : srep w s pre cs post ->
  (exists r w' s' cs', k (Some (mkptr (nextb w) 0)) (argw w x) = Ok (r, s') w' /\
     sgood (argw w x) s w' s' pre cs' post /\ P r cs') ->
  exists r w' s' cs', with_arg x k w = Ok (r, s') w' /\ sgood w s w' s' pre cs' post /\ P r cs'.
Proof.
  intros [R FL] (r & w' & s' & cs' & E & [G F] & K).
  exists r, (dropw w' (nextb w)), s', cs'. split; [|split; [|exact K]].
  - unfold with_arg, argw in *. rewrite E. reflexivity.
  - split; [|exact F]. eapply bdropw; eauto.
Qed.
Lemma arg_view w s pre cs post x : srep w s pre cs post ->
  srep (argw w (x ++ [0])) s pre cs post /\
  is_view (argw w (x ++ [0])) (define_view (Some (mkptr (nextb w) 0)) (nlen x + 1)) x (blk (s_vec s)).
Proof.
  intros [R FL]. destruct (bargw w (s_vec s) pre (cs ++ [0]) post (x ++ [0]) R) as (R' & Q & NB).
  split; [now split|]. exists (mkptr (nextb w) 0). split; [reflexivity|]. split; [reflexivity|].
  split; [|exact NB]. apply (src_sub _ _ [] x [0]) in Q. exact Q.
Qed.

Theorem run_sop_ok w s pre cs post o : srep w s pre cs post -> sgrants w s -> sums_ok o ->
  (nlen cs + sdemand o + 1) * 256 < W64 ->
  exists r w' s' cs', run_sop s o w = Ok (r, s') w' /\ sgood w s w' s' pre cs' post /\
    sspec (limit_of s) o cs r cs'.
Proof.
  intros R NF SO F. destruct o; cbn [run_sop sdemand sums_ok] in *.
  - unfold with_view. apply (with_sarg_step w s pre cs post _ _ (sspec (limit_of s) _ cs) R). destruct (arg_view _ _ _ _ _ x R) as (R1 & V).
    now apply append_ok.
  - unfold with_view. apply (with_sarg_step w s pre cs post _ _ (sspec (limit_of s) _ cs) R). destruct (arg_view _ _ _ _ _ x R) as (R1 & V).
    now apply append_ex_ok.
  - unfold with_view. apply (with_sarg_step w s pre cs post _ _ (sspec (limit_of s) _ cs) R). destruct (arg_view _ _ _ _ _ x R) as (R1 & V).
    now apply insert_ok.
  - unfold with_view. apply (with_sarg_step w s pre cs post _ _ (sspec (limit_of s) _ cs) R). destruct (arg_view _ _ _ _ _ x R) as (R1 & V).
    now apply insert_ex_ok.
  - apply delete_ok; auto. lia.
  - apply truncate_ok; auto. lia.
  - destruct (clear_ok w s pre cs post R NF) as (w' & s' & E & G); [lia|].
    exists ST_SUCCESS, w', s', []. split; [exact E|]. split; [exact G|now split].
  - now apply sresize_ok.
  - apply (with_sarg_step w s pre cs post _ _ (sspec (limit_of s) _ cs) R). pose proof R as [BR FL].
    destruct (bargw w (s_vec s) pre (cs ++ [0]) post [c] BR) as (R' & Q & NB).
    apply set_char_ok; auto. now split.
  - exact (case_all_ok lower_step to_lower w s pre cs post lower_step_ok R).
  - now apply case_ex_ok; [exact lower_step_ok|..].
  - exact (case_all_ok upper_step to_upper w s pre cs post upper_step_ok R).
  - now apply case_ex_ok; [exact upper_step_ok|..].
  - destruct (sreserve_ok w s pre cs post n R NF) as (r & w' & s' & cs' & E & G & K & _); [lia|].
    now exists r, w', s', cs'.
  - destruct (sshrink_ok w s pre cs post R NF) as (r & w' & s' & cs' & E & G & K & _).
    now exists r, w', s', cs'.
Qed.
Lemma nlen_map {A B} (f : A -> B) l : nlen (map f l) = nlen l.
Proof. unfold nlen. now rewrite map_length. Qed.
Lemma become_len lim new cs r cs' : become lim new cs r cs' -> nlen cs' <= N.max (nlen new) (nlen cs).
Proof. unfold become. destruct (holds_chars _ _); intros [_ ->]; lia. Qed.
Lemma sspec_len lim o cs r cs' : sspec lim o cs r cs' -> nlen cs' <= nlen cs + sdemand o.
Proof.
  assert (SUB : forall j n (x : list N), nlen (nsub j n x) <= nlen x).
  { intros. unfold nsub. rewrite nlen_nfirst, nlen_nskip. lia. }
  assert (AP : forall x j n, sspec_append lim x j n cs r cs' -> nlen cs' <= nlen cs + nlen x).
  { intros x j n. unfold sspec_append. destruct (_ <? _); [intros [_ ->]; lia|].
    intros H. apply become_len in H. rewrite nlen_app in H. pose proof (SUB j n x). lia. }
  assert (IN : forall i x j n, sspec_insert lim i x j n cs r cs' -> nlen cs' <= nlen cs + nlen x).
  { intros i x j n. unfold sspec_insert. destruct (_ =? _); [apply AP|].
    destruct (_ <? _); [intros [_ ->]; lia|]. destruct (_ <? _); [intros [_ ->]; lia|].
    destruct (_ =? _); [intros [_ ->]; lia|].
    intros H. apply become_len in H. rewrite !nlen_app, nlen_nfirst, nlen_nskip in H. pose proof (SUB j n x). lia. }
  assert (DE : forall i n, sspec_delete i n cs r cs' -> nlen cs' <= nlen cs).
  { intros i n. unfold sspec_delete. destruct (_ <? _); [intros [_ ->]; lia|].
    destruct (_ =? _); intros [_ ->]; [lia|]. rewrite nlen_app, nlen_nfirst, nlen_nskip. lia. }
  assert (CA : forall f i n, sspec_case f i n cs r cs' -> nlen cs' <= nlen cs).
  { intros f i n. unfold sspec_case. destruct (_ <? _); intros [_ ->]; [lia|].
    unfold map_range, nsub. rewrite !nlen_app, nlen_map, !nlen_nfirst, !nlen_nskip. lia. }
  destruct o; cbn [sspec sdemand]; intros H.
  - apply become_len in H. rewrite nlen_app in H. lia.
  - now apply AP in H.
  - now apply IN in H.
  - now apply IN in H.
  - apply DE in H. lia.
  - destruct (_ <? _); [destruct H as [_ ->]; lia|]. apply DE in H. lia.
  - destruct H as [_ ->]. rewrite nlen_nil. lia.
  - destruct (_ <=? _) eqn:L; [destruct H as [_ ->]; rewrite nlen_nfirst; lia|].
    destruct H as (new & LN & H). apply become_len in H. rewrite nlen_app in H. lia.
  - destruct (_ <=? _) eqn:L; destruct H as [_ ->]; [lia|].
    rewrite !nlen_app, nlen_nfirst, nlen_nskip. change (nlen [c]) with 1. lia.
  - destruct H as [_ ->]. rewrite nlen_map. lia.
  - apply CA in H. lia.
  - destruct H as [_ ->]. rewrite nlen_map. lia.
  - apply CA in H. lia.
  - destruct lim as [k|]; [destruct (_ <? _)|]; destruct H as [_ ->]; lia.
  - destruct H as [_ ->]. lia.
Qed.
Theorem run_sops_ok : forall ops w s pre cs post, srep w s pre cs post -> snofail w s -> Forall sums_ok ops ->
  (nlen cs + sdemands ops + 1) * 256 < W64 ->
  exists rs w' s' cs', run_sops s ops w = Ok (rs, s') w' /\ sgood w s w' s' pre cs' post /\
    sspecs (limit_of s) ops cs rs cs'.
Proof.
  induction ops as [|o ops IH]; intros w s pre cs post R NF SO F.
  - exists [], w, s, cs. split; [reflexivity|]. split; [now apply sgood_refl|constructor].
  - inv SO. cbn [sdemands] in F.
    destruct (run_sop_ok w s pre cs post o R (nofail_grants _ _ NF) H1) as (r & w1 & s1 & cs1 & E1 & G1 & S1); [lia|].
    pose proof (sspec_len _ _ _ _ _ S1) as L1.
    destruct (IH w1 s1 pre cs1 post) as (rs & w2 & s2 & cs2 & E2 & G2 & S2); auto.
    { eapply sgood_rep; eauto. } { eapply bnofail; [exact NF|apply G1]. } { lia. }
    exists (r :: rs), w2, s2, cs2. split; [|split].
    + cbn [run_sops]. rewrite (bind_ok _ _ _ _ _ E1), (bind_ok _ _ _ _ _ E2). reflexivity.
    + eapply sgood_trans; [exact G1|eapply brep_wf; apply R|exact G2].
    + econstructor; [exact S1|]. now rewrite (sgood_limit _ _ _ _ _ _ _ G1) in S2.
Qed.

(** ** Construction and observation *)
Lemma sinit_ok w cap g t : sinit_args_ok w cap g t ->
  exists w' s, sinit_ex cap true g t w = Ok (ST_SUCCESS, Some s) w' /\ srep w' s [] [] [] /\
    snofail w' s /\ v_alloc (s_vec s) = true /\ v_cap (s_vec s) = N.max 32 cap + 1 /\
    nextb w <= blk (s_vec s) /\ nextb w <= nextb w' /\ orc w' = orc w /\
    v_growth (s_vec s) = g /\ v_shrink (s_vec s) = t /\
    (forall b, b <> blk (s_vec s) -> heap w' b = heap w b).
Proof.
  intros (W & AO & G & T & C). unfold sinit_ex, STRING_MIN_CAPACITY. rewrite wadd_small by exact C.
  destruct (AO (tick w)) as [fill O].
  destruct (init_ok w 1 (N.max 32 cap + 1) None g t fill W O) as (w1 & v & E & R & CP & ES & AL & CF & _ & OR & B1 & B2 & HP); auto; try lia.
  { exact I. }
  rewrite (bind_ok _ _ _ _ _ E). sst. unfold bind at 1, assert at 1, ret at 1. rewrite CP.
  destruct (N.leb_spec (N.max 32 cap + 1) (N.max 1 (N.max 32 cap + 1))); [|lia].
  unfold bind at 1, assert at 1, ret at 1. rewrite ES. change (1 =? 1) with true. cbv iota.
  assert (BR : brep w1 v [] [] []).
  { split; [exact R|]. split; [exact ES|]. now injection CF. }
  destruct (bstart_ok _ _ _ _ BR) as (w2 & E2 & G2). rewrite (bind_ok _ _ _ _ _ E2).
  rewrite (brep_size _ _ _ _ _ BR). change (wadd (nlen []) 1) with 1.
  destruct G2 as [GR GC GF GK].
  assert (SR : srep w2 (mkstr 0 (set_size v 1)) [] [] []).
  { split; [exact GR|]. cbn. now rewrite AL. }
  eexists w2, _. split; [reflexivity|]. split; [exact SR|]. split.
  - intros _ u. rewrite (fr_orc _ _ _ _ GF), OR. apply AO.
  - cbn [s_vec set_size v_alloc v_cap v_growth v_shrink]. change (blk (set_size v 1)) with (blk v) in *.
    split; [exact AL|]. split; [rewrite CP; lia|]. split; [exact B1|].
    pose proof (fr_next _ _ _ _ GF). split; [lia|]. rewrite (fr_orc _ _ _ _ GF). split; [exact OR|].
    injection CF as _ -> -> _ _. split; [reflexivity|]. split; [reflexivity|].
    intros b NB. rewrite (fr_heap _ _ _ _ GF) by exact NB. now apply HP.
Qed.
Lemma sinit_custom_ok w cap b pre buf post : sbuffer_args_ok w cap b pre buf post ->
  exists w' s, sinit_custom (Some (mkptr b (nlen pre))) cap w = Ok (ST_SUCCESS, Some s) w' /\
    srep w' s pre [] post /\ snofail w' s /\ v_alloc (s_vec s) = false /\ v_cap (s_vec s) = cap /\
    blk (s_vec s) = b /\ nextb w' = nextb w /\ orc w' = orc w /\
    (forall b', b' <> b -> heap w' b' = heap w b').
Proof.
  intros (W & H & LB & C1 & C2). unfold sinit_custom. destruct (N.eqb_spec cap 0); [lia|].
  destruct (init_custom_ok w 1 cap None b pre buf post) as (v & E & R & CP & ES & AL & CF & BK); auto; try lia.
  { exact I. }
  rewrite (bind_ok _ _ _ _ _ E). sst. unfold bind at 1, assert at 1, ret at 1. rewrite CP, N.eqb_refl.
  unfold bind at 1, assert at 1, ret at 1. rewrite ES. change (1 =? 1) with true. cbv iota.
  assert (BR : brep w v pre [] post).
  { split; [exact R|]. split; [exact ES|]. now injection CF. }
  destruct (bstart_ok _ _ _ _ BR) as (w2 & E2 & G2). rewrite (bind_ok _ _ _ _ _ E2).
  rewrite (brep_size _ _ _ _ _ BR). change (wadd (nlen []) 1) with 1.
  assert (NX : nextb w2 = nextb w).
  { clear -E2. unfold mwrite in E2. destruct (v_data v); [|discriminate]. destruct (heap w _); [|discriminate].
    destruct (_ <=? _); [|discriminate]. now inversion E2. }
  destruct G2 as [GR GC GF GK].
  assert (SR : srep w2 (mkstr HAS_FIXED_CAPACITY (set_size v 1)) pre [] post).
  { split; [exact GR|]. cbn. now rewrite AL. }
  eexists w2, _. split; [reflexivity|]. split; [exact SR|]. split.
  - intros A. cbn in A. congruence.
  - cbn [s_vec set_size v_alloc v_cap]. change (blk (set_size v 1)) with (blk v).
    split; [exact AL|]. split; [exact CP|]. split; [exact BK|]. split; [exact NX|].
    split; [apply GF|]. intros b' NB. apply GF; rewrite ?blk_set_size; congruence.
Qed.

Lemma srep_read1 w s pre cs post i c : srep w s pre cs post -> nnth i (cs ++ [0]) = Some c ->
  mread1 (padd (sdata s) i) w = Ok c w.
Proof.
  intros [R _] H. apply nnth_some in H as (a & d & E & <-). rewrite E in R.
  unfold mread1, sdata. rewrite (bind_ok _ _ w [c] w); [reflexivity|].
  apply (bread_ok w (s_vec s) pre a [c] d post). exact R.
Qed.
Lemma srep_shows w s pre cs post : srep w s pre cs post -> sshows w s cs.
Proof.
  intros SR. pose proof SR as [R FL]. pose proof (srep_lt _ _ _ _ _ SR) as LT. split; [|split].
  - unfold sget_size. rewrite (srep_size _ _ _ _ _ SR). unfold bind, assert, ret.
    destruct (N.leb_spec 1 (nlen cs + 1)); [|lia]. rewrite wsub_small by lia. do 2 f_equal. lia.
  - intros i LI. unfold sget_char. rewrite (srep_size _ _ _ _ _ SR).
    destruct (N.lt_ge_cases i (nlen cs)) as [L|L].
    + destruct (nnth_exists _ _ L) as [c NC]. rewrite NC, wadd_small by lia.
      destruct (N.leb_spec (nlen cs + 1) (i + 1)); [lia|]. unfold vget_pointer.
      change (v_size (s_vec s)) with (ssize s). rewrite (srep_size _ _ _ _ _ SR).
      destruct (N.leb_spec (nlen cs + 1) i); [lia|].
      unfold bind at 1. rewrite (bind_ok _ _ _ _ _ (rep_assert_valid _ _ _ _ _ (proj1 R))). unfold ret at 1. sst.
      pose proof (brep_le _ _ _ _ _ R) as LE. rewrite nlen_app in LE.
      rewrite (brep_offset _ _ _ _ _ _ R) by lia. rewrite <- (brep_at _ _ _ _ _ _ R).
      rewrite (bind_ok _ _ w c w); [reflexivity|]. apply (srep_read1 _ _ _ _ _ _ _ SR).
      now rewrite nnth_app1.
    + rewrite nnth_ge by assumption. destruct (N.eq_dec i (W64 - 1)) as [->|NE].
      * replace (wadd (W64 - 1) 1) with 0 by reflexivity.
        destruct (N.leb_spec (nlen cs + 1) 0); [lia|]. unfold vget_pointer, bind.
        change (v_size (s_vec s)) with (ssize s). rewrite (srep_size _ _ _ _ _ SR).
        destruct (N.leb_spec (nlen cs + 1) (W64 - 1)); [|lia]. reflexivity.
      * rewrite wadd_small by lia. destruct (N.leb_spec (nlen cs + 1) (i + 1)); [reflexivity|lia].
  - cbn [sget_data snd]. unfold sdata. pose proof (bread_ok w (s_vec s) pre [] (cs ++ [0]) [] post) as B.
    rewrite app_nil_r, nlen_app in B. change (nlen [0]) with 1 in B. change (nlen (@nil N)) with 0 in B.
    specialize (B R). rewrite (brep_at _ _ _ _ _ _ R) in B. rewrite (brep_data _ _ _ _ _ R).
    now rewrite N.add_0_r in B.
Qed.
Lemma sshows_inj w s cs cs' : sshows w s cs -> sshows w s cs' -> cs = cs'.
Proof.
  intros (S1 & _ & D1) (S2 & _ & D2). rewrite S1 in S2. injection S2 as L. rewrite <- L, D1 in D2.
  injection D2 as D2. now apply app_inv_tail in D2.
Qed.

(** Argument parser: the strings, and the searches among the definitions. *)
From Verif Require Import Base NListFacts Status Mem MemFacts VectorModel VectorDriver VectorProofs StringModel StringDriver
  ArgModel ArgSpec ArgDriver.
From Coq Require Import ZifyBool ZifyNat ZifyN.
Implicit Types (w : world acell) (p q : ptr).

Lemma index_of_nul_app x c : Forall (fun c => c <> 0) x -> index_of_nul (x ++ 0 :: c) = Some (nlen x).
Proof.
  induction 1 as [|a x NZ _ IH]; [reflexivity|]. cbn [app index_of_nul]. destruct (N.eqb_spec a 0); [congruence|].
  rewrite IH, nlen_cons. cbn. f_equal.
Qed.

Section Text.
  Variable tw : world N.
  Notation cs := (cstring_at tw).

  Lemma text_ok {A} (m : Mem.M N A) a w : m tw = Ok a tw -> text tw m w = Ok a w.
  Proof. unfold text. now intros ->. Qed.
  Lemma mstrlen_ok p x : cs p x -> mstrlen (Some p) tw = Ok (nlen x) tw.
  Proof.
    intros (NZ & _ & a & c & H & P). unfold mstrlen. rewrite H, P, nskip_app_l by reflexivity.
    rewrite <- app_assoc. cbn [app]. now rewrite index_of_nul_app.
  Qed.
  Lemma astrlen_ok p x w : cs p x -> astrlen tw p w = Ok (nlen x) w.
  Proof. intros H. apply text_ok. now apply mstrlen_ok. Qed.
  Lemma cstring_ok p x : cs p x -> cstring p tw = Ok x tw.
  Proof.
    intros H. unfold cstring. rewrite (bind_ok _ _ _ _ _ (mstrlen_ok _ _ H)). destruct H as (_ & _ & a & c & H & P).
    destruct p as [b o]. cbn [pb po] in *. subst o. rewrite <- app_assoc in H. exact (mread_mid _ _ _ _ _ _ _ H eq_refl eq_refl).
  Qed.
  Lemma text_eqb_spec x y : text_eqb x y = true <-> x = y.
  Proof. unfold text_eqb. destruct (list_eq_dec _ _ _); now split. Qed.
  Lemma astreq_ok p q x y w : cs p x -> cs q y -> astreq tw p q w = Ok (text_eqb x y) w.
  Proof.
    intros H K. apply text_ok. rewrite (bind_ok _ _ _ _ _ (cstring_ok _ _ H)). rewrite (bind_ok _ _ _ _ _ (cstring_ok _ _ K)). reflexivity.
  Qed.
  Lemma char_at_ok p x i c w : cs p x -> nnth i (x ++ [0]) = Some c -> char_at tw p i w = Ok c w.
  Proof.
    intros (_ & _ & a & z & H & P) E. apply text_ok. apply nnth_some in E as (l & r & E & L). rewrite E in H.
    unfold mread1. rewrite (bind_ok _ _ _ [c] tw); [reflexivity|]. destruct p as [b o]. cbn [pb po padd] in *. subst o.
    apply (mread_mid tw b _ 1 (a ++ l) [c] (r ++ z)); [|rewrite nlen_app; lia|reflexivity].
    rewrite H. now rewrite <- !app_assoc.
  Qed.
  Lemma cs_skip b o a x : cs (mkptr b o) (a ++ x) -> cs (mkptr b (o + nlen a)) x.
  Proof.
    intros (NZ & L & l & r & H & P). apply Forall_app in NZ as [_ NZ]. rewrite nlen_app in L. split; [exact NZ|]. split; [lia|].
    exists (l ++ a), r. cbn [pb po] in *. split; [|rewrite nlen_app; lia]. rewrite H. now rewrite <- !app_assoc.
  Qed.
  Lemma cs_nz p x : cs p x -> Forall (fun c => c <> 0) x.
  Proof. now intros (H & _). Qed.

  (** ** Definitions *)
  Lemma check_defs_ok w : forall ds (xs : list sdef), Forall2 (def_is tw) ds xs -> Forall (fun z : sdef => name_ok (sd_name z)) xs ->
    check_defs tw ds w = Ok true w.
  Proof.
    induction 1 as [|d x ds xs (D & _) _ IH]; intros OK; [reflexivity|]. apply Forall_cons_iff in OK as [N OK].
    cbn [check_defs]. rewrite (bind_ok _ _ _ _ _ (astrlen_ok _ _ w D)).
    destruct N as [(c & E)|(y & E)]; rewrite E in *.
    - change (nlen [dash; c] <? 2) with false. cbv iota. rewrite (bind_ok _ _ _ _ _ (char_at_ok _ _ 0 dash w D eq_refl)).
      change (negb (dash =? DASH)) with false. cbv iota. rewrite (bind_ok _ _ _ _ _ (char_at_ok _ _ 1 c w D eq_refl)).
      change (nlen [dash; c] =? 2) with true. rewrite andb_false_r. now apply IH.
    - replace (nlen (dash :: dash :: y) <? 2) with false by (rewrite !nlen_cons; lia).
      rewrite (bind_ok _ _ _ _ _ (char_at_ok _ _ 0 dash w D eq_refl)).
      change (negb (dash =? DASH)) with false. cbv iota. rewrite (bind_ok _ _ _ _ _ (char_at_ok _ _ 1 dash w D eq_refl)).
      change (negb (dash =? DASH)) with false. cbn [andb]. now apply IH.
  Qed.
  Lemma check_defs_bad w : forall ds (xs : list sdef), Forall2 (def_is tw) ds xs -> Exists (fun z : sdef => ~ name_ok (sd_name z)) xs ->
    check_defs tw ds w = Ok false w.
  Proof.
    induction 1 as [|d x ds xs (D & _) _ IH]; intros OK; [inversion OK|].
    cbn [check_defs]. rewrite (bind_ok _ _ _ _ _ (astrlen_ok _ _ w D)).
    destruct (sd_name x) as [|c0 [|c1 y]] eqn:E.
    - reflexivity.
    - reflexivity.
    - replace (nlen (c0 :: c1 :: y) <? 2) with false by (rewrite !nlen_cons; lia).
      rewrite (bind_ok _ _ _ _ _ (char_at_ok _ _ 0 c0 w D eq_refl)).
      destruct (N.eqb_spec c0 DASH) as [->|]; cbn [negb]; [|reflexivity].
      rewrite (bind_ok _ _ _ _ _ (char_at_ok _ _ 1 c1 w D eq_refl)).
      destruct (N.eqb_spec c1 DASH) as [->|N1]; cbn [negb andb].
      + apply IH. apply Exists_cons in OK as [B|B]; [|exact B]. exfalso. apply B. right. exists y. exact E.
      + destruct y as [|c2 y].
        * change (negb (nlen [DASH; c1] =? 2)) with false. cbv iota. apply IH.
          apply Exists_cons in OK as [B|B]; [|exact B]. exfalso. apply B. left. exists c1. exact E.
        * replace (nlen (DASH :: c1 :: c2 :: y) =? 2) with false by (rewrite !nlen_cons; lia). reflexivity.
  Qed.

  (** The searches find what the specification says. *)
  Definition result_of (ds : list sdef) (name : token) (k : N) (r : option N) : Prop :=
    match r with
    | None => forall j y, nnth j ds = Some y -> sd_name y <> name
    | Some d => k <= d /\ exists x, nnth (d - k) ds = Some x /\ sd_name x = name /\
        forall j y, j < d - k -> nnth j ds = Some y -> sd_name y <> name
    end.
  Lemma nnth_0 {A} (x : A) l : nnth 0 (x :: l) = Some x.
  Proof. reflexivity. Qed.
  Lemma nnth_S {A} j (x : A) l : 0 < j -> nnth j (x :: l) = nnth (j - 1) l.
  Proof. intros L. change (x :: l) with ([x] ++ l). rewrite nnth_app2 by (change (nlen [x]) with 1; lia). reflexivity. Qed.
  Lemma result_skip (d : sdef) ds name k r : sd_name d <> name -> result_of ds name (k + 1) r -> result_of (d :: ds) name k r.
  Proof.
    intros NE. destruct r as [e|]; cbn [result_of].
    - intros (L & z & E & N & F). split; [lia|]. exists z. rewrite nnth_S by lia. replace (e - k - 1) with (e - (k + 1)) by lia.
      split; [exact E|]. split; [exact N|]. intros j u J U. destruct (N.eq_dec j 0) as [->|].
      + rewrite nnth_0 in U. injection U as <-. exact NE.
      + rewrite nnth_S in U by lia. apply (F (j - 1) u); [lia|exact U].
    - intros F j u U. destruct (N.eq_dec j 0) as [->|].
      + rewrite nnth_0 in U. injection U as <-. exact NE.
      + rewrite nnth_S in U by lia. exact (F _ _ U).
  Qed.
  Lemma result_here (d : sdef) ds name k : sd_name d = name -> result_of (d :: ds) name k (Some k).
  Proof.
    intros E. split; [lia|]. exists d. rewrite N.sub_diag. split; [reflexivity|]. split; [exact E|]. intros j u J. lia.
  Qed.
  Lemma find_long_ok w cur t : cs cur t -> forall ds (xs : list sdef) k, Forall2 (def_is tw) ds xs ->
    exists r, find_long tw ds k cur w = Ok r w /\ result_of xs t k r.
  Proof.
    intros T ds xs k F. revert k. induction F as [|d x ds xs (D & _) _ IH]; intros k.
    - exists None. split; [reflexivity|]. intros j y E. unfold nnth in E. destruct (N.to_nat j); discriminate E.
    - cbn [find_long]. rewrite (bind_ok _ _ _ _ _ (astreq_ok _ _ _ _ w D T)).
      destruct (text_eqb (sd_name x) t) eqn:E.
      + apply text_eqb_spec in E. exists (Some k). split; [reflexivity|]. now apply result_here.
      + destruct (IH (k + 1)) as (r & R & RO). exists r. split; [exact R|]. apply result_skip; [|exact RO].
        intros X. apply text_eqb_spec in X. congruence.
  Qed.
  Lemma find_short_ok w c : forall ds (xs : list sdef) k, Forall2 (def_is tw) ds xs ->
    exists r, find_short tw ds k c w = Ok r w /\ result_of xs [dash; c] k r.
  Proof.
    intros ds xs k F. revert k. induction F as [|d x ds xs (D & _) _ IH]; intros k.
    - exists None. split; [reflexivity|]. intros j y E. unfold nnth in E. destruct (N.to_nat j); discriminate E.
    - cbn [find_short]. rewrite (bind_ok _ _ _ _ _ (astrlen_ok _ _ w D)).
      assert (SK : sd_name x <> [dash; c] -> exists r, find_short tw ds (k + 1) c w = Ok r w /\ result_of (x :: xs) [dash; c] k r).
      { intros NE. destruct (IH (k + 1)) as (r & R & RO). exists r. split; [exact R|]. now apply result_skip. }
      destruct (N.eqb_spec (nlen (sd_name x)) 2) as [L|L]; cbn [negb].
      2:{ apply SK. intros X. apply L. now rewrite X. }
      destruct (sd_name x) as [|c0 [|c1 [|c2 y]]] eqn:E; try (rewrite ?nlen_cons, ?nlen_nil in L; lia).
      rewrite (bind_ok _ _ _ _ _ (char_at_ok _ _ 0 c0 w D eq_refl)).
      destruct (N.eqb_spec c0 DASH) as [->|N0]; cbn [negb].
      2:{ apply SK. intros X. injection X as X _. now apply N0. }
      rewrite (bind_ok _ _ _ _ _ (char_at_ok _ _ 1 c1 w D eq_refl)).
      destruct (N.eqb_spec c1 c) as [->|N1].
      + exists (Some k). split; [reflexivity|]. now apply result_here.
      + apply SK. intros X. injection X as X. now apply N1.
  Qed.
  Lemma result_named (ds : list sdef) name d : result_of ds name 0 (Some d) -> exists b, named ds name d b.
  Proof.
    intros (_ & x & E & N & F). rewrite N.sub_0_r in *. exists (sd_boolean x), x. auto.
  Qed.
End Text.

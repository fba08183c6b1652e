(** Lemmas on N-indexed lists and wrapping arithmetic. *)
From Verif Require Import Base.
From Coq Require Import ZifyBool ZifyNat ZifyN.

Lemma wadd_small a b : a + b < W64 -> wadd a b = a + b.
Proof. unfold wadd. intros. apply N.mod_small; assumption. Qed.
Lemma wmul_small a b : a * b < W64 -> wmul a b = a * b.
Proof. unfold wmul. intros. apply N.mod_small; assumption. Qed.
Lemma wsub_small a b : a < W64 -> b <= a -> wsub a b = a - b.
Proof.
  unfold wsub. intros Ha Hb.
  rewrite (N.mod_small b) by (eapply N.le_lt_trans; eauto).
  replace (a + (W64 - b)) with ((a - b) + 1 * W64) by (unfold W64 in *; lia).
  rewrite N.mod_add by (unfold W64; lia). apply N.mod_small. lia.
Qed.

Section Facts.
  Context {A : Type}.
  Implicit Types l a b c : list A.

  Lemma nlen_app a b : nlen (a ++ b) = nlen a + nlen b.
  Proof. unfold nlen. rewrite app_length. lia. Qed.
  Lemma nlen_nil : nlen (@nil A) = 0.
  Proof. reflexivity. Qed.
  Lemma nlen_cons x l : nlen (x :: l) = 1 + nlen l.
  Proof. unfold nlen. cbn [length]. lia. Qed.
  Lemma nlen_0 l : nlen l = 0 -> l = [].
  Proof. destruct l; [reflexivity|]. rewrite nlen_cons. lia. Qed.
  Lemma nlen_repeat (x : A) n : nlen (nrepeat x n) = n.
  Proof. unfold nlen, nrepeat. rewrite repeat_length. lia. Qed.
  Lemma nlen_rev l : nlen (rev l) = nlen l.
  Proof. unfold nlen. now rewrite rev_length. Qed.

  Lemma nfirst_app_l n a b : nlen a = n -> nfirst n (a ++ b) = a.
  Proof.
    unfold nlen, nfirst. intros <-. rewrite Nnat.Nat2N.id.
    rewrite firstn_app, Nat.sub_diag. cbn. now rewrite app_nil_r, firstn_all.
  Qed.
  Lemma nskip_app_l n a b : nlen a = n -> nskip n (a ++ b) = b.
  Proof.
    unfold nlen, nskip. intros <-. rewrite Nnat.Nat2N.id.
    rewrite skipn_app, Nat.sub_diag, skipn_all. reflexivity.
  Qed.
  Lemma nfirst_all n l : nlen l <= n -> nfirst n l = l.
  Proof. unfold nlen, nfirst. intros. apply firstn_all2. lia. Qed.
  Lemma nskip_all n l : nlen l <= n -> nskip n l = [].
  Proof. unfold nlen, nskip. intros. apply skipn_all2. lia. Qed.
  Lemma nskip_0 l : nskip 0 l = l.
  Proof. reflexivity. Qed.
  Lemma nfirst_0 l : nfirst 0 l = [].
  Proof. reflexivity. Qed.
  Lemma nfirst_skip n l : nfirst n l ++ nskip n l = l.
  Proof. apply firstn_skipn. Qed.
  Lemma nlen_nfirst n l : nlen (nfirst n l) = N.min n (nlen l).
  Proof. unfold nlen, nfirst. rewrite firstn_length. lia. Qed.
  Lemma nlen_nskip n l : nlen (nskip n l) = nlen l - n.
  Proof. unfold nlen, nskip. rewrite skipn_length. lia. Qed.

  Lemma nsplit n l : n <= nlen l -> exists a b, l = a ++ b /\ nlen a = n.
  Proof.
    intros. exists (nfirst n l), (nskip n l). split.
    - symmetry. apply nfirst_skip.
    - rewrite nlen_nfirst. lia.
  Qed.
  Lemma nsplit3 o n l : o + n <= nlen l ->
    exists a b c, l = a ++ b ++ c /\ nlen a = o /\ nlen b = n.
  Proof.
    intros H. destruct (nsplit o l) as (a & r & -> & Ha); [lia|].
    rewrite nlen_app in H.
    destruct (nsplit n r) as (b & c & -> & Hb); [lia|].
    exists a, b, c. auto.
  Qed.

  Lemma nsub_mid o n a b c : nlen a = o -> nlen b = n -> nsub o n (a ++ b ++ c) = b.
  Proof.
    intros Ha Hb. unfold nsub. rewrite nskip_app_l by assumption. now apply nfirst_app_l.
  Qed.
  Lemma nsub_mid_end o n a b : nlen a = o -> nlen b = n -> nsub o n (a ++ b) = b.
  Proof. intros. rewrite <- (app_nil_r b) at 1. now apply nsub_mid. Qed.
  Lemma nsplice_mid o x a b c : nlen a = o -> nlen b = nlen x ->
    nsplice o x (a ++ b ++ c) = a ++ x ++ c.
  Proof.
    intros Ha Hb. unfold nsplice. rewrite nfirst_app_l by assumption.
    rewrite (app_assoc a b c). rewrite nskip_app_l; [reflexivity|]. rewrite nlen_app. lia.
  Qed.
  Lemma nlen_nsub o n l : o + n <= nlen l -> nlen (nsub o n l) = n.
  Proof. intros. unfold nsub. rewrite nlen_nfirst, nlen_nskip. lia. Qed.
  Lemma nlen_nsplice o x l : o + nlen x <= nlen l -> nlen (nsplice o x l) = nlen l.
  Proof. intros. unfold nsplice. rewrite !nlen_app, nlen_nfirst, nlen_nskip. lia. Qed.

  Lemma nnth_mid n a x c : nlen a = n -> nnth n (a ++ x :: c) = Some x.
  Proof.
    unfold nlen, nnth. intros <-. rewrite Nnat.Nat2N.id.
    rewrite nth_error_app2 by lia. now rewrite Nat.sub_diag.
  Qed.
  Lemma nnth_app1 n a b : n < nlen a -> nnth n (a ++ b) = nnth n a.
  Proof. unfold nlen, nnth. intros. apply nth_error_app1. lia. Qed.
  Lemma nnth_app2 n a b : nlen a <= n -> nnth n (a ++ b) = nnth (n - nlen a) b.
  Proof.
    unfold nlen, nnth. intros. rewrite nth_error_app2 by lia. f_equal. lia.
  Qed.
  Lemma nnth_some n l x : nnth n l = Some x -> exists a c, l = a ++ x :: c /\ nlen a = n.
  Proof.
    unfold nnth. intros H. apply nth_error_split in H as (a & c & -> & H).
    exists a, c. split; [reflexivity|]. unfold nlen. lia.
  Qed.
  Lemma nnth_lt n l x : nnth n l = Some x -> n < nlen l.
  Proof.
    intros H. apply nnth_some in H as (a & c & -> & H). rewrite nlen_app, nlen_cons. lia.
  Qed.
  Lemma nnth_ge n l : nlen l <= n -> nnth n l = None.
  Proof. unfold nlen, nnth. intros. apply nth_error_None. lia. Qed.
  Lemma nnth_exists n l : n < nlen l -> exists x, nnth n l = Some x.
  Proof.
    unfold nlen, nnth. intros. destruct (nth_error l (N.to_nat n)) eqn:E; eauto.
    apply nth_error_None in E. lia.
  Qed.
  Lemma nsplit1 n l : n < nlen l -> exists a x c, l = a ++ x :: c /\ nlen a = n.
  Proof.
    intros H. destruct (nnth_exists _ _ H) as [x Hx].
    apply nnth_some in Hx as (a & c & -> & ?). exists a, x, c. auto.
  Qed.
End Facts.

(** Lists of equally sized chunks. *)
Section Chunks.
  Context {A : Type}.
  Implicit Types xs ys : list (list A).
  Definition chunked (e : N) xs : Prop := Forall (fun x => nlen x = e) xs.

  Lemma nlen_concat e xs : chunked e xs -> nlen (concat xs) = nlen xs * e.
  Proof.
    induction 1 as [|x xs Hx _ IH]; [reflexivity|].
    cbn [concat]. rewrite nlen_app, nlen_cons, IH, Hx. lia.
  Qed.
  Lemma chunked_app e xs ys : chunked e (xs ++ ys) <-> chunked e xs /\ chunked e ys.
  Proof. apply Forall_app. Qed.
  Lemma chunked_cons e x xs : chunked e (x :: xs) <-> nlen x = e /\ chunked e xs.
  Proof. apply Forall_cons_iff. Qed.
  Lemma chunked_nil e : chunked e (@nil (list A)).
  Proof. constructor. Qed.
End Chunks.

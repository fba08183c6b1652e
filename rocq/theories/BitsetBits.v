(** Facts on the bits of bytes and byte lists. *)
From Verif Require Import Base NListFacts BitFacts BitsetModel BitsetSpec.
From Coq Require Import ZifyBool ZifyNat ZifyN.

(** Exhaustive checks over bytes and bit positions. *)
Definition upto (n : nat) : list N := map N.of_nat (seq 0 n).
Lemma in_upto n x : x < N.of_nat n -> In x (upto n).
Proof. intros H. unfold upto. apply in_map_iff. exists (N.to_nat x). split; [lia|]. apply in_seq. lia. Qed.
Lemma all_bytes (P : N -> bool) : forallb P (upto 256) = true -> forall x, x < 256 -> P x = true.
Proof. intros H x L. rewrite forallb_forall in H. apply H, in_upto. exact L. Qed.
Lemma all_bytes_bits (P : N -> N -> bool) :
  forallb (fun x => forallb (P x) (upto 8)) (upto 256) = true -> forall x k, x < 256 -> k < 8 -> P x k = true.
Proof.
  intros H x k L K. pose proof (all_bytes _ H x L) as A. cbv beta in A. rewrite forallb_forall in A. apply A, in_upto.
  exact K.
Qed.
Lemma all_bytes_bits2 (P : N -> N -> N -> bool) :
  forallb (fun x => forallb (fun j => forallb (P x j) (upto 8)) (upto 8)) (upto 256) = true ->
  forall x j k, x < 256 -> j < 8 -> k < 8 -> P x j k = true.
Proof.
  intros H x j k L J K. pose proof (all_bytes_bits _ H x j L J) as A. cbv beta in A. rewrite forallb_forall in A.
  apply A, in_upto. exact K.
Qed.

Definition put1 (v : bool) (j : N) (x : N) : N :=
  if v then N.lor x (N.shiftl 1 j) mod 256 else N.land x (not8 (N.shiftl 1 j)).
Lemma put1_byte v j x : x < 256 -> j < 8 -> put1 v j x < 256.
Proof.
  intros L J. pose proof (all_bytes_bits (fun x j => (put1 true j x <? 256) && (put1 false j x <? 256))
    ltac:(vm_compute; reflexivity) x j L J) as H. cbv beta in H. destruct v; lia.
Qed.
Lemma put1_bit v j k x : x < 256 -> j < 8 -> k < 8 ->
  N.testbit (put1 v j x) k = if j =? k then v else N.testbit x k.
Proof.
  intros L J K.
  pose proof (all_bytes_bits2 (fun x j k =>
    eqb (N.testbit (put1 true j x) k) (if j =? k then true else N.testbit x k) &&
    eqb (N.testbit (put1 false j x) k) (if j =? k then false else N.testbit x k))
    ltac:(vm_compute; reflexivity) x j k L J K) as H. cbv beta in H.
  apply andb_true_iff in H as [H1 H2]. apply eqb_prop in H1, H2. destruct v; assumption.
Qed.
Definition flip1 (j x : N) : N := N.lxor x (N.shiftl 1 j) mod 256.
Lemma flip1_byte j x : x < 256 -> j < 8 -> flip1 j x < 256.
Proof.
  intros L J. pose proof (all_bytes_bits (fun x j => flip1 j x <? 256) ltac:(vm_compute; reflexivity) x j L J) as H.
  cbv beta in H. lia.
Qed.
Lemma flip1_bit j k x : x < 256 -> j < 8 -> k < 8 ->
  N.testbit (flip1 j x) k = if j =? k then negb (N.testbit x k) else N.testbit x k.
Proof.
  intros L J K.
  pose proof (all_bytes_bits2 (fun x j k =>
    eqb (N.testbit (flip1 j x) k) (if j =? k then negb (N.testbit x k) else N.testbit x k))
    ltac:(vm_compute; reflexivity) x j k L J K) as H. cbv beta in H. now apply eqb_prop in H.
Qed.
Lemma not8_byte x : x < 256 -> not8 x < 256.
Proof. unfold not8. lia. Qed.
Lemma not8_bit x k : x < 256 -> k < 8 -> N.testbit (not8 x) k = negb (N.testbit x k).
Proof.
  intros L K. pose proof (all_bytes_bits (fun x k => eqb (N.testbit (not8 x) k) (negb (N.testbit x k)))
    ltac:(vm_compute; reflexivity) x k L K) as H. cbv beta in H. now apply eqb_prop in H.
Qed.
Lemma test_bit x k : x < 256 -> k < 8 -> (N.land x (N.shiftl 1 k) =? 0) = negb (N.testbit x k).
Proof.
  intros L K. pose proof (all_bytes_bits (fun x k => eqb (N.land x (N.shiftl 1 k) =? 0) (negb (N.testbit x k)))
    ltac:(vm_compute; reflexivity) x k L K) as H. cbv beta in H. now apply eqb_prop in H.
Qed.

(** Bit [i] of a byte list; false beyond the end. *)
Definition bitat (l : list N) (i : N) : bool :=
  match nnth (i / 8) l with Some x => N.testbit x (bit_offset i) | None => false end.
Definition isbyte (x : N) : Prop := x < 256.

Lemma bit_offset_lt i : bit_offset i < 8.
Proof. unfold bit_offset. lia. Qed.
Lemma bitat_mid a x c i : i / 8 = nlen a -> bitat (a ++ x :: c) i = N.testbit x (bit_offset i).
Proof. intros H. unfold bitat. rewrite H, nnth_mid; reflexivity. Qed.
Lemma bitat_other a x y c i : i / 8 <> nlen a -> bitat (a ++ x :: c) i = bitat (a ++ y :: c) i.
Proof.
  intros H. unfold bitat. destruct (N.lt_total (i / 8) (nlen a)) as [L|[L|L]]; [|contradiction|].
  - now rewrite !nnth_app1 by exact L.
  - rewrite !nnth_app2 by lia. replace (i / 8 - nlen a) with (1 + (i / 8 - nlen a - 1)) by lia.
    unfold nnth. replace (N.to_nat (1 + (i / 8 - nlen a - 1))) with (S (N.to_nat (i / 8 - nlen a - 1))) by lia. reflexivity.
Qed.
Lemma bitat_ge l i : 8 * nlen l <= i -> bitat l i = false.
Proof. intros H. unfold bitat. rewrite nnth_ge; [reflexivity|]. lia. Qed.
Lemma bitat_app1 a c i : i / 8 < nlen a -> bitat (a ++ c) i = bitat a i.
Proof. intros H. unfold bitat. now rewrite nnth_app1. Qed.
Lemma bitat_map f g l i : i / 8 < nlen l -> Forall isbyte l ->
  (forall x, x < 256 -> N.testbit (f x) (bit_offset i) = g (N.testbit x (bit_offset i))) ->
  bitat (map f l) i = g (bitat l i).
Proof.
  intros L B H. unfold bitat. destruct (nnth_exists (i / 8) l L) as [x E].
  assert (E2 : nnth (i / 8) (map f l) = Some (f x)). { unfold nnth in *. now apply map_nth_error. }
  rewrite E, E2. apply H. rewrite Forall_forall in B. apply B. unfold nnth in E. eapply nth_error_In; eauto.
Qed.
(** Bits of the same byte list. *)
Lemma same_byte i j : i / 8 = j / 8 -> bit_offset i = bit_offset j -> i = j.
Proof. unfold bit_offset. intros A B. rewrite (N.div_mod i 8), (N.div_mod j 8) by lia. lia. Qed.

(** The bits of [put_bit]. *)
Lemma nnth_put f i bs k : i < nlen bs -> nnth k (put_bit f i bs) =
  if i =? k then option_map f (nnth k bs) else nnth k bs.
Proof.
  intros L. destruct (nsplit1 i bs L) as (a & x & c & -> & A). unfold put_bit.
  rewrite nfirst_app_l by exact A. change (x :: c) with ([x] ++ c). rewrite nsub_mid by auto.
  replace (nskip (i + 1) (a ++ [x] ++ c)) with c.
  2:{ rewrite app_assoc, nskip_app_l; [reflexivity|]. rewrite nlen_app. change (nlen [x]) with 1. lia. }
  cbn [map app]. destruct (N.eqb_spec i k) as [<-|NE].
  - now rewrite !nnth_mid by exact A.
  - destruct (N.lt_total k (nlen a)) as [L1|[L1|L1]]; [|congruence|].
    + now rewrite !nnth_app1 by exact L1.
    + rewrite !nnth_app2 by lia. replace (k - nlen a) with (1 + (k - nlen a - 1)) by lia.
      unfold nnth. replace (N.to_nat (1 + (k - nlen a - 1))) with (S (N.to_nat (k - nlen a - 1))) by lia. reflexivity.
Qed.
Lemma nlen_put f i bs : nlen (put_bit f i bs) = nlen bs.
Proof.
  unfold put_bit, nsub. rewrite !nlen_app. unfold nlen at 2. rewrite map_length. fold (nlen (nfirst 1 (nskip i bs))).
  rewrite !nlen_nfirst, !nlen_nskip. lia.
Qed.
Lemma nlen_map {A B} (f : A -> B) l : nlen (map f l) = nlen l.
Proof. unfold nlen. now rewrite map_length. Qed.
Lemma nnth_map {A B} (f : A -> B) l i : nnth i (map f l) = option_map f (nnth i l).
Proof. unfold nnth. apply nth_error_map. Qed.
Lemma nnth_zeros n i : i < n -> nnth i (nrepeat false n) = Some false.
Proof.
  intros H. unfold nnth, nrepeat. rewrite nth_error_repeat; [reflexivity|lia].
Qed.
Lemma nnth_repeat {A} (x : A) n i : i < n -> nnth i (nrepeat x n) = Some x.
Proof. intros H. unfold nnth, nrepeat. rewrite nth_error_repeat; [reflexivity|lia]. Qed.
Lemma nnth_nfirst {A} (l : list A) n i : i < n -> nnth i (nfirst n l) = nnth i l.
Proof.
  intros H. destruct (N.lt_ge_cases i (nlen l)) as [L|L].
  - rewrite <- (nfirst_skip n l) at 2. rewrite nnth_app1; [reflexivity|]. rewrite nlen_nfirst. lia.
  - rewrite !nnth_ge; [reflexivity| |]; rewrite ?nlen_nfirst; lia.
Qed.
Lemma nnth_rev0 {A} (l : list A) : nnth 0 (rev l) = nnth (nlen l - 1) l.
Proof.
  destruct l as [|x l] using rev_ind; [reflexivity|]. rewrite rev_app_distr, nlen_app. cbn [rev app].
  rewrite (nnth_mid _ l x []); [reflexivity|]. change (nlen [x]) with 1. lia.
Qed.

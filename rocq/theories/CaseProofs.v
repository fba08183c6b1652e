(** Case conversion against the case-insensitive functions. *)
From Verif Require Import Base NListFacts Status MemFacts VectorModel VectorSpec VectorDriver StringModel StringSpec StringDriver
  StringSearch StringProofs StringFinal StringFinal2 StringFinal3 CaseSpec Mem.
From Coq Require Import ZifyBool ZifyNat ZifyN.

Lemma lower_plain c : plain c -> bit5 (to_lower c) /\ plain (to_lower c) /\ fold32 (to_lower c) = fold32 c /\ c < 256 /\ c <> 0.
Proof.
  intros P. assert (c < 128) by (unfold plain in P; lia).
  assert (Q : forallb (fun c => implb (((32 <=? c) && (c <=? 63)) || ((65 <=? c) && (c <=? 90)) || ((97 <=? c) && (c <=? 122)))
    ((to_lower c <? 256) && N.testbit (to_lower c) 5 && (((32 <=? to_lower c) && (to_lower c <=? 63)) || ((97 <=? to_lower c) && (to_lower c <=? 122)))
     && (fold32 (to_lower c) =? fold32 c)%Z)) (map N.of_nat (seq 0 128)) = true) by (vm_compute; reflexivity).
  rewrite forallb_forall in Q. specialize (Q c). rewrite in_map_iff in Q.
  assert (T : exists x : nat, N.of_nat x = c /\ In x (seq 0 128)).
  { exists (N.to_nat c). split; [lia|]. apply in_seq. lia. }
  specialize (Q T). unfold plain in P. unfold bit5, plain.
  destruct (N.testbit (to_lower c) 5); [|lia]. repeat split; try lia.
Qed.
Lemma lower_forall cs : Forall plain cs -> Forall bit5 (map to_lower cs) /\ Forall plain (map to_lower cs) /\ Forall (fun c => c < 256) cs /\ ~ In 0 cs /\
  ~ In 0 (map to_lower cs).
Proof.
  intros F. rewrite !Forall_forall in *. split; [|split; [|split; [|split]]].
  - intros c H. apply in_map_iff in H as (x & <- & H). apply lower_plain; auto.
  - intros c H. apply in_map_iff in H as (x & <- & H). apply lower_plain; auto.
  - intros c H. apply lower_plain; auto.
  - intros H. apply F, lower_plain in H. lia.
  - intros H. apply in_map_iff in H as (x & E & H). apply F, lower_plain in H. rewrite E in H. destruct H as (_ & H & _). unfold plain in H. lia.
Qed.
Lemma nlen_lower cs : nlen (map to_lower cs) = nlen cs.
Proof. unfold nlen. now rewrite map_length. Qed.
Lemma order_lower a b : Forall plain a -> Forall plain b -> order_sign (map to_lower a) (map to_lower b) = order_sign a b.
Proof.
  intros A B. unfold order_sign. rewrite !nlen_lower. destruct (_ <? _); [reflexivity|]. destruct (_ <? _); [reflexivity|].
  revert b B. induction A as [|x a X A IH]; intros b B; [reflexivity|]. destruct B as [|y b Y B]; [reflexivity|].
  cbn [map lex_sign]. apply lower_plain in X as (_ & _ & -> & _), Y as (_ & _ & -> & _). now rewrite IH.
Qed.
Lemma compare_lower w v1 v2 u1 u2 a b : Forall plain a -> Forall plain b ->
  views w v1 a -> views w v2 b -> views w u1 (map to_lower a) -> views w u2 (map to_lower b) ->
  exists st r, scompare eq_ci v1 v2 w = Ok (st, r) w /\ scompare eq_cs u1 u2 w = Ok (st, r) w.
Proof.
  intros A B V1 V2 U1 U2. destruct (lower_forall _ A) as (A1 & _ & A2 & _). destruct (lower_forall _ B) as (B1 & _ & B2 & _).
  destruct (compare_order eq_ci w v1 v2 a b (class_decides _ _ _ _ class_ci A2 B2) eq_ci_refl V1 V2) as (st & E1).
  destruct (compare_order eq_cs w u1 u2 _ _ (class_decides _ _ _ _ class_cs A1 B1) eq_cs_refl U1 U2) as (st' & E2).
  rewrite order_lower in E2 by assumption.
  exists st, (order_sign a b). split; [exact E1|]. rewrite E2. do 2 f_equal.
  destruct (compare_ci w v1 v2 a b A B V1 V2) as (q & r & F1 & K1). rewrite E1 in F1. injection F1 as <- <-.
  destruct (compare_correct w u1 u2 _ _ U1 U2) as (q & r & F2 & K2). rewrite E2 in F2. injection F2 as <- <-.
  f_equal. destruct K1 as [(K & -> & _)|(K & -> & _)], K2 as [(J & -> & _)|(J & -> & _)]; auto; contradiction.
Qed.

Lemma map_nsub {A B} (f : A -> B) i n l : map f (nsub i n l) = nsub i n (map f l).
Proof. unfold nsub, nfirst, nskip. rewrite <- firstn_map, <- skipn_map. reflexivity. Qed.
Lemma f2_map a b : Forall2 same_letter a b <-> map to_lower a = map to_lower b.
Proof.
  split.
  - induction 1 as [|x y a b X _ IH]; [reflexivity|]. cbn [map]. now rewrite IH, X.
  - revert b. induction a as [|x a IH]; intros [|y b]; cbn [map]; intros E; try discriminate; [constructor|].
    injection E as E1 E2. constructor; auto.
Qed.
Lemma f2_eq {A} (l m : list A) : Forall2 eq l m <-> l = m.
Proof. split; [induction 1; congruence|intros <-; induction l; constructor; auto]. Qed.
Lemma occurs_lower hay needle i : occurs same_letter hay needle i <-> occurs eq (map to_lower hay) (map to_lower needle) i.
Proof. unfold occurs. rewrite !nlen_lower, f2_map, f2_eq, map_nsub. reflexivity. Qed.
Lemma first_unique R hay needle lo hi r r' : first_occurrence R hay needle lo hi r -> first_occurrence R hay needle lo hi r' -> r = r'.
Proof.
  destruct r as [i|], r' as [j|]; cbn [first_occurrence]; [| | |reflexivity].
  - intros (A & B & D & E) (A' & B' & D' & E'). f_equal.
    destruct (N.lt_trichotomy i j) as [K|[K|K]]; [|exact K|].
    + destruct (E' i); [lia|exact D].
    + destruct (E j); [lia|exact D'].
  - intros (A & B & D & E) H. destruct (H i A B D).
  - intros H (A & B & D & E). destruct (H j A B D).
Qed.
Lemma last_unique R hay needle lo hi r r' : last_occurrence R hay needle lo hi r -> last_occurrence R hay needle lo hi r' -> r = r'.
Proof.
  destruct r as [i|], r' as [j|]; cbn [last_occurrence]; [| | |reflexivity].
  - intros (A & B & D & E) (A' & B' & D' & E'). f_equal.
    destruct (N.lt_trichotomy i j) as [K|[K|K]]; [|exact K|].
    + destruct (E j); [lia|lia|exact D'].
    + destruct (E' i); [lia|lia|exact D].
  - intros (A & B & D & E) H. destruct (H i A B D).
  - intros H (A & B & D & E). destruct (H j A B D).
Qed.
Lemma lpos_lower w hv nv hu nu hay needle index count : Forall plain hay -> Forall plain needle ->
  views w hv hay -> views w nv needle -> views w hu (map to_lower hay) -> views w nu (map to_lower needle) ->
  index + count < W64 ->
  exists st r, slpos_ex eq_ci hv nv index count w = Ok (st, r) w /\ slpos_ex eq_cs hu nu index count w = Ok (st, r) w.
Proof.
  intros A B V1 V2 U1 U2 J. destruct (lower_forall _ A) as (A1 & _ & A2 & _). destruct (lower_forall _ B) as (B1 & _ & B2 & NZ & NZ').
  destruct (lpos_ex_ci w hv nv hay needle index count A B V1 V2 J) as (st & r & E1 & R1).
  destruct (lpos_ex_cs w hu nu _ _ index count U1 U2 NZ' J) as (st' & r' & E2 & R2).
  exists st, r. split; [exact E1|]. rewrite E2. unfold lpos_result in *. rewrite !nlen_lower in R2.
  destruct (_ <? _); [destruct R1 as [-> ->], R2 as [-> ->]; reflexivity|].
  destruct (nlen needle =? 0); [destruct R1 as [-> ->], R2 as [-> ->]; reflexivity|].
  destruct R1 as [F1 R1], R2 as [F2 R2].
  assert (r = r') as <-.
  { apply (first_unique same_letter hay needle index (index + count)); [exact R1|].
    destruct r' as [i|]; cbn [first_occurrence] in *; rewrite nlen_lower in R2.
    - destruct R2 as (X & Y & Z & T). rewrite <- occurs_lower in Z. repeat (split; [assumption|]).
      intros j K. rewrite occurs_lower. auto.
    - intros j K1 K2. rewrite occurs_lower. auto. }
  destruct r; cbn [found] in *; subst; reflexivity.
Qed.
Lemma rpos_lower w hv nv hu nu hay needle index count : Forall plain hay -> Forall plain needle ->
  views_part w hv hay -> views_part w nv needle -> views_part w hu (map to_lower hay) -> views_part w nu (map to_lower needle) ->
  exists st r, srpos_ex eq_ci hv nv index count w = Ok (st, r) w /\ srpos_ex eq_cs hu nu index count w = Ok (st, r) w.
Proof.
  intros A B V1 V2 U1 U2.
  destruct (rpos_ex_ci w hv nv hay needle index count A B V1 V2) as (st & r & E1 & R1).
  destruct (rpos_ex_cs w hu nu _ _ index count U1 U2) as (st' & r' & E2 & R2).
  exists st, r. split; [exact E1|]. rewrite E2. unfold rpos_result in *. rewrite !nlen_lower in R2.
  destruct (_ || _); [destruct R1 as [-> ->], R2 as [-> ->]; reflexivity|].
  destruct (nlen needle =? 0); [destruct R1 as [-> ->], R2 as [-> ->]; reflexivity|].
  destruct R1 as [F1 R1], R2 as [F2 R2].
  assert (r = r') as <-.
  { apply (last_unique same_letter hay needle (index - count) index); [exact R1|].
    destruct r' as [i|]; cbn [last_occurrence] in *; rewrite nlen_lower in R2.
    - destruct R2 as (X & Y & Z & T). rewrite <- occurs_lower in Z. repeat (split; [assumption|]).
      intros j K1 K2. rewrite occurs_lower. auto.
    - intros j K1 K2. rewrite occurs_lower. auto. }
  destruct r; cbn [found] in *; subst; reflexivity.
Qed.

(** Outside of letters: CompareI takes characters for equal that ToLower keeps apart. *)
Lemma not_letters w v1 v2 u1 u2 c : c <> 0 -> c <> 32 -> to_lower c = c -> to_lower (N.lxor c 32) = N.lxor c 32 ->
  views w v1 [c] -> views w v2 [N.lxor c 32] -> views w u1 [to_lower c] -> views w u2 [to_lower (N.lxor c 32)] ->
  scompare eq_ci v1 v2 w = Ok (ST_TRUE, 0%Z) w /\ slpos eq_ci v1 v2 w = Ok (ST_TRUE, Some 0) w /\
  (exists r, scompare eq_cs u1 u2 w = Ok (ST_FALSE, r) w) /\ slpos eq_cs u1 u2 w = Ok (ST_FALSE, None) w.
Proof.
  intros N0 N32 L1 L2 V1 V2 U1 U2. rewrite L1 in U1. rewrite L2 in U2.
  destruct (bit5_confused w v1 v2 c N0 N32 V1 V2) as (E1 & _ & E2). split; [exact E2|]. split; [exact E1|].
  assert (D : c <> N.lxor c 32).
  { intros H. apply (f_equal (fun x => N.testbit x 5)) in H. rewrite N.lxor_spec in H. change (N.testbit 32 5) with true in H.
    now destruct (N.testbit c 5). }
  split.
  - destruct (compare_correct w u1 u2 _ _ U1 U2) as (st & r & E & [(K & _)|(_ & -> & _)]); [congruence|eauto].
  - assert (NZ : ~ In 0 [N.lxor c 32]). { intros [H|[]]. apply N32. apply N.lxor_eq. exact H. }
    destruct (lpos_cs w u1 u2 _ _ U1 U2 NZ) as (st & r & E & K). rewrite E. cbn in K. destruct K as [K1 K2].
    destruct r as [i|]; cbn [found first_occurrence] in *; [|subst; reflexivity].
    destruct K2 as (_ & _ & [K2 K3] & _). change (nlen [c]) with 1 in *. change (nlen [N.lxor c 32]) with 1 in *.
    assert (i = 0) as -> by lia. inversion K3 as [|? ? ? ? X _]. exfalso. apply D. exact X.
Qed.

(** A sequence of conversions of the whole string. *)
Lemma conversions_spec limit l : forall cs rs cs' u, sspecs limit (map conversion (l ++ [u])) cs rs cs' ->
  Forall (eq ST_SUCCESS) rs /\ cs' = map (converted_char u) cs.
Proof.
  assert (CC : forall u v c, converted_char u (converted_char v c) = converted_char u c).
  { intros [|] [|] c; unfold converted_char, to_lower, to_upper;
      repeat match goal with |- context [if ?b then _ else _] => destruct b eqn:? end; lia. }
  assert (ST : forall u cs r cs1, sspec limit (conversion u) cs r cs1 -> r = ST_SUCCESS /\ cs1 = map (converted_char u) cs).
  { intros [|] cs r cs1 H; exact H. }
  induction l as [|v l IH]; intros cs rs cs' u H; cbn [app map] in H; inversion H as [|o ops a r cs1 rs' b S1 S2]; subst;
    apply ST in S1 as [-> ->].
  - inversion S2; subst. split; [now repeat constructor|reflexivity].
  - destruct (IH _ _ _ _ S2) as [F ->]. split; [now constructor|]. rewrite map_map. apply map_ext. intros c. apply CC.
Qed.
Lemma conversions w s cs l u : sreached w s cs -> sroom (nlen cs) ->
  exists rs s' w', run_sops s (map conversion (l ++ [u])) w = Ok (rs, s') w' /\ Forall (eq ST_SUCCESS) rs /\
    sshows w' s' (map (converted_char u) cs).
Proof.
  intros R RM. destruct (sreached_rep _ _ _ R) as (pre & post & RR & NF).
  assert (D : forall l, sdemands (map conversion l) = 0) by (intros m; induction m as [|[|] m IHm]; cbn; auto).
  destruct (srep_behaves _ _ _ _ _ RR NF (map conversion (l ++ [u]))) as (rs & w' & s' & cs' & E & SP & SH).
  - apply Forall_forall. intros o O. apply in_map_iff in O as ([|] & <- & _); exact Logic.I.
  - rewrite D, N.add_0_r. exact RM.
  - apply conversions_spec in SP as [F ->]. exists rs, s', w'. auto.
Qed.

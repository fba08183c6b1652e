(** Proofs about the bitset: Count, All, Any, None and the logical operations. *)
From Verif Require Import Base NListFacts Status Mem MemFacts VectorModel VectorSpec VectorDriver
  VectorRep VectorProofs VectorProofs2 VectorProofs3 VectorRefine StringModel StringBytes StringProofs
  BitsetModel BitsetSpec BitsetDriver BitsetBits BitsetProofs BitsetRun.
From Coq Require Import ZifyBool ZifyNat ZifyN.

Implicit Types (w : world) (b : bitset) (v : vector N).

(** ** The bits of a byte list, in order *)
Definition byte_bits (x : N) : list bool := map (fun k => N.testbit x (7 - k)) (upto 8).
Definition bits_of (l : list N) : list bool := flat_map byte_bits l.
Lemma nlen_byte_bits x : nlen (byte_bits x) = 8.
Proof. reflexivity. Qed.
Lemma nlen_bits_of l : nlen (bits_of l) = 8 * nlen l.
Proof.
  induction l as [|x l IH]; [reflexivity|]. cbn [bits_of flat_map]. fold (bits_of l).
  rewrite nlen_app, nlen_cons, IH, nlen_byte_bits. lia.
Qed.
Lemma nnth_byte_bits x k : k < 8 -> nnth k (byte_bits x) = Some (N.testbit x (7 - k)).
Proof.
  intros K. assert (C : k = 0 \/ k = 1 \/ k = 2 \/ k = 3 \/ k = 4 \/ k = 5 \/ k = 6 \/ k = 7) by lia.
  destruct C as [->|[->|[->|[->|[->|[->|[->| ->]]]]]]]; reflexivity.
Qed.
Lemma nnth_bits_of l : forall i, i < 8 * nlen l -> nnth i (bits_of l) = Some (bitat l i).
Proof.
  induction l as [|x l IH]; intros i L; [change (nlen (@nil N)) with 0 in L; lia|]. rewrite nlen_cons in L.
  cbn [bits_of flat_map]. fold (bits_of l). destruct (N.lt_ge_cases i 8) as [LI|LI].
  - rewrite nnth_app1 by exact LI. rewrite nnth_byte_bits by exact LI. f_equal.
    unfold bitat, bit_offset. rewrite N.div_small, N.mod_small by exact LI. reflexivity.
  - rewrite nnth_app2, nlen_byte_bits by exact LI. rewrite IH by lia. f_equal.
    unfold bitat. replace (i / 8) with (1 + (i - 8) / 8) by lia. unfold bit_offset.
    replace ((i - 8) mod 8) with (i mod 8) by lia.
    unfold nnth. replace (N.to_nat (1 + (i - 8) / 8)) with (S (N.to_nat ((i - 8) / 8))) by lia. reflexivity.
Qed.
Lemma bits_of_app a c : bits_of (a ++ c) = bits_of a ++ bits_of c.
Proof. apply flat_map_app. Qed.
Lemma xrep_prefix w b pre l post bs : xrep w b pre l post bs ->
  bits_of l = bs ++ nskip (nlen bs) (bits_of l).
Proof.
  intros [R B S0 L H]. rewrite <- (nfirst_skip (nlen bs) (bits_of l)) at 1. f_equal.
  assert (LL : nlen (nfirst (nlen bs) (bits_of l)) = nlen bs). { rewrite nlen_nfirst, nlen_bits_of. lia. }
  apply bits_ext; [exact LL|]. intros i LI. rewrite LL in LI. rewrite nnth_nfirst, H, nnth_bits_of by lia. reflexivity.
Qed.
Lemma clean_suffix w b pre l post bs : xrep w b pre l post bs -> xclean l bs ->
  bits_of l = bs ++ nrepeat false (8 * nlen l - nlen bs).
Proof.
  intros X C. pose proof (xrep_prefix _ _ _ _ _ _ X) as P. destruct X as [R B S0 L H].
  rewrite P at 1. f_equal. apply bits_ext.
  - rewrite nlen_nskip, nlen_bits_of, nlen_repeat. reflexivity.
  - intros i LI. rewrite nlen_nskip, nlen_bits_of in LI. rewrite nnth_repeat by exact LI.
    assert (E : nnth (nlen bs + i) (bits_of l) = Some (bitat l (nlen bs + i))) by (apply nnth_bits_of; lia).
    rewrite P, nnth_app2 in E by lia. replace (nlen bs + i - nlen bs) with i in E by lia. rewrite E, C by lia. reflexivity.
Qed.

(** ** Count *)
Lemma ones_app a c : ones (a ++ c) = ones a + ones c.
Proof. induction a as [|[] a IH]; cbn [app ones]; lia. Qed.
Lemma ones_false n : ones (repeat false n) = 0.
Proof. induction n; [reflexivity|exact IHn]. Qed.
Lemma ones_le bs : ones bs <= nlen bs.
Proof. induction bs as [|[] bs IH]; cbn [ones]; rewrite ?nlen_cons; [cbn|lia|lia]; lia. Qed.
Lemma popcnt_ones x : x < 256 -> popcnt8 x = ones (byte_bits x).
Proof.
  intros L. pose proof (all_bytes (fun x => popcnt8 x =? ones (byte_bits x)) ltac:(vm_compute; reflexivity) x L) as H.
  cbv beta in H. lia.
Qed.
Lemma count_ok b post c : forall w pre a n, brep w (bs_bits b) pre (a ++ c) post -> Forall isbyte c ->
  nlen (a ++ c) < W64 -> n + 8 * nlen c < W64 ->
  count_loop b (nlen a) n (length c) w = Ok (ST_SUCCESS, n + ones (bits_of c)) w.
Proof.
  induction c as [|x c IH]; intros w pre a n R B L L2.
  - change (ones (bits_of [])) with 0. rewrite N.add_0_r. reflexivity.
  - cbn [count_loop length]. rewrite nlen_app, nlen_cons in L. rewrite nlen_cons in L2. inversion_clear B.
    rewrite (bind_ok _ _ _ _ _ (bptr _ _ _ _ _ (nlen a) R ltac:(rewrite nlen_app, nlen_cons; lia))). sst.
    rewrite (bind_ok _ _ _ _ _ (bread1 _ _ _ _ _ _ _ R)).
    rewrite popcnt_ones by assumption. pose proof (ones_le (byte_bits x)) as OL. rewrite nlen_byte_bits in OL.
    rewrite !wadd_small by lia.
    change (a ++ x :: c) with (a ++ [x] ++ c) in R. rewrite app_assoc in R.
    specialize (IH w pre (a ++ [x]) (n + ones (byte_bits x)) R).
    rewrite (nlen_app a [x]) in IH. change (nlen [x]) with 1 in IH. rewrite IH; auto.
    + cbn [bits_of flat_map]. rewrite ones_app. do 2 f_equal. unfold bits_of. lia.
    + rewrite !nlen_app. change (nlen [x]) with 1. lia.
    + lia.
Qed.
Lemma bs_count_ok w b pre l post bs : xrep w b pre l post bs -> 8 * nlen l < W64 ->
  bs_count b w = Ok (ST_SUCCESS, N.min (ones (bits_of l)) (nlen bs)) w.
Proof.
  intros X LL. pose proof (xrep_lt _ _ _ _ _ _ X). destruct X as [R B S0 L H0]. unfold bs_count.
  rewrite (brep_size _ _ _ _ _ R). unfold nlen at 1. rewrite Nnat.Nat2N.id.
  pose proof (count_ok b post l w pre [] 0 R B H ltac:(lia)) as E. rewrite (bind_ok _ _ _ _ _ E). sst.
  rewrite S0. reflexivity.
Qed.

(** ** All, Any, None *)
Lemma scan_ok hit yes no b post c : forall w pre a x, brep w (bs_bits b) pre (a ++ c ++ [x]) post ->
  scan_loop hit yes no b (nlen a) (S (length c)) w =
    Ok (if existsb (hit true) c || hit false x then yes else no) w.
Proof.
  induction c as [|y c IH]; intros w pre a x R; pose proof (brep_le _ _ _ _ _ R) as LE; pose proof (brep_cap _ _ _ _ _ R) as CP;
    cbn [scan_loop length existsb app] in *.
  - assert (LL : nlen (a ++ [x]) = nlen a + 1) by (rewrite nlen_app; reflexivity).
    rewrite (bind_ok _ _ _ _ _ (bptr _ _ _ _ _ (nlen a) R ltac:(lia))). sst.
    rewrite (bind_ok _ _ _ _ _ (bread1 _ _ _ _ _ _ _ R)).
    rewrite (brep_size _ _ _ _ _ R), LL, wsub_small by lia. replace (nlen a + 1 - 1) with (nlen a) by lia.
    rewrite N.ltb_irrefl. cbn [orb]. now destruct (hit false x).
  - assert (LL : nlen (a ++ y :: c ++ [x]) = nlen a + nlen c + 2).
    { rewrite nlen_app, nlen_cons, nlen_app. change (nlen [x]) with 1. lia. }
    rewrite (bind_ok _ _ _ _ _ (bptr _ _ _ _ _ (nlen a) R ltac:(lia))). sst.
    rewrite (bind_ok _ _ _ _ _ (bread1 _ _ _ _ _ _ _ R)).
    assert (T : (nlen a <? wsub (v_size (bs_bits b)) 1) = true).
    { rewrite (brep_size _ _ _ _ _ R), LL, wsub_small by lia. lia. }
    rewrite T.
    destruct (hit true y); [reflexivity|]. cbn [orb].
    rewrite wadd_small by lia.
    change (a ++ y :: c ++ [x]) with (a ++ [y] ++ (c ++ [x])) in R. rewrite app_assoc in R.
    specialize (IH w pre (a ++ [y]) x R). rewrite nlen_app in IH. change (nlen [y]) with 1 in IH. exact IH.
Qed.
(** A nonempty bitset: full bytes [a], last byte [x], [r] of whose bits are used. *)
Lemma xrep_last w b pre l post bs : xrep w b pre l post bs -> nlen bs <> 0 ->
  exists a x r, l = a ++ [x] /\ bs = bits_of a ++ nfirst r (byte_bits x) /\ Forall isbyte a /\ x < 256 /\
    1 <= r <= 8 /\ nlen bs = 8 * nlen a + r.
Proof.
  intros X NZ. pose proof (xrep_prefix _ _ _ _ _ _ X) as P. destruct X as [R B S0 L H].
  destruct l as [|x a _] using rev_ind. { rewrite nlen_nil in L. lia. }
  rewrite nlen_app in L. change (nlen [x]) with 1 in L. apply Forall_app in B as [B1 B2]. inversion_clear B2.
  exists a, x, (nlen bs - 8 * nlen a). split; [reflexivity|]. rewrite bits_of_app in P. change (bits_of [x]) with (byte_bits x ++ []) in P.
  rewrite app_nil_r in P. split.
  - apply bits_ext.
    + rewrite nlen_app, nlen_nfirst, nlen_bits_of, nlen_byte_bits. lia.
    + intros i LI. assert (E : nnth i bs = nnth i (bits_of a ++ byte_bits x)) by (rewrite P; now rewrite nnth_app1).
      rewrite E. destruct (N.lt_ge_cases i (8 * nlen a)) as [LA|LA].
      * rewrite !nnth_app1 by (rewrite nlen_bits_of; exact LA). reflexivity.
      * rewrite !nnth_app2 by (rewrite nlen_bits_of; exact LA). rewrite nlen_bits_of, nnth_nfirst by lia. reflexivity.
  - split; [exact B1|]. split; [assumption|]. split; lia.
Qed.
Lemma scan_bits hit yes no w b pre l post bs a x r : xrep w b pre l post bs -> l = a ++ [x] ->
  nlen bs = 8 * nlen a + r -> 1 <= r <= 8 ->
  bs_scan hit yes no b w =
    Ok (if existsb (hit (not8 (8 - r mod 8)) true) a || hit (not8 (8 - r mod 8)) false x then yes else no) w.
Proof.
  intros X -> NB RB. destruct X as [R B S0 L H]. unfold bs_scan. rewrite (brep_size _ _ _ _ _ R).
  replace (N.to_nat (nlen (a ++ [x]))) with (S (length a)).
  2:{ unfold nlen. rewrite Nnat.Nat2N.id, app_length. cbn. lia. }
  replace (last_mask b) with (not8 (8 - r mod 8)). 2:{ unfold last_mask. rewrite S0, NB. do 2 f_equal. lia. }
  exact (scan_ok _ yes no b post a w pre [] x R).
Qed.
Lemma scan_empty hit yes no w b pre l post : xrep w b pre l post [] -> bs_scan hit yes no b w = Ok no w.
Proof.
  intros [R B S0 L H]. change ((nlen (@nil bool) + 7) / 8) with 0 in L. unfold bs_scan.
  now rewrite (brep_size _ _ _ _ _ R), L.
Qed.
Lemma existsb_bits a : Forall isbyte a -> existsb (fun x => negb (x =? 0)) a = existsb id_bool (bits_of a).
Proof.
  induction 1 as [|x a H _ IH]; [reflexivity|]. cbn [existsb bits_of flat_map]. fold (bits_of a).
  rewrite existsb_app, <- IH. f_equal.
  pose proof (all_bytes (fun x => eqb (negb (x =? 0)) (existsb id_bool (byte_bits x))) ltac:(vm_compute; reflexivity) x H) as K.
  now apply eqb_prop in K.
Qed.
Lemma forallb_bits a : Forall isbyte a -> existsb (fun x => negb (x =? 255)) a = negb (forallb id_bool (bits_of a)).
Proof.
  induction 1 as [|x a H _ IH]; [reflexivity|]. cbn [existsb bits_of flat_map]. fold (bits_of a).
  rewrite forallb_app, negb_andb, <- IH. f_equal.
  pose proof (all_bytes (fun x => eqb (negb (x =? 255)) (negb (forallb id_bool (byte_bits x)))) ltac:(vm_compute; reflexivity) x H) as K.
  now apply eqb_prop in K.
Qed.
(** The last byte of a bitset whose size is 7 modulo 8. *)
Lemma last7 x : x < 256 -> let m := not8 (8 - 7 mod 8) in
  negb (N.land x m =? 0) = existsb id_bool (nfirst 7 (byte_bits x)) /\
  negb (N.land x m =? m) = negb (forallb id_bool (nfirst 7 (byte_bits x))).
Proof.
  intros L m. pose proof (all_bytes (fun x => eqb (negb (N.land x m =? 0)) (existsb id_bool (nfirst 7 (byte_bits x))) &&
    eqb (negb (N.land x m =? m)) (negb (forallb id_bool (nfirst 7 (byte_bits x))))) ltac:(vm_compute; reflexivity) x L) as K.
  cbv beta in K. apply andb_true_iff in K as [K1 K2]. now apply eqb_prop in K1, K2.
Qed.
(** Used bits 1 to 7, the others clear. *)
Lemma last_clean x r : x < 256 -> 1 <= r <= 7 -> forallb negb (nskip r (byte_bits x)) = true ->
  negb (N.land x (not8 (8 - r mod 8)) =? 0) = existsb id_bool (nfirst r (byte_bits x)).
Proof.
  intros L RB. pose proof (all_bytes_bits (fun x r => implb (negb (r =? 0) && forallb negb (nskip r (byte_bits x)))
    (eqb (negb (N.land x (not8 (8 - r mod 8)) =? 0)) (existsb id_bool (nfirst r (byte_bits x)))))
    ltac:(vm_compute; reflexivity) x r L ltac:(lia)) as K.
  cbv beta in K. intros C. rewrite C in K. destruct (N.eqb_spec r 0); [lia|]. cbn [negb andb implb] in K. now apply eqb_prop in K.
Qed.
(** All 8 bits used: the mask misses number 4 of them. *)
Lemma last8 x : x < 256 -> let m := not8 (8 - 8 mod 8) in
  negb (N.land x m =? 0) = existsb id_bool (all_but 4 (byte_bits x)) /\
  negb (N.land x m =? m) = negb (forallb id_bool (all_but 4 (byte_bits x))).
Proof.
  intros L m. pose proof (all_bytes (fun x => eqb (negb (N.land x m =? 0)) (existsb id_bool (all_but 4 (byte_bits x))) &&
    eqb (negb (N.land x m =? m)) (negb (forallb id_bool (all_but 4 (byte_bits x))))) ltac:(vm_compute; reflexivity) x L) as K.
  cbv beta in K. apply andb_true_iff in K as [K1 K2]. now apply eqb_prop in K1, K2.
Qed.
(** Used bits 1 to 6, the others clear: the mask asks for some of the others. *)
Lemma last_unused x r : x < 256 -> 1 <= r <= 6 -> forallb negb (nskip r (byte_bits x)) = true ->
  negb (N.land x (not8 (8 - r mod 8)) =? not8 (8 - r mod 8)) = true.
Proof.
  intros L RB. pose proof (all_bytes_bits (fun x r => implb (negb (r =? 0) && (r <=? 6) && forallb negb (nskip r (byte_bits x)))
    (negb (N.land x (not8 (8 - r mod 8)) =? not8 (8 - r mod 8))))
    ltac:(vm_compute; reflexivity) x r L ltac:(lia)) as K.
  cbv beta in K. intros C. rewrite C in K. destruct (N.eqb_spec r 0); [lia|]. destruct (N.leb_spec r 6); [|lia]. exact K.
Qed.
Lemma clean_last w b pre l post bs a x r : xrep w b pre l post bs -> xclean l bs -> l = a ++ [x] ->
  nlen bs = 8 * nlen a + r -> 1 <= r <= 8 -> forallb negb (nskip r (byte_bits x)) = true.
Proof.
  intros X C E NB RB. apply forallb_forall. intros y IY. apply In_nth_error in IY as [k IK].
  assert (LK : N.of_nat k < 8 - r).
  { assert (nth_error (nskip r (byte_bits x)) k <> None) by congruence. apply nth_error_Some in H.
    fold (nlen (nskip r (byte_bits x))) in H. pose proof (nlen_nskip r (byte_bits x)) as LN. rewrite nlen_byte_bits in LN.
    unfold nlen in LN. lia. }
  assert (IK2 : nnth (r + N.of_nat k) (byte_bits x) = Some y).
  { rewrite <- (nfirst_skip r (byte_bits x)). rewrite nnth_app2; rewrite nlen_nfirst, nlen_byte_bits; [|lia].
    replace (r + N.of_nat k - N.min r 8) with (N.of_nat k) by lia. unfold nnth. now rewrite Nnat.Nat2N.id. }
  rewrite nnth_byte_bits in IK2 by lia. injection IK2 as <-.
  specialize (C (nlen bs + N.of_nat k) ltac:(lia)). rewrite E in C.
  rewrite bitat_mid in C by lia. unfold bit_offset in C.
  replace ((nlen bs + N.of_nat k) mod 8) with (r + N.of_nat k) in C by lia. now rewrite C.
Qed.

Lemma any_ok w b pre l post bs : xrep w b pre l post bs ->
  (nlen bs = 0 \/ nlen bs mod 8 = 7 \/ (xclean l bs /\ nlen bs mod 8 <> 0)) ->
  bs_any b w = Ok (yes_no (existsb id_bool bs)) w /\ bs_none b w = Ok (yes_no (negb (existsb id_bool bs))) w.
Proof.
  intros X H. destruct (N.eq_dec (nlen bs) 0) as [Z|NZ].
  { apply nlen_0 in Z as ->. unfold bs_any, bs_none. now rewrite !(scan_empty _ _ _ _ _ _ _ _ X). }
  destruct (xrep_last _ _ _ _ _ _ X NZ) as (a & x & r & E & EB & BA & BX & RB & NB).
  assert (K : negb (N.land x (not8 (8 - r mod 8)) =? 0) = existsb id_bool (nfirst r (byte_bits x))).
  { destruct H as [H|[H|[C H]]]; [lia| |].
    - replace r with 7 by lia. now apply last7.
    - apply last_clean; [exact BX|lia|]. eapply clean_last; eauto. }
  unfold bs_any, bs_none. rewrite !(scan_bits _ _ _ _ _ _ _ _ _ _ _ _ X E NB RB). cbv beta iota.
  change (existsb (fun x0 => negb (x0 =? 0)) a) with (existsb (fun x0 => negb (x0 =? 0)) a).
  rewrite K, (existsb_bits a BA), <- existsb_app, <- EB. now destruct (existsb id_bool bs).
Qed.
Lemma all_ok w b pre l post bs : xrep w b pre l post bs -> (nlen bs = 0 \/ nlen bs mod 8 = 7) ->
  bs_all b w = Ok (yes_no (forallb id_bool bs)) w.
Proof.
  intros X H. destruct (N.eq_dec (nlen bs) 0) as [Z|NZ].
  { apply nlen_0 in Z as ->. unfold bs_all. now rewrite !(scan_empty _ _ _ _ _ _ _ _ X). }
  destruct (xrep_last _ _ _ _ _ _ X NZ) as (a & x & r & E & EB & BA & BX & RB & NB).
  unfold bs_all. rewrite !(scan_bits _ _ _ _ _ _ _ _ _ _ _ _ X E NB RB). cbv beta iota.
  replace r with 7 in * by lia. rewrite (proj2 (last7 x BX)), (forallb_bits a BA), <- negb_andb, <- forallb_app, <- EB.
  now destruct (forallb id_bool bs).
Qed.
Lemma all_but_app k (a b : list bool) : all_but (nlen a + k) (a ++ b) = a ++ all_but k b.
Proof.
  unfold all_but, nfirst, nskip, nlen. rewrite firstn_app, skipn_app, firstn_all2, skipn_all2 by lia.
  replace (N.to_nat (N.of_nat (length a) + k) - length a)%nat with (N.to_nat k) by lia.
  replace (N.to_nat (N.of_nat (length a) + k + 1) - length a)%nat with (N.to_nat (k + 1)) by lia.
  now rewrite <- app_assoc.
Qed.
Lemma full_bytes_ok w b pre l post bs : xrep w b pre l post bs -> bs <> [] -> nlen bs mod 8 = 0 ->
  bs_all b w = Ok (yes_no (forallb id_bool (all_but (nlen bs - 4) bs))) w /\
  bs_any b w = Ok (yes_no (existsb id_bool (all_but (nlen bs - 4) bs))) w /\
  bs_none b w = Ok (yes_no (negb (existsb id_bool (all_but (nlen bs - 4) bs)))) w.
Proof.
  intros X NE H. assert (NZ : nlen bs <> 0) by (intros Z; now apply nlen_0 in Z).
  destruct (xrep_last _ _ _ _ _ _ X NZ) as (a & x & r & E & EB & BA & BX & RB & NB).
  unfold bs_all, bs_any, bs_none. rewrite !(scan_bits _ _ _ _ _ _ _ _ _ _ _ _ X E NB RB). cbv beta iota.
  rewrite (forallb_bits a BA), (existsb_bits a BA).
  assert (r = 8) by lia. subst r. destruct (last8 x BX) as [L1 L2]. cbv zeta in L1, L2. rewrite L1, L2.
  replace (all_but (nlen bs - 4) bs) with (bits_of a ++ all_but 4 (byte_bits x)).
  - rewrite forallb_app, existsb_app, <- negb_andb.
    destruct (forallb id_bool (bits_of a) && _), (existsb id_bool (bits_of a) || _); now repeat split.
  - rewrite NB, EB. rewrite (nfirst_all 8) by (rewrite nlen_byte_bits; lia).
    replace (8 * nlen a + 8 - 4) with (nlen (bits_of a) + 4) by (rewrite nlen_bits_of; lia). symmetry. apply all_but_app.
Qed.
Lemma all_never w b pre l post bs : xrep w b pre l post bs -> xclean l bs -> 1 <= nlen bs mod 8 <= 6 ->
  bs_all b w = Ok ST_FALSE w.
Proof.
  intros X C H. assert (NZ : nlen bs <> 0) by (intros Z; rewrite Z in H; change (0 mod 8) with 0 in H; lia).
  destruct (xrep_last _ _ _ _ _ _ X NZ) as (a & x & r & E & EB & BA & BX & RB & NB).
  unfold bs_all. rewrite (scan_bits _ _ _ _ _ _ _ _ _ _ _ _ X E NB RB). cbv beta iota.
  rewrite (last_unused x r BX); [now rewrite orb_true_r|lia|]. eapply clean_last; eauto.
Qed.

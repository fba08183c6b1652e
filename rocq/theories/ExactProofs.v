(** The code follows the exact bitset machine under every history. *)
From Verif Require Import Base NListFacts Status Mem MemFacts VectorModel VectorSpec VectorDriver
  VectorRep VectorProofs VectorProofs2 VectorProofs3 VectorRefine VectorFail StringModel StringBytes StringProofs
  BitsetModel BitsetSpec BitsetDriver BitsetBits BitsetProofs BitsetRun BitsetQuery BitsetFinal ExactSpec.
From Coq Require Import ZifyBool ZifyNat ZifyN.

Implicit Types (w : world) (b : bitset) (v : vector N) (s : raw).

(** ** Bits of byte lists *)
Lemma bits_of_nnth l i : nnth i (bits_of l) = if i <? 8 * nlen l then Some (bitat l i) else None.
Proof.
  destruct (N.ltb_spec i (8 * nlen l)); [now apply nnth_bits_of|]. apply nnth_ge. rewrite nlen_bits_of. lia.
Qed.
Lemma put_bits_of F f a x c i :
  (forall j k x, x < 256 -> j < 8 -> k < 8 ->
     N.testbit (F j x) k = if j =? k then f (N.testbit x k) else N.testbit x k) ->
  x < 256 -> i / 8 = nlen a ->
  bits_of (a ++ F (bit_offset i) x :: c) = put_bit f i (bits_of (a ++ x :: c)).
Proof.
  intros FT BX LA. set (y := F (bit_offset i) x).
  assert (LL : nlen (a ++ y :: c) = nlen (a ++ x :: c)) by now rewrite !nlen_app, !nlen_cons.
  assert (LI : i < 8 * nlen (a ++ x :: c)) by (rewrite nlen_app, nlen_cons; lia).
  apply bits_ext; [rewrite nlen_put, !nlen_bits_of; lia|]. intros k LK. rewrite nlen_bits_of in LK.
  rewrite nnth_put by (rewrite nlen_bits_of; exact LI). rewrite !nnth_bits_of by lia. cbn [option_map].
  destruct (N.eq_dec (k / 8) (nlen a)) as [EK|NK].
  - rewrite !bitat_mid by exact EK. unfold y. rewrite FT by (auto using bit_offset_lt).
    destruct (N.eqb_spec i k) as [->|NE]; [now rewrite N.eqb_refl|].
    destruct (N.eqb_spec (bit_offset i) (bit_offset k)) as [EO|]; [|reflexivity].
    exfalso. apply NE. apply same_byte; [congruence|exact EO].
  - rewrite (bitat_other a y x c k NK). destruct (N.eqb_spec i k) as [->|]; [lia|reflexivity].
Qed.
Lemma map_bits_of F f l : (forall x k, x < 256 -> k < 8 -> N.testbit (F x) k = f (N.testbit x k)) -> Forall isbyte l ->
  bits_of (map F l) = map f (bits_of l).
Proof.
  intros FT B. apply bits_ext; [rewrite nlen_map, !nlen_bits_of, nlen_map; reflexivity|].
  intros i LI. rewrite nlen_bits_of, nlen_map in LI. rewrite nnth_map, !nnth_bits_of by (rewrite ?nlen_map; lia).
  cbn [option_map]. f_equal. apply bitat_map; [lia|exact B|]. intros x BX. apply FT; auto using bit_offset_lt.
Qed.
Lemma bits_of_zeros n : bits_of (repeat 0 n) = zeros (8 * N.of_nat n).
Proof.
  apply bits_ext; [rewrite nlen_bits_of, nlen_zeros; unfold nlen; now rewrite repeat_length|].
  intros i LI. rewrite nlen_bits_of in LI. rewrite nnth_bits_of by exact LI. rewrite zero_bits.
  unfold nlen in LI. rewrite repeat_length in LI. unfold zeros. now rewrite nnth_repeat.
Qed.
Lemma bits_of_cut l : bits_of (nfirst (nlen l - 1) l) = nfirst (nlen (bits_of l) - 8) (bits_of l).
Proof.
  rewrite nlen_bits_of. rewrite <- (nfirst_skip (nlen l - 1) l) at 4. rewrite bits_of_app. symmetry. apply nfirst_app_l.
  rewrite nlen_bits_of, nlen_nfirst. lia.
Qed.
Lemma whole_ok n : bits_to_bytes n = whole_bytes n.
Proof.
  unfold bits_to_bytes, bs_ceil, whole_bytes. destruct (N.ltb_spec (n / 8) W32) as [L|L].
  - rewrite N.mod_small by exact L. now rewrite N.eqb_refl.
  - destruct (N.eqb_spec (n / 8) ((n / 8) mod W32)) as [E|E].
    + pose proof (N.mod_lt (n / 8) W32 ltac:(discriminate)). lia.
    + now rewrite N.add_mod_idemp_l by discriminate.
Qed.
Lemma whole_lt n : whole_bytes n < W32.
Proof.
  unfold whole_bytes. destruct (N.ltb_spec (n / 8) W32); [assumption|]. apply N.mod_lt. discriminate.
Qed.

(** ** The representation *)
Record yrep w b pre l post s : Prop := mkyrep {
  y_rep : brep w (bs_bits b) pre l post;
  y_bytes : Forall isbyte l;
  y_size : bs_size b = fst s;
  y_word : fst s < W64;
  y_bits : snd s = bits_of l
}.
Lemma ychange (F : N -> N -> N) f w b pre l post s i :
  (forall j x, x < 256 -> j < 8 -> F j x < 256) ->
  (forall j k x, x < 256 -> j < 8 -> k < 8 ->
     N.testbit (F j x) k = if j =? k then f (N.testbit x k) else N.testbit x k) ->
  yrep w b pre l post s -> exists w' l',
    bs_change (F (bit_offset i)) b i w = Ok (fst (raw_change f i s)) w' /\
    yrep w' b pre l' post (snd (raw_change f i s)) /\ bgood w (bs_bits b) w' (bs_bits b) pre l' post.
Proof.
  intros FB FT Y. pose proof Y as [R B S0 W H]. destruct s as [n cs]. cbn [fst snd] in *. subst cs.
  unfold bs_change, raw_change. rewrite S0, nlen_bits_of.
  destruct (N.leb_spec n i) as [LE|LT].
  { exists w, l. split; [reflexivity|]. split; [exact Y|now apply bgood_refl]. }
  cbn [orb]. destruct (N.leb_spec (8 * nlen l) i) as [LE|LI].
  { exists w, l. rewrite (bind_ok _ _ _ _ _ (bptr_out _ _ _ _ _ (i / 8) R ltac:(lia))).
    split; [reflexivity|]. split; [exact Y|now apply bgood_refl]. }
  cbn [fst snd]. destruct (nsplit1 (i / 8) l ltac:(lia)) as (a & x & c & -> & LA). rewrite <- LA.
  rewrite (bind_ok _ _ _ _ _ (bptr _ _ _ _ _ (nlen a) R ltac:(rewrite nlen_app, nlen_cons; lia))). sst.
  rewrite (bind_ok _ _ _ _ _ (bread1 _ _ _ _ _ _ _ R)).
  destruct (bwrite1 _ _ _ _ _ (F (bit_offset i) x) _ _ R) as (w' & E & G). rewrite (bind_ok _ _ _ _ _ E).
  apply Forall_app in B as [B1 B2]. inversion_clear B2. rename H into BX, H0 into B2.
  exists w', (a ++ F (bit_offset i) x :: c). split; [reflexivity|]. split; [split|exact G].
  - apply G.
  - apply Forall_app. split; [exact B1|]. constructor; [apply FB; auto using bit_offset_lt|exact B2].
  - exact S0.
  - exact W.
  - cbn [snd]. symmetry. apply put_bits_of; [exact FT|exact BX|congruence].
Qed.
Lemma yassign w b pre l post s i value : yrep w b pre l post s -> exists w' l',
    bs_assign b i value w = Ok (fst (raw_change (fun _ => value) i s)) w' /\
    yrep w' b pre l' post (snd (raw_change (fun _ => value) i s)) /\ bgood w (bs_bits b) w' (bs_bits b) pre l' post.
Proof.
  intros Y. assert (E : bs_assign b i value = bs_change (put1 value (bit_offset i)) b i) by now destruct value. rewrite E.
  apply (ychange (put1 value) (fun _ => value) w b pre l post s i); [| |exact Y].
  - intros. now apply put1_byte.
  - intros. now apply put1_bit.
Qed.
Lemma yeach F f w b pre l post n cs :
  (forall x, x < 256 -> F x < 256) ->
  (forall x k, x < 256 -> k < 8 -> N.testbit (F x) k = f (N.testbit x k)) ->
  yrep w b pre l post (n, cs) -> exists w',
    bs_each F b w = Ok ST_SUCCESS w' /\
    yrep w' b pre (map F l) post (n, map f cs) /\ bgood w (bs_bits b) w' (bs_bits b) pre (map F l) post.
Proof.
  intros FB FT [R B S0 W H]. pose proof (brep_le _ _ _ _ _ R). pose proof (brep_cap _ _ _ _ _ R).
  destruct (each_ok F b post l w pre [] R ltac:(cbn [app]; lia)) as (w' & E & G). unfold bs_each. rewrite (brep_size _ _ _ _ _ R).
  unfold nlen at 1. rewrite Nnat.Nat2N.id. exists w'. split; [exact E|]. cbn [app] in G. split; [|exact G]. split.
  - apply G.
  - apply Forall_forall. intros y IY. apply in_map_iff in IY as (x & <- & IX). apply FB.
    rewrite Forall_forall in B. now apply B.
  - exact S0.
  - exact W.
  - cbn [snd] in *. rewrite H. symmetry. now apply map_bits_of.
Qed.

(** ** What the API shows *)
Lemma ytest w b pre l post s i : yrep w b pre l post s -> bs_test b i w = Ok (verdict (raw_bit s i)) w.
Proof.
  intros [R B S0 W H]. unfold bs_test, raw_bit. rewrite S0, H. destruct (N.leb_spec (fst s) i) as [LE|LT]; [reflexivity|].
  rewrite bits_of_nnth. destruct (N.ltb_spec i (8 * nlen l)) as [LI|LI].
  2:{ rewrite (bind_ok _ _ _ _ _ (bptr_out _ _ _ _ _ (i / 8) R ltac:(lia))). reflexivity. }
  destruct (nsplit1 (i / 8) l ltac:(lia)) as (a & x & c & -> & LA). rewrite <- LA.
  rewrite (bind_ok _ _ _ _ _ (bptr _ _ _ _ _ (nlen a) R ltac:(rewrite nlen_app, nlen_cons; lia))). sst.
  rewrite (bind_ok _ _ _ _ _ (bread1 _ _ _ _ _ _ _ R)). rewrite bitat_mid by congruence.
  apply Forall_app in B as [B1 B2]. inversion_clear B2. rewrite test_bit by (auto using bit_offset_lt).
  now destruct (N.testbit x (bit_offset i)).
Qed.
Lemma last_bits x r : x < 256 -> r < 8 -> let m := not8 (8 - r) in
  negb (N.land x m =? 0) = existsb id_bool (drop_at (ignored r) 0 (byte_bits x)) /\
  negb (N.land x m =? m) = negb (forallb id_bool (drop_at (ignored r) 0 (byte_bits x))).
Proof.
  intros L LR m. pose proof (all_bytes_bits (fun x r => let m := not8 (8 - r) in
    eqb (negb (N.land x m =? 0)) (existsb id_bool (drop_at (ignored r) 0 (byte_bits x))) &&
    eqb (negb (N.land x m =? m)) (negb (forallb id_bool (drop_at (ignored r) 0 (byte_bits x)))))
    ltac:(vm_compute; reflexivity) x r L LR) as K.
  cbv beta zeta in K. apply andb_true_iff in K as [K1 K2]. now apply eqb_prop in K1, K2.
Qed.
Lemma yscans w b pre l post s : yrep w b pre l post s ->
  bs_all b w = Ok (yes_no (forallb id_bool (looked_at s))) w /\
  bs_any b w = Ok (yes_no (existsb id_bool (looked_at s))) w /\
  bs_none b w = Ok (yes_no (negb (existsb id_bool (looked_at s)))) w.
Proof.
  intros [R B S0 W H]. unfold bs_all, bs_any, bs_none, bs_scan, looked_at. rewrite H, (brep_size _ _ _ _ _ R).
  destruct l as [|x a _] using rev_ind.
  { cbn. now repeat split. }
  apply Forall_app in B as [BA BX]. inversion_clear BX. rename H0 into BX. clear H1.
  replace (N.to_nat (nlen (a ++ [x]))) with (S (length a)).
  2:{ unfold nlen. rewrite Nnat.Nat2N.id, app_length. cbn. lia. }
  rewrite !(scan_ok _ _ _ b post a w pre [] x R).
  rewrite nlen_bits_of, nlen_app. change (nlen [x]) with 1. replace (8 * (nlen a + 1) - 8) with (8 * nlen a) by lia.
  rewrite bits_of_app. rewrite nfirst_app_l, nskip_app_l by (apply nlen_bits_of).
  change (bits_of [x]) with (byte_bits x ++ []). rewrite app_nil_r.
  unfold last_mask. rewrite S0. destruct (last_bits x (fst s mod 8) BX) as [L1 L2]; [apply N.mod_lt; discriminate|].
  cbv zeta in L1, L2. cbv beta iota. rewrite L1, L2, (forallb_bits a BA), (existsb_bits a BA).
  rewrite forallb_app, existsb_app, <- negb_andb.
  destruct (forallb id_bool (bits_of a) && _), (existsb id_bool (bits_of a) || _); now repeat split.
Qed.
Lemma ycount w b pre l post s : yrep w b pre l post s -> 8 * nlen l < W64 ->
  bs_count b w = Ok (ST_SUCCESS, N.min (ones (snd s)) (fst s)) w.
Proof.
  intros [R B S0 W H] LL. unfold bs_count.
  rewrite (brep_size _ _ _ _ _ R). unfold nlen at 1. rewrite Nnat.Nat2N.id.
  pose proof (count_ok b post l w pre [] 0 R B ltac:(cbn [app]; lia) ltac:(lia)) as E. rewrite (bind_ok _ _ _ _ _ E). sst.
  rewrite S0, H. reflexivity.
Qed.
Lemma yshows w b pre l post s : yrep w b pre l post s -> 8 * nlen l < W64 -> raw_shows w b s.
Proof.
  intros Y LL. pose proof Y as [R B S0 W H].
  split; [unfold bs_get_size; now rewrite S0|].
  split; [unfold bs_get_size_bytes, vget_size; rewrite (brep_size _ _ _ _ _ R), H, nlen_bits_of, N.mul_comm, N.div_mul by discriminate; reflexivity|].
  split; [intros i _; eapply ytest; eauto|].
  split.
  { unfold bs_test_msb. rewrite (ytest _ _ _ _ _ _ _ Y), S0. do 2 f_equal. destruct (N.eqb_spec (fst s) 0) as [Z|NZ].
    - unfold raw_bit. rewrite Z. reflexivity.
    - now rewrite wsub_small by lia. }
  split; [unfold bs_test_lsb; eapply ytest; eauto|].
  split; [eapply ycount; eauto|]. eapply yscans; eauto.
Qed.

(** Proofs about status codes, the arithmetic macros, the version macros and the comparison functions. *)
From Verif Require Import Base NListFacts Status BitFacts DefinesModel ComparisonModel ComparisonSpec VectorSpec.
From Coq Require Import ZifyBool ZifyNat ZifyN.

(** ** Status codes *)
Lemma make_status_arith e m c : make_status e m c =
  (e mod 2) * 2147483648 + (m mod 2048) * 1048576 + c mod 1048576.
Proof.
  unfold make_status.
  change 1 with (N.ones 1). change 2047 with (N.ones 11). change 1048575 with (N.ones 20).
  rewrite !N.land_ones. change (2 ^ 1) with 2. change (2 ^ 11) with 2048. change (2 ^ 20) with 1048576.
  set (a := e mod 2). set (b := m mod 2048). set (d := c mod 1048576).
  assert (A : a < 2) by (apply N.mod_lt; lia).
  assert (B : b < 2048) by (apply N.mod_lt; lia).
  assert (D : d < 1048576) by (apply N.mod_lt; lia).
  rewrite (lor_shiftl_add a 31); [|rewrite N.shiftl_mul_pow2; change (2^20) with 1048576; change (2^31) with 2147483648; lia].
  rewrite N.shiftl_mul_pow2. change (2^20) with 1048576. change (2^31) with 2147483648.
  replace (a * 2147483648 + b * 1048576) with ((a * 2048 + b) * 2 ^ 20) by (change (2^20) with 1048576; lia).
  rewrite <- N.shiftl_mul_pow2, lor_shiftl_add by exact D. now rewrite ?N.shiftl_mul_pow2.
Qed.
Lemma st_module_arith st : st_module st = (st / 1048576) mod 2048.
Proof. unfold st_module. change 2047 with (N.ones 11). now rewrite N.land_ones, N.shiftr_div_pow2. Qed.
Lemma st_code_arith st : st_code st = st mod 1048576.
Proof. unfold st_code. change 1048575 with (N.ones 20). now rewrite N.land_ones. Qed.
Lemma st_failed_arith st : st < W32 -> st_failed st = (2147483648 <=? st).
Proof.
  intros L. unfold st_failed. unfold W32 in L.
  rewrite N.testbit_eqb. change (2 ^ 31) with 2147483648.
  destruct (N.leb_spec 2147483648 st); lia.
Qed.
Lemma make_status_fields e m c : e < 2 -> m < 2048 -> c < 1048576 ->
  make_status e m c < W32 /\
  st_module (make_status e m c) = m /\ st_code (make_status e m c) = c /\
  st_failed (make_status e m c) = (e =? 1) /\ st_success (make_status e m c) = (e =? 0).
Proof.
  intros E M K.
  assert (S : make_status e m c = e * 2147483648 + m * 1048576 + c)
    by (rewrite make_status_arith, !N.mod_small by assumption; reflexivity).
  assert (L : make_status e m c < W32) by (rewrite S; unfold W32; lia).
  assert (F : st_failed (make_status e m c) = (e =? 1))
    by (rewrite st_failed_arith by exact L; rewrite S; lia).
  split; [exact L|]. rewrite st_module_arith, st_code_arith.
  repeat split; [rewrite S; lia|rewrite S; lia|exact F|].
  change (st_success (make_status e m c)) with (negb (st_failed (make_status e m c))).
  rewrite F. lia.
Qed.
Lemma make_status_onto st : st < W32 ->
  make_status (if st_failed st then 1 else 0) (st_module st) (st_code st) = st.
Proof.
  intros L. rewrite make_status_arith, st_module_arith, st_code_arith, st_failed_arith by exact L.
  unfold W32 in L. destruct (N.leb_spec 2147483648 st).
  - change (1 mod 2) with 1. lia.
  - change (0 mod 2) with 0. lia.
Qed.
Lemma st_success_failed st : st_success st = negb (st_failed st).
Proof. reflexivity. Qed.

Definition predefined : list status :=
  [ST_SUCCESS; ST_FAILED; ST_TRUE; ST_FALSE; ST_INVALID_ARGUMENT; ST_INVALID_OPERATION;
   ST_ACCESS_DENIED; ST_NOT_FOUND; ST_OUT_OF_RANGE; ST_INSUFFICIENT_BUFFER_SIZE; ST_NOT_ENOUGH_MEMORY;
   ST_BAD_SYSTEMCALL; ST_OUT_OF_RESOURCES; ST_MISSING_DEPENDENCY; ST_ARG_NOT_UNDERSTOOD;
   ST_TOO_FEW_ARGS; ST_TOO_MANY_ARGS; ST_ARG_MISSES_VALUE; ST_REQUIRED_ARG_MISSING].
Lemma predefined_distinct : NoDup predefined.
Proof. repeat constructor; vm_compute; intuition discriminate. Qed.
Lemma predefined_success st : In st predefined ->
  (st_success st = true <-> In st [ST_SUCCESS; ST_TRUE; ST_FALSE]).
Proof.
  intros I. assert (F : forallb (fun s => Bool.eqb (st_success s)
    (existsb (N.eqb s) [ST_SUCCESS; ST_TRUE; ST_FALSE])) predefined = true) by (vm_compute; reflexivity).
  rewrite forallb_forall in F. apply F, eqb_prop in I. rewrite I, existsb_exists. split.
  - intros (x & X & E). apply N.eqb_eq in E. now subst.
  - intros X. exists st. split; [exact X|apply N.eqb_refl].
Qed.

(** ** Alignment *)
Lemma sub_w_1 n x : x < 2 ^ n -> 1 <= x -> sub_w n x 1 = x - 1.
Proof.
  intros L P. unfold sub_w. replace (x + (2 ^ n - 1)) with (x - 1 + 1 * 2 ^ n) by lia.
  rewrite N.mod_add by lia. apply N.mod_small. lia.
Qed.
Lemma pow2_lt k n : k < n -> 2 ^ k < 2 ^ n.
Proof. intros. apply N.pow_lt_mono_r; lia. Qed.
Lemma pow2_split k n : k <= n -> 2 ^ n = 2 ^ (n - k) * 2 ^ k.
Proof. intros. rewrite <- N.pow_add_r. f_equal. lia. Qed.
Lemma align_mask n k : k < n -> sub_w n (2 ^ k) 1 = N.ones k.
Proof.
  intros L. pose proof (pow2_lt k n L). pose proof (pow2_pos k).
  rewrite sub_w_1 by lia. now rewrite ones_sub.
Qed.
Lemma div_greatest a y : a <> 0 ->
  y / a * a <= y /\ forall m, m * a <= y -> m * a <= y / a * a.
Proof.
  intros NZ. pose proof (N.div_mod y a NZ). split; [lia|].
  intros m M. apply N.mul_le_mono_r. apply N.div_le_lower_bound; lia.
Qed.

Lemma align_up_least n k x m : k < n -> x <= m * 2 ^ k < 2 ^ n ->
  (exists q, align_up n x (2 ^ k) = q * 2 ^ k) /\ x <= align_up n x (2 ^ k) /\
  forall q, x <= q * 2 ^ k -> align_up n x (2 ^ k) <= q * 2 ^ k.
Proof.
  intros K [X M]. pose proof (pow2_pos k) as P. pose proof (pow2_split k n ltac:(lia)) as PS.
  set (a := 2 ^ k) in *. set (t := 2 ^ (n - k)) in *.
  assert (MT : m < t) by (rewrite PS in M; apply N.mul_lt_mono_pos_r in M; lia).
  assert (MA : (m + 1) * a <= t * a) by (apply N.mul_le_mono_r; lia).
  assert (E : align_up n x a = (x + a - 1) / a * a).
  { unfold align_up, a. rewrite align_mask by exact K. fold a.
    replace (sub_w n ((x + a) mod 2 ^ n) 1) with (x + a - 1).
    - apply land_low_mask. lia.
    - destruct (N.eq_dec (x + a) (2 ^ n)) as [Q|Q].
      + rewrite Q, N.mod_same by lia. unfold sub_w. rewrite N.add_0_l, N.mod_small; lia.
      + rewrite N.mod_small by lia. rewrite sub_w_1; lia. }
  rewrite E. split; [now eexists|].
  pose proof (N.div_mod (x + a - 1) a ltac:(lia)) as D.
  pose proof (N.mod_lt (x + a - 1) a ltac:(lia)) as R.
  split; [lia|].
  intros q Q. apply N.mul_le_mono_r.
  enough ((x + a - 1) / a < q + 1) by lia. apply N.div_lt_upper_bound; lia.
Qed.
Lemma align_down_pred n k x : k < n -> 1 <= x < 2 ^ n ->
  align_down n x (2 ^ k) = (x - 1) / 2 ^ k * 2 ^ k.
Proof.
  intros K X. unfold align_down. rewrite align_mask by exact K.
  rewrite sub_w_1 by lia. apply land_low_mask. lia.
Qed.
Lemma align_down_aligned n k q : k < n -> 1 <= q -> q * 2 ^ k < 2 ^ n -> align_down n (q * 2 ^ k) (2 ^ k) = q * 2 ^ k - 2 ^ k.
Proof.
  intros K Q L. pose proof (pow2_pos k) as P. rewrite align_down_pred by (try exact K; nia).
  set (a := 2 ^ k) in *. replace (q * a - 1) with ((q - 1) * a + (a - 1)) by nia.
  rewrite N.div_add_l by lia. rewrite N.div_small by lia. nia.
Qed.
Lemma align_down_zero n k : k < n -> align_down n 0 (2 ^ k) = 2 ^ n - 2 ^ k.
Proof.
  intros K. pose proof (pow2_pos k) as P. pose proof (pow2_split k n ltac:(lia)) as PS. pose proof (pow2_pos (n - k)) as PT.
  unfold align_down. rewrite align_mask by exact K. unfold sub_w. rewrite N.add_0_l, (N.mod_small (2 ^ n - 1)) by lia.
  rewrite land_low_mask by lia. set (a := 2 ^ k) in *. set (t := 2 ^ (n - k)) in *.
  replace (2 ^ n - 1) with ((t - 1) * a + (a - 1)) by nia. rewrite N.div_add_l by lia. rewrite N.div_small by lia. nia.
Qed.
Lemma align_up_wrap n k x : k < n -> 2 ^ n - 2 ^ k < x -> x < 2 ^ n -> align_up n x (2 ^ k) = 0.
Proof.
  intros K L U. pose proof (pow2_pos k) as P. pose proof (pow2_lt k n K) as PL. unfold align_up. rewrite align_mask by exact K.
  set (a := 2 ^ k) in *. replace ((x + a) mod 2 ^ n) with (x + a - 2 ^ n).
  - rewrite sub_w_1 by lia. rewrite land_low_mask by lia. fold a. rewrite N.div_small by lia. reflexivity.
  - replace (x + a) with (x + a - 2 ^ n + 1 * 2 ^ n) at 2 by lia. rewrite N.mod_add by lia. rewrite N.mod_small by lia. reflexivity.
Qed.
(** The mask of 32 bits keeps the lower half of what the mask of 64 bits keeps. *)
Lemma align_up_mixed k x : k < 32 -> align_up_64_32 x (2 ^ k) = align_up 64 x (2 ^ k) mod 2 ^ 32.
Proof.
  intros K. unfold align_up_64_32, align_up. rewrite !align_mask by lia. set (y := sub_w 64 _ 1).
  apply N.bits_inj. intros i. rewrite <- N.land_ones, !N.land_spec.
  destruct (N.lt_ge_cases i 32) as [L|L].
  - rewrite !N.lnot_spec_low, (N.ones_spec_low 32 i) by lia. now rewrite andb_true_r.
  - rewrite (N.ones_spec_high 32 i) by lia. rewrite andb_false_r.
    rewrite N.lnot_spec_high, (N.ones_spec_high k i) by lia. apply andb_false_r.
Qed.
Lemma align_down_below n k x : k < n -> 1 <= x < 2 ^ n ->
  (exists q, align_down n x (2 ^ k) = q * 2 ^ k) /\ align_down n x (2 ^ k) < x /\
  forall q, q * 2 ^ k < x -> q * 2 ^ k <= align_down n x (2 ^ k).
Proof.
  intros K X. pose proof (pow2_pos k). rewrite align_down_pred by assumption.
  destruct (div_greatest (2 ^ k) (x - 1) ltac:(lia)) as [A B].
  split; [now eexists|]. split; [lia|]. intros q Q. apply B. lia.
Qed.
Lemma align_down_greatest n k x : k < n -> x < 2 ^ n -> x mod 2 ^ k <> 0 ->
  (exists q, align_down n x (2 ^ k) = q * 2 ^ k) /\ align_down n x (2 ^ k) <= x /\
  forall q, q * 2 ^ k <= x -> q * 2 ^ k <= align_down n x (2 ^ k).
Proof.
  intros K X R. pose proof (pow2_pos k).
  assert (NZ : x <> 0) by (intros ->; apply R; apply N.mod_0_l; lia).
  destruct (align_down_below n k x K ltac:(lia)) as (A & B & D).
  split; [exact A|]. split; [lia|]. intros q Q. apply D.
  destruct (N.eq_dec (q * 2 ^ k) x) as [E|E]; [|lia].
  exfalso. apply R. rewrite <- E. apply N.mod_mul. lia.
Qed.
Lemma is_aligned_ok n k x : k < n -> is_aligned_to n x (2 ^ k) = true <-> exists q, x = q * 2 ^ k.
Proof.
  intros K. unfold is_aligned_to. rewrite align_mask, N.land_ones, N.eqb_eq by exact K.
  pose proof (pow2_pos k). rewrite N.mod_divide by lia. reflexivity.
Qed.
Lemma is_power_ok n x : 0 < n -> x < 2 ^ n ->
  is_power_of_2 n x = true <-> x = 0 \/ exists k, x = 2 ^ k.
Proof.
  intros P L. unfold is_power_of_2. rewrite N.eqb_eq.
  destruct (N.eq_dec x 0) as [->|NZ].
  - rewrite N.land_0_l. intuition.
  - rewrite sub_w_1 by lia. rewrite land_pow2_pred by exact NZ. intuition.
Qed.

(** ** Bit length *)
Lemma needs_bit_iff x b : x < W64 -> needs_bit x b = (2 ^ b <=? x).
Proof.
  intros L. unfold needs_bit. rewrite N.mod_small by exact L. rewrite N.shiftr_div_pow2.
  pose proof (pow2_pos b).
  destruct (N.leb_spec (2 ^ b) x) as [H1|H1].
  - apply N.ltb_lt. apply N.div_str_pos. lia.
  - rewrite N.div_small by lia. reflexivity.
Qed.
Lemma sum_needs x k : x < W64 ->
  fold_right (fun b acc => (if needs_bit x b then 1 else 0) + acc) 0 (map N.of_nat (seq 0 k)) =
  N.min (N.of_nat k) (N.size x).
Proof.
  intros L. enough (G : forall m s, fold_right (fun b acc => (if needs_bit x b then 1 else 0) + acc) 0
    (map N.of_nat (seq s m)) = N.min (N.of_nat m) (N.size x - N.of_nat s)).
  { rewrite G. lia. }
  induction m as [|m IH]; intros s; cbn [seq map fold_right]; [lia|].
  rewrite IH, needs_bit_iff by exact L.
  assert (SZ : 2 ^ N.of_nat s <= x <-> N.of_nat s < N.size x).
  { destruct (N.eq_dec x 0) as [->|NZ].
    - pose proof (pow2_pos (N.of_nat s)). change (N.size 0) with 0. lia.
    - rewrite N.size_log2 by exact NZ. rewrite N.log2_le_pow2 by lia. lia. }
  destruct (N.leb_spec (2 ^ N.of_nat s) x); lia.
Qed.
Lemma bits_to_represent_min x : x < W64 -> bits_to_represent x = N.min 32 (N.size x).
Proof. intros L. exact (sum_needs x 32 L). Qed.
Lemma bits_to_represent_ok x : x < W32 ->
  x < 2 ^ bits_to_represent x /\ forall b, x < 2 ^ b -> bits_to_represent x <= b.
Proof.
  intros L. rewrite bits_to_represent_min by (unfold W32, W64 in *; lia).
  assert (S32 : N.size x <= 32).
  { destruct (N.eq_dec x 0) as [->|NZ]; [vm_compute; discriminate|].
    rewrite N.size_log2 by exact NZ. apply N.le_succ_l. apply N.log2_lt_pow2; [lia|].
    exact L. }
  rewrite N.min_r by exact S32. split; [apply N.size_gt|].
  intros b B. destruct (N.eq_dec x 0) as [->|NZ]; [change (N.size 0) with 0; lia|].
  rewrite N.size_log2 by exact NZ. apply N.le_succ_l. apply N.log2_lt_pow2; lia.
Qed.
(** Wider values are said to need 32 bits. *)
Lemma bits_to_represent_wide x : W32 <= x < W64 -> bits_to_represent x = 32.
Proof.
  intros [L U]. rewrite bits_to_represent_min by exact U. apply N.min_l.
  rewrite N.size_log2 by (unfold W32 in L; lia). enough (32 <= N.log2 x) by lia.
  change W32 with (2 ^ 32) in L. apply N.log2_le_pow2; [lia|exact L].
Qed.
Lemma zyan_abs_min n : 1 <= n -> zyan_abs n (- 2 ^ (Z.of_N n - 1)) = None.
Proof.
  intros L. unfold zyan_abs. pose proof (Z.pow_pos_nonneg 2 (Z.of_N n - 1) ltac:(lia) ltac:(lia)).
  destruct (Z.ltb_spec (- 2 ^ (Z.of_N n - 1)) 0); [|lia]. now rewrite Z.eqb_refl.
Qed.

(** ** Small arithmetic *)
Lemma zyan_min_ok a b : zyan_min a b = Z.min a b.
Proof. unfold zyan_min. destruct (Z.ltb_spec a b); lia. Qed.
Lemma zyan_max_ok a b : zyan_max a b = Z.max a b.
Proof. unfold zyan_max. destruct (Z.gtb_spec a b); lia. Qed.
Lemma zyan_abs_ok n a : (- 2 ^ (Z.of_N n - 1) < a)%Z -> zyan_abs n a = Some (Z.abs a).
Proof.
  intros L. unfold zyan_abs. destruct (Z.ltb_spec a 0); [|f_equal; lia].
  destruct (Z.eqb_spec a (- 2 ^ (Z.of_N n - 1))); [lia|f_equal; lia].
Qed.

(** ** Version *)
Lemma field16 v s : N.shiftr (N.land v (N.shiftl 65535 s)) s mod 65536 = v / 2 ^ s mod 65536.
Proof.
  rewrite N.shiftr_land, N.shiftr_shiftl_l by lia. rewrite N.sub_diag.
  change (N.shiftl 65535 0) with (N.ones 16). rewrite N.land_ones, N.shiftr_div_pow2.
  change (2 ^ 16) with 65536. apply N.mod_mod. lia.
Qed.
Lemma version_fields v :
  version_major v = v / 281474976710656 mod 65536 /\ version_minor v = v / 4294967296 mod 65536 /\
  version_patch v = v / 65536 mod 65536 /\ version_build v = v mod 65536.
Proof.
  repeat split.
  - exact (field16 v 48).
  - exact (field16 v 32).
  - exact (field16 v 16).
  - unfold version_build. change 65535 with (N.ones 16). rewrite N.land_ones.
    change (2 ^ 16) with 65536. apply N.mod_mod. lia.
Qed.
Lemma version_roundtrip v : v < W64 ->
  version_major v < 65536 /\ version_minor v < 65536 /\ version_patch v < 65536 /\ version_build v < 65536 /\
  v = version_major v * 281474976710656 + version_minor v * 4294967296 + version_patch v * 65536 + version_build v.
Proof.
  intros L. destruct (version_fields v) as (-> & -> & -> & ->). unfold W64 in L. lia.
Qed.
Lemma version_encode a b c d : a < 65536 -> b < 65536 -> c < 65536 -> d < 65536 ->
  let v := a * 281474976710656 + b * 4294967296 + c * 65536 + d in
  version_major v = a /\ version_minor v = b /\ version_patch v = c /\ version_build v = d.
Proof.
  intros A B K D v. destruct (version_fields v) as (-> & -> & -> & ->). unfold v. lia.
Qed.

(** ** Comparison functions *)
Lemma le_value_inj : forall xs ys, length xs = length ys ->
  Forall (fun b => b < 256) xs -> Forall (fun b => b < 256) ys -> le_value xs = le_value ys -> xs = ys.
Proof.
  induction xs as [|x xs IH]; intros [|y ys] L FX FY E; try discriminate; [reflexivity|].
  inversion_clear FX. inversion_clear FY. cbn [le_value] in E. injection L as L.
  assert (x = y) by lia. subst. f_equal. apply IH; auto. lia.
Qed.
Lemma three_way a b :
  let c := (if a <? b then (-1)%Z else if b <? a then 1%Z else 0%Z) in
  (c = (-1)%Z /\ a < b) \/ (c = 0%Z /\ a = b) \/ (c = 1%Z /\ b < a).
Proof. cbv zeta. destruct (N.ltb_spec a b), (N.ltb_spec b a); lia. Qed.
Lemma compare_field_cases o k x y :
  (compare_field o k x y = (-1)%Z /\ field o k x < field o k y) \/
  (compare_field o k x y = 0%Z /\ field o k x = field o k y) \/
  (compare_field o k x y = 1%Z /\ field o k y < field o k x).
Proof. apply three_way. Qed.
Lemma equals_field_iff o k x y : equals_field o k x y = true <-> field o k x = field o k y.
Proof. unfold equals_field. destruct (N.eqb_spec (field o k x) (field o k y)); intuition discriminate. Qed.
Lemma compare_field_order o k e : cmp_order e (compare_field o k).
Proof.
  split.
  - intros a b _ _. destruct (compare_field_cases o k a b) as [[-> ?]|[[-> ?]|[-> ?]]];
      destruct (compare_field_cases o k b a) as [[-> ?]|[[-> ?]|[-> ?]]]; lia.
  - intros a b c _ _ _. destruct (compare_field_cases o k a b) as [[-> ?]|[[-> ?]|[-> ?]]];
      destruct (compare_field_cases o k b c) as [[-> ?]|[[-> ?]|[-> ?]]];
      destruct (compare_field_cases o k a c) as [[-> ?]|[[-> ?]|[-> ?]]]; lia.
Qed.
Lemma compare_is_field k x y : compare k x y = compare_field 0 k x y.
Proof. reflexivity. Qed.
Lemma equals_is_field k x y : equals k x y = equals_field 0 k x y.
Proof. reflexivity. Qed.
Lemma compare_cases k x y : nlen x = k -> nlen y = k ->
  (compare k x y = (-1)%Z /\ le_value x < le_value y) \/
  (compare k x y = 0%Z /\ le_value x = le_value y) \/
  (compare k x y = 1%Z /\ le_value y < le_value x).
Proof.
  intros X Y. unfold compare, nfirst.
  rewrite !firstn_all2 by (unfold nlen in *; lia). apply three_way.
Qed.
Lemma equals_iff k x y : nlen x = k -> nlen y = k ->
  Forall (fun b => b < 256) x -> Forall (fun b => b < 256) y -> (equals k x y = true <-> x = y).
Proof.
  intros X Y FX FY. unfold equals, nfirst.
  rewrite !firstn_all2 by (unfold nlen in *; lia).
  destruct (N.eqb_spec (le_value x) (le_value y)) as [E|E].
  - split; [|reflexivity]. intros _. apply le_value_inj; auto. unfold nlen in *; lia.
  - split; [discriminate|]. intros ->. now destruct E.
Qed.
Lemma compare_equals k x y : compare k x y = 0%Z <-> equals k x y = true.
Proof.
  rewrite compare_is_field, equals_is_field, equals_field_iff.
  destruct (compare_field_cases 0 k x y) as [[-> ?]|[[-> ?]|[-> ?]]]; lia.
Qed.
Lemma compare_order k e : cmp_order e (compare k).
Proof. exact (compare_field_order 0 k e). Qed.

(** The functions of Comparison.h on numbers. *)
Lemma bytes_of_len : forall k v, nlen (bytes_of k v) = N.of_nat k.
Proof.
  induction k as [|k IH]; intros v; [reflexivity|]. cbn [bytes_of]. rewrite nlen_cons, IH. lia.
Qed.
Lemma bytes_of_value : forall k v, v < 2 ^ (8 * N.of_nat k) -> le_value (bytes_of k v) = v.
Proof.
  induction k as [|k IH]; intros v L.
  - change (2 ^ (8 * N.of_nat 0)) with 1 in L. cbn. lia.
  - cbn [bytes_of le_value]. rewrite IH.
    + rewrite N.add_comm. symmetry. apply N.div_mod'.
    + replace (8 * N.of_nat (S k)) with (8 + 8 * N.of_nat k) in L by lia. rewrite N.pow_add_r in L.
      change (2 ^ 8) with 256 in L. apply N.div_lt_upper_bound; [discriminate|exact L].
Qed.
Lemma equals_decides k : decides k (equals (N.of_nat k)).
Proof.
  intros a b A B. unfold equals. rewrite !nfirst_all by (rewrite bytes_of_len; lia).
  rewrite !bytes_of_value by assumption. destruct (N.eqb_spec a b); split; congruence.
Qed.
Lemma compare_orders k : orders k (compare (N.of_nat k)).
Proof.
  intros a b A B. unfold compare. rewrite !nfirst_all by (rewrite bytes_of_len; lia).
  rewrite !bytes_of_value by assumption. destruct (N.ltb_spec a b), (N.ltb_spec b a); repeat split; lia.
Qed.
Lemma instances_ok :
  decides 8 equals_pointer /\ decides 1 equals_bool /\ decides 1 equals_numeric8 /\ decides 2 equals_numeric16 /\
  decides 4 equals_numeric32 /\ decides 8 equals_numeric64 /\
  orders 8 compare_pointer /\ orders 1 compare_bool /\ orders 1 compare_numeric8 /\ orders 2 compare_numeric16 /\
  orders 4 compare_numeric32 /\ orders 8 compare_numeric64.
Proof.
  exact (conj (equals_decides 8) (conj (equals_decides 1) (conj (equals_decides 1) (conj (equals_decides 2)
    (conj (equals_decides 4) (conj (equals_decides 8) (conj (compare_orders 8) (conj (compare_orders 1)
    (conj (compare_orders 1) (conj (compare_orders 2) (conj (compare_orders 4) (compare_orders 8)))))))))))).
Qed.

(** ** ZYAN_DIV64 *)
Lemma div64_ok x d : 0 < d -> exists q, zyan_div64 x d = Some q /\ q * d <= x < (q + 1) * d.
Proof.
  intros D. unfold zyan_div64. destruct (N.eqb_spec d 0); [lia|]. exists (x / d). split; [reflexivity|].
  pose proof (N.div_mod x d ltac:(lia)). pose proof (N.mod_lt x d ltac:(lia)). nia.
Qed.
Lemma div64_kernel x d : d < 2 ^ 32 -> zyan_div64_kernel x d = zyan_div64 x d.
Proof. intros L. unfold zyan_div64_kernel. now rewrite N.mod_small. Qed.
Lemma div64_kernel_zero x k : zyan_div64_kernel x (k * 2 ^ 32) = None.
Proof. unfold zyan_div64_kernel. rewrite N.mod_mul by discriminate. reflexivity. Qed.
Lemma div64_kernel_wrong x k r : 0 < k -> 0 < r < 2 ^ 32 -> k * 2 ^ 32 + r <= x -> exists q q',
  zyan_div64 x (k * 2 ^ 32 + r) = Some q /\ zyan_div64_kernel x (k * 2 ^ 32 + r) = Some q' /\ q < q'.
Proof.
  intros K R L. unfold zyan_div64_kernel. rewrite N.add_comm, N.mod_add by discriminate. rewrite N.mod_small by lia.
  unfold zyan_div64. destruct (N.eqb_spec (r + k * 2 ^ 32) 0); [lia|]. destruct (N.eqb_spec r 0); [lia|].
  eexists _, _. split; [reflexivity|]. split; [reflexivity|].
  set (b := r + k * 2 ^ 32) in *. assert (B : 2 * r <= b) by (unfold b; nia). assert (P : 1 <= x / b) by (apply N.div_le_lower_bound; unfold b; lia).
  apply N.lt_le_trans with (x / b * 2); [lia|]. apply N.div_le_lower_bound; [lia|].
  pose proof (N.mul_div_le x b ltac:(lia)). nia.
Qed.

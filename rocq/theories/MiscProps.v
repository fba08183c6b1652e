(** Property theorems for status codes (C44), arithmetic macros (C45), comparison functions (C46) and the
    version (C53). *)
From Verif Require Import Base Status DefinesModel ComparisonModel ComparisonSpec VectorSpec VectorDriver VectorModel Mem
  MiscProofs.

(** C44: every combination of the three fields is recovered, every 32-bit value is such a combination, and
    the predefined values are pairwise distinct and of the announced kind. *)
Theorem c44_status_fields :
  forall error module code, error < 2 -> module < 2 ^ 11 -> code < 2 ^ 20 ->
    let st := make_status error module code in
    st < 2 ^ 32 /\ st_module st = module /\ st_code st = code /\
    st_failed st = (error =? 1) /\ st_success st = (error =? 0).
Proof. exact make_status_fields. Qed.
Print Assumptions c44_status_fields.
Theorem c44_status_onto :
  forall st, st < 2 ^ 32 ->
    st = make_status (if st_failed st then 1 else 0) (st_module st) (st_code st) /\
    st_success st = negb (st_failed st).
Proof. exact (fun st L => conj (eq_sym (make_status_onto st L)) (st_success_failed st)). Qed.
Print Assumptions c44_status_onto.
Theorem c44_predefined :
  NoDup predefined /\
  forall st, In st predefined -> (st_success st = true <-> In st [ST_SUCCESS; ST_TRUE; ST_FALSE]).
Proof. exact (conj predefined_distinct predefined_success). Qed.
Print Assumptions c44_predefined.
Example c44_example : make_status 1 3 4 = 2150629380 /\ st_module 2150629380 = 3 /\ 3 < 2 ^ 11 /\ 4 < 2 ^ 20.
Proof. now vm_compute. Qed.

(** C45.  [n] is the width of the operand type, 2^k the alignment. *)
Theorem c45_align_up_partial :
  forall n k x, k < n -> (exists m, x <= m * 2 ^ k < 2 ^ n) ->
    (exists q, align_up n x (2 ^ k) = q * 2 ^ k) /\ x <= align_up n x (2 ^ k) /\
    (forall q, x <= q * 2 ^ k -> align_up n x (2 ^ k) <= q * 2 ^ k).
Proof. exact (fun n k x K '(ex_intro _ m H) => align_up_least n k x m K H). Qed.
Print Assumptions c45_align_up_partial.
Example c45_align_up_met : (12 < 64 /\ exists m, 4097 <= m * 2 ^ 12 < 2 ^ 64) /\ align_up 64 4097 (2 ^ 12) = 8192.
Proof. split; [split; [reflexivity|exists 2; split; vm_compute; [discriminate|reflexivity]]|reflexivity]. Qed.
(** The greatest multiple strictly below [x] ... *)
Theorem c45_align_down_below_partial :
  forall n k x, k < n -> 1 <= x < 2 ^ n ->
    (exists q, align_down n x (2 ^ k) = q * 2 ^ k) /\ align_down n x (2 ^ k) < x /\
    (forall q, q * 2 ^ k < x -> q * 2 ^ k <= align_down n x (2 ^ k)).
Proof. exact align_down_below. Qed.
Print Assumptions c45_align_down_below_partial.
(** ... which is the rounded-down value exactly when [x] is not aligned already. *)
Theorem c45_align_down_partial :
  forall n k x, k < n -> x < 2 ^ n -> x mod 2 ^ k <> 0 ->
    (exists q, align_down n x (2 ^ k) = q * 2 ^ k) /\ align_down n x (2 ^ k) <= x /\
    (forall q, q * 2 ^ k <= x -> q * 2 ^ k <= align_down n x (2 ^ k)).
Proof. exact align_down_greatest. Qed.
Print Assumptions c45_align_down_partial.
Example c45_align_down_met : 12 < 64 /\ 5000 < 2 ^ 64 /\ 5000 mod 2 ^ 12 <> 0 /\ align_down 64 5000 (2 ^ 12) = 4096.
Proof. repeat split; vm_compute; congruence. Qed.
(** An aligned value is moved down by one unit, and 0 to the top of the address space. *)
Theorem c45_align_down_refuted :
  forall n k q, k < n -> 1 <= q -> q * 2 ^ k < 2 ^ n -> align_down n (q * 2 ^ k) (2 ^ k) = q * 2 ^ k - 2 ^ k.
Proof. exact align_down_aligned. Qed.
Print Assumptions c45_align_down_refuted.
Theorem c45_align_down_zero_refuted : forall n k, k < n -> align_down n 0 (2 ^ k) = 2 ^ n - 2 ^ k.
Proof. exact align_down_zero. Qed.
Print Assumptions c45_align_down_zero_refuted.
Example c45_align_down_refuted_met : 12 < 64 /\ 1 * 2 ^ 12 < 2 ^ 64 /\ align_down 64 4096 (2 ^ 12) = 0 /\
  align_down 64 0 (2 ^ 12) = 18446744073709547520.
Proof. now vm_compute. Qed.
(** The result wraps to 0 when no multiple above [x] is representable. *)
Theorem c45_align_up_wrap_refuted :
  forall n k x, k < n -> 2 ^ n - 2 ^ k < x -> x < 2 ^ n -> align_up n x (2 ^ k) = 0.
Proof. exact align_up_wrap. Qed.
Print Assumptions c45_align_up_wrap_refuted.
Example c45_align_up_wrap_met : 12 < 64 /\ 2 ^ 64 - 2 ^ 12 < 2 ^ 64 - 1 /\ 2 ^ 64 - 1 < 2 ^ 64.
Proof. now vm_compute. Qed.
(** A 64-bit value aligned with a 32-bit alignment loses its upper half. *)
Theorem c45_align_up_mixed_refuted :
  forall k x, k < 32 -> align_up_64_32 x (2 ^ k) = align_up 64 x (2 ^ k) mod 2 ^ 32.
Proof. exact align_up_mixed. Qed.
Print Assumptions c45_align_up_mixed_refuted.
Example c45_align_up_mixed_met : 12 < 32 /\ align_up 64 (2 ^ 32 + 1) (2 ^ 12) = 2 ^ 32 + 4096 /\
  align_up_64_32 (2 ^ 32 + 1) (2 ^ 12) = 4096.
Proof. now vm_compute. Qed.
Theorem c45_is_aligned :
  forall n k x, k < n -> is_aligned_to n x (2 ^ k) = true <-> exists q, x = q * 2 ^ k.
Proof. exact is_aligned_ok. Qed.
Print Assumptions c45_is_aligned.
(** The header documents the answer for 0. *)
Theorem c45_is_power_of_2 :
  forall n x, 0 < n -> x < 2 ^ n -> is_power_of_2 n x = true <-> x = 0 \/ exists k, x = 2 ^ k.
Proof. exact is_power_ok. Qed.
Print Assumptions c45_is_power_of_2.
Example c45_powers_met : 0 < 64 /\ 4096 < 2 ^ 64 /\ is_power_of_2 64 4096 = true /\ is_power_of_2 64 4097 = false /\
  is_aligned_to 64 8192 (2 ^ 12) = true /\ is_aligned_to 64 8193 (2 ^ 12) = false.
Proof. now vm_compute. Qed.
(** The bit length: the least number of bits [b] with [x < 2^b]. *)
Theorem c45_bits_to_represent_partial :
  forall x, x < 2 ^ 32 -> x < 2 ^ bits_to_represent x /\ forall b, x < 2 ^ b -> bits_to_represent x <= b.
Proof. exact bits_to_represent_ok. Qed.
Print Assumptions c45_bits_to_represent_partial.
Example c45_bits_met : 1000 < 2 ^ 32 /\ bits_to_represent 1000 = 10.
Proof. now vm_compute. Qed.
(** Every wider value is said to need 32 bits. *)
Theorem c45_bits_to_represent_refuted :
  forall x, 2 ^ 32 <= x < 2 ^ 64 -> bits_to_represent x = 32.
Proof. exact bits_to_represent_wide. Qed.
Print Assumptions c45_bits_to_represent_refuted.
Example c45_bits_refuted_met : 2 ^ 32 <= 2 ^ 63 < 2 ^ 64 /\ ~ 2 ^ 63 < 2 ^ bits_to_represent (2 ^ 63).
Proof. split; [split; vm_compute; congruence|vm_compute; congruence]. Qed.
Theorem c45_min_max : forall a b, zyan_min a b = Z.min a b /\ zyan_max a b = Z.max a b.
Proof. exact (fun a b => conj (zyan_min_ok a b) (zyan_max_ok a b)). Qed.
Print Assumptions c45_min_max.
Theorem c45_abs_partial : forall n a, (- 2 ^ (Z.of_N n - 1) < a)%Z -> zyan_abs n a = Some (Z.abs a).
Proof. exact zyan_abs_ok. Qed.
Print Assumptions c45_abs_partial.
(** ABS of the smallest value is undefined behaviour. *)
Theorem c45_abs_refuted : forall n, 1 <= n -> zyan_abs n (- 2 ^ (Z.of_N n - 1)) = None.
Proof. exact zyan_abs_min. Qed.
Print Assumptions c45_abs_refuted.
Example c45_abs_met : (- 2 ^ (Z.of_N 32 - 1) < -2147483647)%Z /\ zyan_abs 32 (-2147483647) = Some 2147483647%Z.
Proof. split; reflexivity. Qed.

(** ZYAN_DIV64 is the division rounding down; in the Linux kernel only for divisors of 32 bits. *)
Theorem c45_div64 :
  forall x d, 0 < d -> exists q, zyan_div64 x d = Some q /\ q * d <= x < (q + 1) * d.
Proof. exact div64_ok. Qed.
Print Assumptions c45_div64.
Theorem c45_div64_kernel_partial : forall x d, d < 2 ^ 32 -> zyan_div64_kernel x d = zyan_div64 x d.
Proof. exact div64_kernel. Qed.
Print Assumptions c45_div64_kernel_partial.
(** ... Larger divisors divide by zero there, or give a quotient that is too large for every dividend that is not smaller. *)
Theorem c45_div64_kernel_zero_refuted : forall x k, zyan_div64_kernel x (k * 2 ^ 32) = None.
Proof. exact div64_kernel_zero. Qed.
Print Assumptions c45_div64_kernel_zero_refuted.
Theorem c45_div64_kernel_refuted :
  forall x k r, 0 < k -> 0 < r < 2 ^ 32 -> k * 2 ^ 32 + r <= x -> exists q q',
    zyan_div64 x (k * 2 ^ 32 + r) = Some q /\ zyan_div64_kernel x (k * 2 ^ 32 + r) = Some q' /\ q < q'.
Proof. exact div64_kernel_wrong. Qed.
Print Assumptions c45_div64_kernel_refuted.
Example c45_div64_met : 1 * 2 ^ 32 + 5 <= 2 ^ 40 /\ zyan_div64 (2 ^ 40) (2 ^ 32 + 5) = Some 255 /\
  zyan_div64_kernel (2 ^ 40) (2 ^ 32 + 5) = Some 219902325555 /\ zyan_div64_kernel 1000 7 = Some 142.
Proof. now vm_compute. Qed.

(** C46.  [k] is the number of bytes of the type, elements are lists of bytes. *)
Theorem c46_equals :
  forall k x y, nlen x = k -> nlen y = k ->
    Forall (fun b => b < 256) x -> Forall (fun b => b < 256) y -> (equals k x y = true <-> x = y).
Proof. exact equals_iff. Qed.
Print Assumptions c46_equals.
Theorem c46_compare_values :
  forall k x y, nlen x = k -> nlen y = k ->
    (compare k x y = (-1)%Z /\ le_value x < le_value y) \/
    (compare k x y = 0%Z /\ le_value x = le_value y) \/
    (compare k x y = 1%Z /\ le_value y < le_value x).
Proof. exact compare_cases. Qed.
Print Assumptions c46_compare_values.
Theorem c46_compare_equals : forall k x y, compare k x y = 0%Z <-> equals k x y = true.
Proof. exact compare_equals. Qed.
Print Assumptions c46_compare_equals.
(** The comparison is what BinarySearch requires (the hypothesis of c08_binary_search). *)
Theorem c46_compare_order : forall k e, cmp_order e (compare k).
Proof. exact compare_order. Qed.
Print Assumptions c46_compare_order.
Theorem c46_field_equals :
  forall o k x y, equals_field o k x y = true <-> field o k x = field o k y.
Proof. exact equals_field_iff. Qed.
Print Assumptions c46_field_equals.
Theorem c46_field_compare :
  forall o k x y,
    (compare_field o k x y = (-1)%Z /\ field o k x < field o k y) \/
    (compare_field o k x y = 0%Z /\ field o k x = field o k y) \/
    (compare_field o k x y = 1%Z /\ field o k y < field o k x).
Proof. exact compare_field_cases. Qed.
Print Assumptions c46_field_compare.
Theorem c46_field_order : forall o k e, cmp_order e (compare_field o k).
Proof. exact compare_field_order. Qed.
Print Assumptions c46_field_order.
(** Every function of the header, for all values of its type ([ZyanU8] .. [ZyanU64], [ZyanBool], pointers). *)
Theorem c46_instances :
  decides 8 equals_pointer /\ decides 1 equals_bool /\ decides 1 equals_numeric8 /\ decides 2 equals_numeric16 /\
  decides 4 equals_numeric32 /\ decides 8 equals_numeric64 /\
  orders 8 compare_pointer /\ orders 1 compare_bool /\ orders 1 compare_numeric8 /\ orders 2 compare_numeric16 /\
  orders 4 compare_numeric32 /\ orders 8 compare_numeric64.
Proof. exact instances_ok. Qed.
Print Assumptions c46_instances.
Example c46_example : compare_numeric32 [255;0;0;0] [0;1;0;0] = (-1)%Z /\ equals_numeric16 [1;2] [1;2] = true.
Proof. now vm_compute. Qed.

Example c46_instances_met : bytes_of 4 70000 = [112;17;1;0] /\ 70000 < 2 ^ (8 * N.of_nat 4).
Proof. now vm_compute. Qed.

(** C53. *)
Theorem c53_version_lossless :
  forall v, v < 2 ^ 64 ->
    version_major v < 2 ^ 16 /\ version_minor v < 2 ^ 16 /\ version_patch v < 2 ^ 16 /\ version_build v < 2 ^ 16 /\
    v = version_major v * 2 ^ 48 + version_minor v * 2 ^ 32 + version_patch v * 2 ^ 16 + version_build v.
Proof. exact version_roundtrip. Qed.
Print Assumptions c53_version_lossless.
Theorem c53_version_encode :
  forall a b c d, a < 2 ^ 16 -> b < 2 ^ 16 -> c < 2 ^ 16 -> d < 2 ^ 16 ->
    let v := a * 2 ^ 48 + b * 2 ^ 32 + c * 2 ^ 16 + d in
    version_major v = a /\ version_minor v = b /\ version_patch v = c /\ version_build v = d.
Proof. exact version_encode. Qed.
Print Assumptions c53_version_encode.
Example c53_met : let v := 1 * 2 ^ 48 + 2 * 2 ^ 32 + 3 * 2 ^ 16 + 4 in
  v < 2 ^ 64 /\ map (fun f => f v) [version_major; version_minor; version_patch; version_build] = [1; 2; 3; 4].
Proof. now vm_compute. Qed.
Theorem c53_get_version :
  version_major get_version = 1 /\ version_minor get_version = 5 /\
  version_patch get_version = 0 /\ version_build get_version = 0.
Proof. now vm_compute. Qed.
Print Assumptions c53_get_version.

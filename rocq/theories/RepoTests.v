(** The unit tests of the repository (tests/Vector.cpp, tests/ArgParse.cpp) and its example program
    (examples/Vector.c), replayed on the model: every expectation of the tests is checked by evaluation.  These are
    tests of the model, not theorems about it: a test that passes on the code and fails here would show that the model
    differs from the code.  tests/String.cpp and examples/String.c contain no test.

    A test is a computation of the model; an expectation that does not hold ends it with a fault, as undefined
    behaviour and a failed assertion do.  What a test reads from "rand()" is given by a generator. *)
From Coq Require Import String.
From Verif Require Import Base Status Mem VectorModel VectorSpec VectorDriver ComparisonModel VectorExamples
  StringModel StringDriver ArgModel ArgSpec ArgDriver ArgExamples.
Import ListNotations.
Local Open Scope N_scope.

Definition T := Mem.M N.
Definition expect (b : bool) : T unit := if b then ret tt else fail AssertFailed.
Definition passes {C A} (m : Mem.M C A) (w : world C) : bool := match m w with Ok _ _ => true | Fault _ => false end.
(** The bytes of an unsigned number of [k] bytes. *)
Fixpoint bytes (k : nat) (n : N) : list N :=
  match k with O => [] | S k => n mod 256 :: bytes k (n / 256) end.
Definition u16 : N -> list N := bytes 2.
Definition u64 : N -> list N := bytes 8.
Definition element_is (x : list N) (y : option (list N)) : bool :=
  match y with Some y => if list_eq_dec N.eq_dec x y then true else false | None => false end.
(** A call that has to give the status [s]; the new state of the vector. *)
Definition gives (s : status) (m : T (status * vector N)) : T (vector N) :=
  let* (r, v) := m in expect (r =? s) ;;; ret v.
Definition made (m : T (status * option (vector N))) : T (vector N) :=
  let* (r, ov) := m in
  match ov with Some v => expect (r =? ST_SUCCESS) ;;; ret v | None => fail AssertFailed end.
Definition call (s : status) (v : vector N) (o : vop N) : T (vector N) := gives s (run_op v o).
(** ZYAN_VECTOR_GET(v, i) == x. *)
Definition get_is (v : vector N) (i : N) (x : list N) : T unit := let* y := read_elem v i in expect (element_is x y).
Definition destroyed (v : vector N) : T unit := let* _ := gives ST_SUCCESS (vdestroy v) in ret tt.
(** for (i = first; n times; ++i) body. *)
Fixpoint loop {S} (n : nat) (i : N) (body : N -> S -> T S) (s : S) : T S :=
  match n with O => ret s | Datatypes.S n => let* s := body i s in loop n (i + 1) body s end.
Definition fields_are (v : vector N) (alloc : bool) (g s size cap esz : N) : bool :=
  eqb (v_alloc v) alloc && (v_growth v =? g) && (v_shrink v =? s) && (v_size v =? size) && (v_cap v =? cap) && (v_esz v =? esz).

(** ** tests/Vector.cpp *)
(** The caller's buffer of [n] bytes is block 0. *)
Definition with_buffer (n : N) : world N :=
  mkworld (fun b => if b =? 0 then Some (repeat 204 (N.to_nat n)) else None) 1 (fun _ => AOk (fun _ => 170)) 0 [].
Definition buffer : option ptr := Some (mkptr 0 0).
Definition buffer_is (esz i : N) (x : list N) : T unit :=
  let* y := mread (padd buffer (i * esz)) esz in expect (element_is x (Some y)).

(** TEST(VectorTest, InitBasic), tests/Vector.cpp:142-162. *)
Definition test_init_basic : T unit :=
  let* v := made (vinit 8 0 None) in
  expect (fields_are v true VECTOR_DEFAULT_GROWTH VECTOR_DEFAULT_SHRINK 0 VECTOR_MIN_CAPACITY 8 && nonnull (v_data v)) ;;;
  destroyed v ;;;
  let* v := made (vinit 2 10 None) in
  expect (v_cap v =? N.max VECTOR_MIN_CAPACITY 10) ;;;
  destroyed v.
Example init_basic_passes : passes test_init_basic world0 = true.
Proof. vm_compute. reflexivity. Qed.

(** TEST(VectorTest, InitAdvanced), tests/Vector.cpp:164-186. *)
Definition test_init_advanced : T unit :=
  let* v := made (vinit_ex 2 0 None true 1 0) in
  expect (fields_are v true 1 0 0 VECTOR_MIN_CAPACITY 2 && nonnull (v_data v)) ;;;
  destroyed v ;;;
  let* v := made (vinit_ex 2 10 None true 1 0) in
  expect (v_cap v =? N.max VECTOR_MIN_CAPACITY 10) ;;;
  destroyed v.
Example init_advanced_passes : passes test_init_advanced world0 = true.
Proof. vm_compute. reflexivity. Qed.

(** TEST(VectorTest, InitCustomBuffer), tests/Vector.cpp:188-206. *)
Definition test_init_custom_buffer : T unit :=
  let* (r, _) := vinit_custom 2 buffer 0 None in
  expect (r =? ST_INVALID_ARGUMENT) ;;;
  let* v := made (vinit_custom 2 buffer 32 None) in
  expect (fields_are v false 1 0 0 32 2) ;;;
  expect (match v_data v with Some p => (pb p =? 0) && (po p =? 0) | None => false end) ;;;
  destroyed v.
Example init_custom_buffer_passes : passes test_init_custom_buffer (with_buffer 64) = true.
Proof. vm_compute. reflexivity. Qed.

(** TEST(VectorTest, Destructor), tests/Vector.cpp:208-250; FreeZyanU16, tests/Vector.cpp:132-136. *)
Definition free_u16 (_ : list N) : list N := u16 0.
Definition buffer_zero (first n : N) : T unit :=
  loop (N.to_nat n) first (fun i _ => buffer_is 2 i (u16 0)) tt.
Definition test_destructor : T unit :=
  let* v := made (vinit_custom 2 buffer 16 (Some free_u16)) in
  let* v := loop 16 0 (fun i v => let* v := call ST_SUCCESS v (OPushBack (u16 i)) in buffer_is 2 i (u16 i) ;;; ret v) v in
  let* v := call ST_SUCCESS v OPopBack in
  buffer_zero 15 1 ;;;
  let* v := call ST_SUCCESS v (ODeleteRange 12 3) in
  buffer_zero 12 3 ;;;
  let* v := call ST_SUCCESS v OClear in
  buffer_zero 0 16 ;;;
  let* v := loop 16 0 (fun i v => let* v := call ST_SUCCESS v (OPushBack (u16 (i + 1))) in buffer_is 2 i (u16 (i + 1)) ;;; ret v) v in
  destroyed v ;;;
  buffer_zero 0 16.
Example destructor_passes : passes test_destructor (with_buffer 32) = true.
Proof. vm_compute. reflexivity. Qed.

(** TEST(VectorTest, TestGrowingAndShrinking), tests/Vector.cpp:252-284. *)
Definition test_growing_and_shrinking : T unit :=
  let* v := made (vinit 8 0 None) in
  let* v := loop 100 0 (fun i v =>
    let expected := if v_cap v <? i + 1 then (v_cap v + 1) * v_growth v else v_cap v in
    let* v := call ST_SUCCESS v (OPushBack (u64 i)) in
    expect (v_cap v =? expected) ;;; ret v) v in
  let* v := loop 100 0 (fun k v =>
    let index := 99 - k in
    let expected := if negb (v_shrink v =? 0) && (index * v_shrink v <? v_cap v) then N.max 1 (index * v_growth v) else v_cap v in
    let* v := call ST_SUCCESS v (ODelete index) in
    expect (v_cap v =? expected) ;;; ret v) v in
  destroyed v.
Example growing_and_shrinking_passes : passes test_growing_and_shrinking world0 = true.
Proof. vm_compute. reflexivity. Qed.

(** The fixtures VectorTestBase and VectorTestFilled, tests/Vector.cpp:49-104, for both values of the parameter. *)
Definition base (fixed : bool) : T (vector N) :=
  made (if fixed then vinit_custom 8 buffer 100 None else vinit 8 100 None).
Definition filled (fixed : bool) : T (vector N) :=
  let* v := base fixed in loop 100 0 (fun i v => call ST_SUCCESS v (OPushBack (u64 i))) v.
Definition passes_both (test : bool -> T (vector N)) : bool :=
  let run fixed := passes (let* v := test fixed in destroyed v) (with_buffer 800) in run false && run true.

(** TEST_P(VectorTestFilled, ElementAccess), tests/Vector.cpp:286-314.  ZyanVectorGetPointerMutable has the code of
    ZyanVectorGetPointer. *)
Definition test_element_access (fixed : bool) : T (vector N) :=
  let* v := filled fixed in
  let* v := call ST_OUT_OF_RANGE v (OSet (v_size v) (u64 1337)) in
  let* v := call ST_SUCCESS v (OSet (v_size v - 1) (u64 1337)) in
  let* (r, _) := vget_pointer v (v_size v) in
  expect (r =? ST_OUT_OF_RANGE) ;;;
  get_is v (v_size v - 1) (u64 1337) ;;;
  let* (r, p) := vget_pointer v (v_size v - 1) in
  expect (r =? ST_SUCCESS) ;;;
  let* x := mread p 8 in
  expect (element_is (u64 1337) (Some x)) ;;;
  mwrite p (u64 42) ;;;
  get_is v (v_size v - 1) (u64 42) ;;;
  (if fixed then buffer_is 8 (v_size v - 1) (u64 42) else ret tt) ;;;
  ret v.
Example element_access_passes : passes_both test_element_access = true.
Proof. vm_compute. reflexivity. Qed.

(** TEST_P(VectorTestFilled, PushPop), tests/Vector.cpp:316-338. *)
Definition test_push_pop (fixed : bool) : T (vector N) :=
  let* v := filled fixed in
  let size := v_size v in
  if fixed then
    let* v := call ST_INSUFFICIENT_BUFFER_SIZE v (OPushBack (u64 1337)) in
    expect (v_size v =? size) ;;;
    let* v := call ST_SUCCESS v OPopBack in
    expect (v_size v =? size - 1) ;;;
    let* v := call ST_SUCCESS v (OPushBack (u64 1337)) in
    expect (v_size v =? size) ;;;
    get_is v (size - 1) (u64 1337) ;;;
    ret v
  else
    let* v := call ST_SUCCESS v (OPushBack (u64 1337)) in
    expect (v_size v =? size + 1) ;;;
    get_is v size (u64 1337) ;;;
    let* v := call ST_SUCCESS v OPopBack in
    expect (v_size v =? size) ;;;
    ret v.
Example push_pop_passes : passes_both test_push_pop = true.
Proof. vm_compute. reflexivity. Qed.

(** TEST_P(VectorTestFilled, Insert), tests/Vector.cpp:340-379. *)
Definition test_insert (fixed : bool) : T (vector N) :=
  let elements := [1337; 1338; 1339; 1340] in
  let* v := filled fixed in
  let* v := (if fixed then
      let size := v_size v in
      let* v := call ST_INSUFFICIENT_BUFFER_SIZE v (OInsertRange (size / 2) (map u64 elements)) in
      let* v := call ST_SUCCESS v (OResize (size - 4)) in
      expect (v_size v =? size - 4) ;;; ret v
    else ret v) in
  let size := v_size v in
  let half := size / 2 in
  let* v := call ST_SUCCESS v (OInsertRange half (map u64 elements)) in
  expect (v_size v =? size + 4) ;;;
  loop (N.to_nat (v_size v)) 0 (fun i _ =>
    get_is v i (u64 (if (half <=? i) && (i <? half + 4) then 1337 + (i - half) else if i <? half then i else i - 4))) tt ;;;
  ret v.
Example insert_passes : passes_both test_insert = true.
Proof. vm_compute. reflexivity. Qed.

(** TEST_P(VectorTestFilled, Delete), tests/Vector.cpp:381-408. *)
Definition test_delete (fixed : bool) : T (vector N) :=
  let* v := filled fixed in
  let* v := call ST_OUT_OF_RANGE v (ODeleteRange (v_size v) 1) in
  let* v := call ST_OUT_OF_RANGE v (ODeleteRange 1 (v_size v)) in
  let size := v_size v in
  let half := size / 2 in
  let count := half / 2 in
  let* v := call ST_SUCCESS v (ODeleteRange half count) in
  expect (v_size v =? size - count) ;;;
  loop (N.to_nat (v_size v)) 0 (fun i _ =>
    get_is v i (u64 (if (half <=? i) && (i <? half + count) then i + count else if i <? half then i else i - count))) tt ;;;
  ret v.
Example delete_passes : passes_both test_delete = true.
Proof. vm_compute. reflexivity. Qed.

(** TEST_P(VectorTestFilled, Find), tests/Vector.cpp:410-433. *)
Definition found (s : status) (i : option N) (m : T (status * option N)) : T unit :=
  let* (r, j) := m in
  expect ((r =? s) && match i, j with Some i, Some j => i =? j | None, None => true | _, _ => false end).
Definition test_find (fixed : bool) : T (vector N) :=
  let* v := filled fixed in
  let half := v_size v / 2 in
  with_arg (u64 half) (fun p => found ST_TRUE (Some half) (vfind v p equals_numeric64)) ;;;
  with_arg (u64 1337) (fun p =>
    found ST_FALSE None (vfind v p equals_numeric64) ;;;
    found ST_FALSE None (vfind_ex v p equals_numeric64 0 0) ;;;
    found ST_OUT_OF_RANGE None (vfind_ex v p equals_numeric64 0 (v_size v + 1)) ;;;
    found ST_OUT_OF_RANGE None (vfind_ex v p equals_numeric64 1 (v_size v))) ;;;
  ret v.
Example find_passes : passes_both test_find = true.
Proof. vm_compute. reflexivity. Qed.

(** TEST_P(VectorTestBase, BinarySearch), tests/Vector.cpp:435-467, with the numbers [random] makes from a seed. *)
Definition random (x : N) : N := (x * 1103515245 + 12345) mod 2147483648.
Definition test_binary_search (seed : N) (fixed : bool) : T (vector N) :=
  let* v := base fixed in
  let* v := call ST_SUCCESS v (OReserve 100) in
  let* x := loop 100 0 (fun _ x =>
    let '(v, s) := x in
    let element := u64 ((s / 65536) mod 100) in
    let* (r, i) := with_arg element (fun p => vbinary_search v p compare_numeric64) in
    expect (st_success r) ;;;
    match i with
    | Some i => let* v := call ST_SUCCESS v (OInsert i element) in ret (v, random s)
    | None => fail AssertFailed
    end) (v, seed) in
  let v := fst x in
  expect (v_size v =? 100) ;;;
  loop 99 1 (fun i _ =>
    let* x := read_elem v (i - 1) in
    let* y := read_elem v i in
    match x, y with Some x, Some y => expect (le_value x <=? le_value y) | _, _ => fail AssertFailed end) tt ;;;
  with_arg (u64 1337) (fun p =>
    found ST_OUT_OF_RANGE None (vbinary_search_ex v p compare_numeric64 0 101) ;;;
    found ST_OUT_OF_RANGE None (vbinary_search_ex v p compare_numeric64 1 100)) ;;;
  ret v.
Example binary_search_passes : forallb (fun seed => passes_both (test_binary_search (random seed))) [1; 2; 3] = true.
Proof. vm_compute. reflexivity. Qed.

(** TEST_P(VectorTestBase, Emplace), tests/Vector.cpp:469-490; InitZyanU64, tests/Vector.cpp:119-123. *)
Definition init_u64 (_ : list N) : status * list N := (ST_SUCCESS, u64 1337).
Definition test_emplace (fixed : bool) : T (vector N) :=
  let* v := base fixed in
  let* v := loop 10 0 (fun i v =>
    let* (r, v, p) := vemplace v None in
    expect (r =? ST_SUCCESS) ;;; mwrite p (u64 i) ;;; ret v) v in
  expect (v_size v =? 10) ;;;
  loop 10 0 (fun i _ => get_is v i (u64 i)) tt ;;;
  let* (r, v, p) := vemplace_ex v 5 (Some init_u64) in
  expect (r =? ST_SUCCESS) ;;;
  let* x := mread p 8 in
  expect (element_is (u64 1337) (Some x)) ;;;
  get_is v 5 (u64 1337) ;;;
  ret v.
Example emplace_passes : passes_both test_emplace = true.
Proof. vm_compute. reflexivity. Qed.

(** TEST_P(VectorTestFilled, SwapElements), tests/Vector.cpp:492-519. *)
Definition test_swap_elements (fixed : bool) : T (vector N) :=
  let* v := filled fixed in
  expect (v_cap v =? v_size v) ;;;
  let* v := call ST_OUT_OF_RANGE v (OSwap 0 (v_size v)) in
  let* v := call ST_OUT_OF_RANGE v (OSwap (v_size v) 0) in
  let* v := call ST_INSUFFICIENT_BUFFER_SIZE v (OSwap 0 (v_size v - 1)) in
  let* v := call ST_SUCCESS v OPopBack in
  let* (r, p) := vget_pointer v 0 in
  expect (r =? ST_SUCCESS) ;;;
  let* (r, q) := vget_pointer v (v_size v - 1) in
  expect (r =? ST_SUCCESS) ;;;
  let* x := mread p 8 in
  let* y := mread q 8 in
  let* v := call ST_SUCCESS v (OSwap 0 (v_size v - 1)) in
  let* x' := mread p 8 in
  let* y' := mread q 8 in
  expect (element_is x (Some y') && element_is y (Some x')) ;;;
  ret v.
Example swap_elements_passes : passes_both test_swap_elements = true.
Proof. vm_compute. reflexivity. Qed.

(** ** examples/Vector.c *)
(** A TestStruct (lines 48-53): "u32" at 0, "u64" at 8, "f" at 16, 24 bytes; InitTestdata (lines 65-72) is given the
    bytes of the float as those of the number, and the padding is zero. *)
Definition test_struct (n : N) : list N := bytes 4 n ++ bytes 4 0 ++ bytes 8 n ++ bytes 4 n ++ bytes 4 0.
Definition contents_are (v : vector N) (xs : list N) : T unit :=
  expect (v_size v =? nlen xs) ;;;
  let* _ := loop (List.length xs) 0 (fun i xs =>
    match xs with x :: xs => get_is v i (test_struct x) ;;; ret xs | [] => fail AssertFailed end) xs in
  ret tt.
(** PerformBasicTests, examples/Vector.c:89-132, with the elements it prints. *)
Definition basic_tests (v : vector N) : T (vector N) :=
  let* v := loop 20 0 (fun i v => call ST_SUCCESS v (OPushBack (test_struct i))) v in
  let* v := call ST_SUCCESS v (ODeleteRange 5 5) in
  let* v := call ST_SUCCESS v (OInsert 5 (test_struct 12345678)) in
  let* v := call ST_SUCCESS v (OSet 10 (test_struct 87654321)) in
  contents_are v [0; 1; 2; 3; 4; 12345678; 10; 11; 12; 13; 87654321; 15; 16; 17; 18; 19] ;;;
  ret v.
(** TestDataComparison, examples/Vector.c:146-160; PerformBinarySearchTest, examples/Vector.c:169-201. *)
Definition compare_u32 : list N -> list N -> Z := compare_field 0 4.
Definition binary_search_test (seed : N) (v : vector N) : T (vector N) :=
  let* x := loop (N.to_nat (v_cap v)) 0 (fun _ x =>
    let '(v, s) := x in
    let element := test_struct ((s / 65536) mod 100) in
    let* (r, i) := with_arg element (fun p => vbinary_search v p compare_u32) in
    expect (st_success r) ;;;
    match i with
    | Some i => let* v := call ST_SUCCESS v (OInsert i element) in ret (v, random s)
    | None => fail AssertFailed
    end) (v, seed) in
  let v := fst x in
  loop (N.to_nat (v_size v) - 1) 1 (fun i _ =>
    let* x := read_elem v (i - 1) in
    let* y := read_elem v i in
    match x, y with Some x, Some y => expect (compare_u32 x y <=? 0)%Z | _, _ => fail AssertFailed end) tt ;;;
  ret v.
(** TestDynamic, examples/Vector.c:208-221. *)
Definition example_dynamic : T unit :=
  let* v := made (vinit 24 10 None) in
  let* v := basic_tests v in
  let* v := call ST_SUCCESS v OClear in
  let* v := call ST_SUCCESS v (OReserve 20) in
  let* v := binary_search_test (random 7) v in
  destroyed v.
Example dynamic_passes : passes example_dynamic world0 = true.
Proof. vm_compute. reflexivity. Qed.
(** TestStatic, examples/Vector.c:228-256. *)
Definition example_static : T unit :=
  let* v := made (vinit_custom 24 buffer 20 None) in
  expect (v_size v =? 0) ;;;
  let* v := basic_tests v in
  let* v := call ST_SUCCESS v OClear in
  let* v := binary_search_test (random 8) v in
  destroyed v.
Example static_passes : passes example_static (with_buffer 480) = true.
Proof. vm_compute. reflexivity. Qed.
(** TestAllocator, examples/Vector.c:326-367. *)
Definition example_allocator : T unit :=
  let* v := made (vinit_ex 24 5 None true 10 0) in
  let* v := loop 10 0 (fun i v => call ST_SUCCESS v (OPushBack (test_struct i))) v in
  expect (v_cap v =? 60) ;;;
  let* v := call ST_SUCCESS v OClear in
  expect (v_size v =? 0) ;;;
  destroyed v.
Example allocator_passes : passes example_allocator world0 = true.
Proof. vm_compute. reflexivity. Qed.

(** ** tests/ArgParse.cpp *)
Local Open Scope string_scope.
Notation arg_test ts ds lo hi := (outcome_of (parse (chars "./test") (line ts) ds lo hi aworld)).
Definition def (name : string) (boolean required : bool) : sdef := mksdef (chars name) boolean required.

(** TEST(UnnamedArgs, TooFew), (…, TooMany), (…, PerfectFit), tests/ArgParse.cpp:60-115. *)
Example unnamed_args_pass :
  arg_test ["a"; "xxx"] [] 5 5 = inr (ST_TOO_FEW_ARGS, [], None) /\
  arg_test ["a"; "xxx"] [] 1 1 = inr (ST_TOO_MANY_ARGS, [], Some (chars "xxx")) /\
  arg_test ["a"; "xxx"] [] 2 2 = inr (ST_SUCCESS, [unnamed (chars "a"); unnamed (chars "xxx")], None).
Proof. repeat split; vm_compute; reflexivity. Qed.
(** TEST(DashArg, MixedBoolAndValueArgs), tests/ArgParse.cpp:121-173. *)
Example dash_arg_passes :
  arg_test ["-aio42"; "-n"; "xxx"] [def "-o" false false; def "-a" true false; def "-n" false false; def "-i" true false] 0 0
  = inr (ST_SUCCESS, [flag 1; flag 3; valued 0 (chars "42"); valued 2 (chars "xxx")], None).
Proof. vm_compute. reflexivity. Qed.
(** TEST(DoubleDashArg, PerfectFit), tests/ArgParse.cpp:179-220. *)
Example double_dash_arg_passes :
  arg_test ["--help"; "--stuff"; "1337"] [def "--help" true false; def "--stuff" false false] 0 0
  = inr (ST_SUCCESS, [flag 0; valued 1 (chars "1337")], None).
Proof. vm_compute. reflexivity. Qed.
(** TEST(MixedArgs, MissingRequiredArg), TEST(MixedArgs, Stuff), tests/ArgParse.cpp:226-308. *)
Example mixed_args_pass :
  arg_test ["blah.c"; "woof.moo"] [def "--feature-xyz" true false; def "-n" false true] 0 100
  = inr (ST_REQUIRED_ARG_MISSING, [], Some (chars "-n")) /\
  arg_test ["--feature-xyz"; "-n5"; "blah.c"; "woof.moo"] [def "--feature-xyz" true false; def "-n" false false] 0 100
  = inr (ST_SUCCESS, [flag 0; valued 1 (chars "5"); unnamed (chars "blah.c"); unnamed (chars "woof.moo")], None).
Proof. repeat split; vm_compute; reflexivity. Qed.

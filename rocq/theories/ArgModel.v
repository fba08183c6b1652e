(** Model of src/ArgParse.c, function by function.  No proofs here.

    Simplifications that hold for the whole file:
    - the strings of the configuration (argv and the names of the definitions) are only read: they live in a memory of
      their own, the world [tw], in which the string functions of StringModel.v run; the vector of parsed arguments
      lives in a second memory, whose cells are bytes or bytes of a word (a pointer or a size);
    - "cfg->args" is the list of the definitions before the terminating entry (a NULL array is the empty list), a
      [const ZyanArgParseDefinition*] is the number of a definition; "cfg->argc" is the length of "cfg->argv";
    - ZYAN_STRCMP(a, b) == 0 reads both strings to their end and compares them;
    - results that C stores through an out-pointer are returned. *)
From Verif Require Import Base Status Mem VectorModel StringModel.

(** ** Memory of the parsed arguments *)
(** A word: all bytes zero, a pointer to a definition, a pointer to a character, or a size. *)
Inductive word :=
| WZero
| WDef (d : N)
| WPtr (p : ptr)
| WNum (n : N).
Inductive acell :=
| AByte (x : N)
| AWord (a : word) (k : N).
Definition word_eqb (a b : word) : bool :=
  match a, b with
  | WZero, WZero => true
  | WDef d, WDef e => d =? e
  | WPtr p, WPtr q => (pb p =? pb q) && (po p =? po q)
  | WNum n, WNum m => n =? m
  | _, _ => false
  end.
Definition acell_eqb (a b : acell) : bool :=
  match a, b with
  | AByte x, AByte y => x =? y
  | AWord a k, AWord b j => word_eqb a b && (k =? j)
  | _, _ => false
  end.
Fixpoint acells_eqb (a b : list acell) : bool :=
  match a, b with
  | [], [] => true
  | x :: a, y :: b => acell_eqb x y && acells_eqb a b
  | _, _ => false
  end.
Definition zero_cells (n : N) : list acell := repeat (AByte 0) (N.to_nat n).
Definition enc_word (a : word) : list acell :=
  match a with WZero => zero_cells 8 | _ => map (AWord a) [0; 1; 2; 3; 4; 5; 6; 7] end.
Definition dec_word (x : list acell) : option word :=
  match x with
  | AWord a _ :: _ => if acells_eqb x (enc_word a) then Some a else None
  | _ => if acells_eqb x (zero_cells 8) then Some WZero else None
  end.
Notation M := (Mem.M acell).
Notation avec := (vector acell).
Definition load_word (p : option ptr) : M word :=
  let* x := mread p 8 in match dec_word x with Some a => ret a | None => fail BadPointer end.
Definition store_word (p : option ptr) (a : word) : M unit := mwrite p (enc_word a).
Definition load_byte (p : option ptr) : M N :=
  let* x := mread p 1 in match x with [AByte x] => ret x | _ => fail BadPointer end.

(** struct ZyanArgParseArg_, include/Zycore/ArgParse.h:108-128, for 64-bit pointers: "def" at 0, "has_value" at 8,
    "value" at 16.  In struct ZyanStringView_ (String.h:131-140, Vector.h:75-109): "flags" at 0, "growth_factor" and
    "shrink_threshold" at 16 and 17, "size" at 24, "capacity" at 32, "element_size" at 40, "data" at 56; size 64. *)
Definition ARG_SIZE : N := 80.
Definition load_def (arg : option ptr) : M (option N) :=
  let* a := load_word arg in
  match a with WZero => ret None | WDef d => ret (Some d) | _ => fail BadPointer end.
Definition store_def (arg : option ptr) (d : N) : M unit := store_word arg (WDef d).
Definition load_has_value (arg : option ptr) : M bool := let* x := load_byte (padd arg 8) in ret (negb (x =? 0)).
Definition store_has_value (arg : option ptr) : M unit := mwrite (padd arg 8) [AByte 1].
Definition arg_value (arg : option ptr) : option ptr := padd arg 16.
Definition num_of (a : word) : M N := match a with WZero => ret 0 | WNum n => ret n | _ => fail BadPointer end.
(** The whole view, as the functions on views see it (no allocator, no destructor). *)
Definition load_view (q : option ptr) : M view :=
  let* flags := load_byte q in
  let* growth := load_byte (padd q 16) in
  let* shrink := load_byte (padd q 17) in
  let* a := load_word (padd q 24) in let* size := num_of a in
  let* a := load_word (padd q 32) in let* cap := num_of a in
  let* a := load_word (padd q 40) in let* esz := num_of a in
  let* a := load_word (padd q 56) in
  let* data := match a with WZero => ret None | WPtr p => ret (Some p) | _ => fail BadPointer end in
  ret (mkstr flags (mkvec false growth shrink size cap esz None data)).

(** ** Configuration *)
(** struct ZyanArgParseDefinition_, include/Zycore/ArgParse.h:51-70. *)
Record adef := mkadef { ad_name : ptr; ad_boolean : bool; ad_required : bool }.
(** struct ZyanArgParseConfig_, include/Zycore/ArgParse.h:75-103. *)
Record aconfig := mkaconfig { ac_argv : list ptr; ac_min : N; ac_max : N; ac_args : list adef }.
Definition DASH : N := 45.

Section ArgParse.
  Variable tw : world N.

  (** A computation on the strings. *)
  Definition text {A} (m : Mem.M N A) : M A := fun w =>
    match m tw with Ok a _ => Ok a w | Fault f => Fault f end.
  Definition char_at (p : ptr) (i : N) : M N := text (mread1 (padd (Some p) i)).
  Definition astrlen (p : ptr) : M N := text (mstrlen (Some p)).
  (** ZYAN_STRCMP(p, q) == 0. *)
  Definition cstring (p : ptr) : Mem.M N (list N) := let* n := mstrlen (Some p) in mread (Some p) n.
  Definition text_eqb (a b : list N) : bool := if list_eq_dec N.eq_dec a b then true else false.
  Definition astreq (p q : ptr) : M bool :=
    text (let* a := cstring p in let* b := cstring q in ret (text_eqb a b)).

  (** ZyanStringViewInsideBuffer, src/String.c:281-292, on the view at [q]. *)
  Definition aview_inside_buffer (q : option ptr) (string : ptr) : M status :=
    store_word (padd q 56) (WPtr string) ;;;
    let* n := astrlen string in
    store_word (padd q 24) (WNum (wadd n 1)) ;;;
    ret ST_SUCCESS.

  (** The syntax check of the definitions, src/ArgParse.c:61-81. *)
  Fixpoint check_defs (ds : list adef) : M bool :=
    match ds with
    | [] => ret true
    | d :: ds =>
        let* len := astrlen (ad_name d) in
        if len <? 2 then ret false else
        let* c0 := char_at (ad_name d) 0 in
        if negb (c0 =? DASH) then ret false else
        let* c1 := char_at (ad_name d) 1 in
        if negb (c1 =? DASH) && negb (len =? 2) then ret false else
        check_defs ds
    end.
  (** The search loop for double-dash arguments, src/ArgParse.c:112-119; [k] is the number of the first definition. *)
  Fixpoint find_long (ds : list adef) (k : N) (cur : ptr) : M (option N) :=
    match ds with
    | [] => ret None
    | d :: ds =>
        let* eq := astreq (ad_name d) cur in
        if eq then ret (Some k) else find_long ds (k + 1) cur
    end.
  (** The search loop for single-dash arguments, src/ArgParse.c:162-171. *)
  Fixpoint find_short (ds : list adef) (k c : N) : M (option N) :=
    match ds with
    | [] => ret None
    | d :: ds =>
        let* len := astrlen (ad_name d) in
        if negb (len =? 2) then find_short ds (k + 1) c else
        let* c0 := char_at (ad_name d) 0 in
        if negb (c0 =? DASH) then find_short ds (k + 1) c else
        let* c1 := char_at (ad_name d) 1 in
        if c1 =? c then ret (Some k) else find_short ds (k + 1) c
    end.

  Variable cfg : aconfig.

  (** How an iteration of the main loop ends: with the next iteration (index, vector, "accept_dash_args",
      "num_unnamed_args"), at "failure" (status, error token, vector), or by returning (ZYAN_CHECK). *)
  Inductive astep :=
  | ANext (i : N) (v : avec) (accept : bool) (unnamed : N)
  | AFailure (st : status) (tok : ptr) (v : avec)
  | AReturn (st : status) (v : avec).

  (** Emplace and ZYAN_MEMSET, src/ArgParse.c:107-109, 157-159 and 220-222. *)
  Definition new_arg (v : avec) : M (status * avec * option ptr) :=
    let* (st, v, arg) := vemplace v None in
    if negb (st_success st) then ret (st, v, arg) else
    mwrite arg (zero_cells ARG_SIZE) ;;;
    ret (st, v, arg).
  (** "parsed_arg->def = def" for the definition found, and the test "!parsed_arg->def",
      src/ArgParse.c:112-122 and 162-174. *)
  Definition put_def (arg : option ptr) (found : option N) : M (option N) :=
    match found with Some d => store_def arg d | None => ret tt end ;;;
    load_def arg.
  (** "parsed_arg->def->boolean". *)
  Definition is_boolean (d : N) : M bool :=
    match nnth d (ac_args cfg) with Some d => ret (ad_boolean d) | None => fail OutOfBounds end.
  (** "parsed_arg->has_value = ZYAN_TRUE" and the view of the value, src/ArgParse.c:138-139, 187-188, 200-201, 223-224. *)
  Definition put_value (arg : option ptr) (string : ptr) : M status :=
    store_has_value arg ;;;
    aview_inside_buffer (arg_value arg) string.
  (** "cfg->argv[i]". *)
  Definition argv_at (i : N) : M ptr :=
    match nnth i (ac_argv cfg) with Some p => ret p | None => fail OutOfBounds end.
  Definition argc : N := nlen (ac_argv cfg).
  (** Consume the next token as value, src/ArgParse.c:132-139 and 193-201. *)
  Definition next_value (i : N) (v : avec) (unnamed : N) (cur : ptr) (arg : option ptr) : M astep :=
    if i =? wsub argc 1 then ret (AFailure ST_ARG_MISSES_VALUE cur v) else
    let* s := argv_at (i + 1) in
    let* st := put_value arg s in
    if negb (st_success st) then ret (AReturn st v) else
    ret (ANext (i + 2) v true unnamed).

  (** A double-dash argument, src/ArgParse.c:96-145. *)
  Definition long_arg (i : N) (v : avec) (unnamed : N) (cur : ptr) : M astep :=
    let* (st, v, arg) := new_arg v in
    if negb (st_success st) then ret (AReturn st v) else
    let* found := find_long (ac_args cfg) 0 cur in
    let* def := put_def arg found in
    match def with
    | None => ret (AFailure ST_ARG_NOT_UNDERSTOOD cur v)
    | Some d =>
        let* boolean := is_boolean d in
        if boolean then ret (ANext (i + 1) v true unnamed)
        else next_value i v unnamed cur arg
    end.
  (** The loop over the characters of a single-dash argument, src/ArgParse.c:154-207.  Result: how the iteration of
      the main loop ends, or [inr] the vector if the loop runs to its end. *)
  Fixpoint short_loop (i : N) (v : avec) (unnamed : N) (cur : ptr) (r : N) (fuel : nat) : M (astep + avec) :=
    let* c := char_at cur r in
    if c =? 0 then ret (inr v) else
    match fuel with
    | O => fail OutOfFuel
    | S fuel =>
        let* (st, v, arg) := new_arg v in
        if negb (st_success st) then ret (inl (AReturn st v)) else
        let* found := find_short (ac_args cfg) 0 c in
        let* def := put_def arg found in
        match def with
        | None => ret (inl (AFailure ST_ARG_NOT_UNDERSTOOD cur v))
        | Some d =>
            let* boolean := is_boolean d in
            if boolean then short_loop i v unnamed cur (r + 1) fuel else
            let* c' := char_at cur (r + 1) in
            if negb (c' =? 0) then
              let* st := put_value arg (mkptr (pb cur) (po cur + (r + 1))) in
              if negb (st_success st) then ret (inl (AReturn st v)) else
              ret (inl (ANext (i + 1) v true unnamed))
            else
              let* s := next_value i v unnamed cur arg in
              ret (inl s)
        end
    end.
  (** An unnamed argument, src/ArgParse.c:210-224. *)
  Definition unnamed_arg (i : N) (v : avec) (accept : bool) (unnamed : N) (cur : ptr) : M astep :=
    let unnamed := wadd unnamed 1 in
    if ac_max cfg <? unnamed then ret (AFailure ST_TOO_MANY_ARGS cur v) else
    let* (st, v, arg) := new_arg v in
    if negb (st_success st) then ret (AReturn st v) else
    let* st := put_value arg cur in
    if negb (st_success st) then ret (AReturn st v) else
    ret (ANext (i + 1) v accept unnamed).
  (** One iteration of the main loop, src/ArgParse.c:92-227. *)
  Definition main_step (i : N) (v : avec) (accept : bool) (unnamed : N) : M astep :=
    let* cur := argv_at i in
    let* len := astrlen cur in
    let* dd := (if accept && (2 <=? len)
                then let* x := text (mread (Some cur) 2) in ret (text_eqb x [DASH; DASH]) else ret false) in
    if dd then
      if len =? 2 then ret (ANext (i + 1) v false unnamed)
      else long_arg i v unnamed cur
    else
      let* sd := (if accept && (1 <? len) then let* c := char_at cur 0 in ret (c =? DASH) else ret false) in
      if sd then
        let* r := short_loop i v unnamed cur 1 (N.to_nat len) in
        match r with
        | inl s => ret s
        | inr v => unnamed_arg i v accept unnamed cur
        end
      else unnamed_arg i v accept unnamed cur.
  (** The main loop, src/ArgParse.c:91-228.  Result: the vector and "num_unnamed_args", or how the loop was left. *)
  Fixpoint main_loop (i : N) (v : avec) (accept : bool) (unnamed : N) (fuel : nat) : M (astep + (avec * N)) :=
    if negb (i <? argc) then ret (inr (v, unnamed)) else
    match fuel with
    | O => fail OutOfFuel
    | S fuel =>
        let* s := main_step i v accept unnamed in
        match s with
        | ANext i v accept unnamed => main_loop i v accept unnamed fuel
        | _ => ret (inl s)
        end
    end.

  (** The search for definition [d] among the parsed arguments, src/ArgParse.c:245-258: [n] iterations from [i] on. *)
  Fixpoint find_parsed (v : avec) (d i : N) (n : nat) : M (status * bool) :=
    match n with
    | O => ret (ST_SUCCESS, false)
    | S n =>
        let* (st, arg) := vget_pointer v i in
        if negb (st_success st) then ret (st, false) else
        let* def := load_def arg in
        match def with
        | None => find_parsed v d (i + 1) n
        | Some e => if e =? d then ret (ST_SUCCESS, true) else find_parsed v d (i + 1) n
        end
    end.
  (** The check of the required arguments, src/ArgParse.c:240-266: how the function ends if not successfully. *)
  Fixpoint check_required (v : avec) (ds : list adef) (k : N) : M (option astep) :=
    match ds with
    | [] => ret None
    | d :: ds =>
        if negb (ad_required d) then check_required v ds (k + 1) else
        let* (st, found) := find_parsed v k 0 (N.to_nat (snd (vget_size v))) in
        if negb (st_success st) then ret (Some (AReturn st v)) else
        if negb found then ret (Some (AFailure ST_REQUIRED_ARG_MISSING (ad_name d) v)) else
        check_required v ds (k + 1)
    end.

  (** What happened to "*error_token": nothing, or the value stored. *)
  Notation etok := (option (option ptr)).
  (** The label "failure", src/ArgParse.c:272-274. *)
  Definition failure (err : status) (tok : etok) (v : avec) : M (status * option avec * etok) :=
    let* (st, v) := vdestroy v in
    if negb (st_success st) then ret (st, Some v, tok) else
    ret (err, Some v, tok).
  Definition leave_by (s : astep) : M (status * option avec * etok) :=
    match s with
    | AFailure err tok v => failure err (Some (Some tok)) v
    | AReturn st v => ret (st, Some v, None)
    | ANext _ _ _ _ => fail NullDeref
    end.
  (** ZyanArgParseEx, src/ArgParse.c:44-277: status, "*parsed" ([None]: not touched), "*error_token".
      [allocator = false] stands for a NULL allocator. *)
  Definition argparse_ex (allocator : bool) : M (status * option avec * etok) :=
    if ac_max cfg <? ac_min cfg then ret (ST_INVALID_ARGUMENT, None, None) else
    let* ok := check_defs (ac_args cfg) in
    if negb ok then ret (ST_INVALID_ARGUMENT, None, None) else
    let* (st, ov) := vinit_ex ARG_SIZE argc None allocator VECTOR_DEFAULT_GROWTH VECTOR_DEFAULT_SHRINK in
    match ov with
    | None => ret (st, None, None)
    | Some v =>
        if negb (st_success st) then ret (st, Some v, None) else
        let* r := main_loop 1 v true 0 (N.to_nat argc) in
        match r with
        | inl s => leave_by s
        | inr (v, unnamed) =>
            if unnamed <? ac_min cfg then failure ST_TOO_FEW_ARGS None v else
            let* r := check_required v (ac_args cfg) 0 in
            match r with
            | Some s => leave_by s
            | None => ret (ST_SUCCESS, Some v, Some None)
            end
        end
    end.
  (** ZyanArgParse, src/ArgParse.c:36-40. *)
  Definition argparse : M (status * option avec * etok) := argparse_ex true.
End ArgParse.

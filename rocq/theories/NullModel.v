(** The exported functions of src/Vector.c, String.c, Bitset.c, List.c and Format.c once more, now with every pointer
    parameter nullable.  The other models leave out the checks for NULL of the object itself and of out-parameters;
    here they are.  What a call does after these checks is the function of the same name in the other models.

    A pointer to an object is [None] (NULL) or the object it points to; an out-parameter is a flag that says whether a
    pointer was given.  Storing through NULL is a fault.  An object on which an Init call fails may have some fields
    written by then (src/String.c:72, 93, src/Bitset.c:152, 175); the model shows it as unchanged.  No proofs here. *)
From Verif Require Import Base Status Mem VectorModel StringModel FormatModel BitsetModel ListModel.

Inductive nret := NStatus (st : status) | NPtr (p : option ptr).
Inductive nout := NoOut | OutPtr (p : option ptr) | OutNum (n : N) | OutIndex (i : option N) | OutInt (z : Z).

Section Null.
  Context {C O : Type}.
  Notation R := (nret * option O * nout)%type.
  (** "return ZYAN_STATUS_INVALID_ARGUMENT". *)
  Definition refuse_null (o : option O) : Mem.M C R := ret (NStatus ST_INVALID_ARGUMENT, o, NoOut).
  (** A call on the object. *)
  Definition updates (m : Mem.M C (status * O)) : Mem.M C R := let* (st, o) := m in ret (NStatus st, Some o, NoOut).
  (** A call that initialises the object. *)
  Definition creates (old : option O) (m : Mem.M C (status * option O)) : Mem.M C R :=
    let* (st, o) := m in ret (NStatus st, match o with Some o => Some o | None => old end, NoOut).
  (** A call that answers with a status only. *)
  Definition answers (o : O) (m : Mem.M C status) : Mem.M C R := let* st := m in ret (NStatus st, Some o, NoOut).
  (** "*out = x". *)
  Definition stores (out : bool) (o : O) (st : status) (x : nout) : Mem.M C R :=
    if out then ret (NStatus st, Some o, x) else fail NullDeref.
  (** "if (!object) return ZYAN_STATUS_INVALID_ARGUMENT;". *)
  Definition checked_object (o : option O) (k : O -> Mem.M C R) : Mem.M C R :=
    match o with None => refuse_null o | Some x => k x end.
End Null.

(** ** src/Vector.c *)
Section NullVector.
  Context {C : Type}.
  Notation M := (Mem.M C).
  Notation vec := (vector C).
  Notation R := (M (nret * option vec * nout)).
  Notation dtor := (option (list C -> list C)).
  Notation ctor := (option (list C -> status * list C)).

  (** InitEx, 192-214 (guard 196). *)
  Definition n_vinit_ex (v : option vec) (e cap : N) (d : dtor) (al : bool) (g s : N) : R :=
    checked_object v (fun _ => creates v (vinit_ex e cap d al g s)).
  (** Init, 183-188. *)
  Definition n_vinit (v : option vec) (e cap : N) (d : dtor) : R :=
    n_vinit_ex v e cap d true VECTOR_DEFAULT_GROWTH VECTOR_DEFAULT_SHRINK.
  (** InitCustomBuffer, 216-234 (219). *)
  Definition n_vinit_custom (v : option vec) (e : N) (buffer : option ptr) (cap : N) (d : dtor) : R :=
    checked_object v (fun _ => creates v (vinit_custom e buffer cap d)).
  (** Destroy, 236-263 (238). *)
  Definition n_vdestroy (v : option vec) : R := checked_object v (fun v => updates (vdestroy v)).
  (** DuplicateEx, 280-299 (283); the destination is checked by InitEx (291). *)
  Definition n_vduplicate_ex (d s : option vec) (cap : N) (al : bool) (g t : N) : R :=
    match s with
    | None => refuse_null d
    | Some s => checked_object d (fun _ => creates d (vduplicate_ex s cap al g t))
    end.
  (** Duplicate, 271-276. *)
  Definition n_vduplicate (d s : option vec) (cap : N) : R :=
    n_vduplicate_ex d s cap true VECTOR_DEFAULT_GROWTH VECTOR_DEFAULT_SHRINK.
  (** DuplicateCustomBuffer, 301-324 (304, 311); the destination is checked by InitCustomBuffer (316). *)
  Definition n_vduplicate_custom (d s : option vec) (buffer : option ptr) (cap : N) : R :=
    match s with
    | None => refuse_null d
    | Some s =>
        if cap <? v_size s then ret (NStatus ST_INSUFFICIENT_BUFFER_SIZE, d, NoOut)
        else checked_object d (fun _ => creates d (vduplicate_custom s buffer cap))
    end.
  (** Get and GetMutable, 330-354 (332, 345). *)
  Definition n_vget (v : option vec) (i : N) : R :=
    match v with None => ret (NPtr None, v, NoOut) | Some x => let* p := vget x i in ret (NPtr p, v, NoOut) end.
  (** GetPointer and GetPointerMutable, 356-392 (358, 377). *)
  Definition n_vget_pointer (v : option vec) (i : N) (value : bool) : R :=
    checked_object v (fun x => if negb value then refuse_null v else
      let* (st, p) := vget_pointer x i in ret (NStatus st, v, if st_success st then OutPtr p else NoOut)).
  (** Set, 394-416 (396). *)
  Definition n_vset (v : option vec) (i : N) (value : option ptr) : R := checked_object v (fun v => updates (vset v i value)).
  (** PushBack, 422-444 (424). *)
  Definition n_vpush_back (v : option vec) (element : option ptr) : R :=
    checked_object v (fun v => updates (vpush_back v element)).
  (** InsertRange, 451-482 (454). *)
  Definition n_vinsert_range (v : option vec) (i : N) (elements : option ptr) (n : N) : R :=
    checked_object v (fun v => updates (vinsert_range v i elements n)).
  (** Insert, 446-449. *)
  Definition n_vinsert (v : option vec) (i : N) (element : option ptr) : R := n_vinsert_range v i element 1.
  (** EmplaceEx, 494-529 (497); [element] is stored through at line 520, after growing and shifting, without a check. *)
  Definition n_vemplace_ex (v : option vec) (i : N) (element : bool) (f : ctor) : R :=
    checked_object v (fun v =>
      if element then
        let* (st, v, p) := vemplace_ex v i f in
        ret (NStatus st, Some v, OutPtr p)
      else
        let* (st, v, _) := vemplace_ex v i None in
        if st_success st then fail NullDeref else ret (NStatus st, Some v, NoOut)).
  (** Emplace, 484-492 (486). *)
  Definition n_vemplace (v : option vec) (element : bool) (f : ctor) : R :=
    checked_object v (fun x => n_vemplace_ex v (v_size x) element f).
  (** SwapElements, 535-562 (537). *)
  Definition n_vswap (v : option vec) (i j : N) : R := checked_object v (fun v => updates (vswap v i j)).
  (** DeleteRange, 573-605 (575); Delete, 568-571. *)
  Definition n_vdelete_range (v : option vec) (i n : N) : R := checked_object v (fun v => updates (vdelete_range v i n)).
  Definition n_vdelete (v : option vec) (i : N) : R := n_vdelete_range v i 1.
  (** PopBack, 607-631 (609). *)
  Definition n_vpop_back (v : option vec) : R := checked_object v (fun v => updates (vpop_back v)).
  (** ResizeEx, 752-789 (754); Clear, 633-636; Resize, 747-750. *)
  Definition n_vresize_ex (v : option vec) (n : N) (initializer : option ptr) : R :=
    checked_object v (fun v => updates (vresize_ex v n initializer)).
  Definition n_vclear (v : option vec) : R := n_vresize_ex v 0 None.
  Definition n_vresize (v : option vec) (n : N) : R := n_vresize_ex v n None.
  (** FindEx, 653-685 (656); neither the comparison nor [found_index] is checked.  [cmp] = [None]: NULL is called. *)
  Definition n_vfind_ex (v : option vec) (element : option ptr) (found : bool) (cmp : option (list C -> list C -> bool))
      (i n : N) : R :=
    checked_object v (fun v =>
      if (v_size v <? wadd i n) || (i =? v_size v) then ret (NStatus ST_OUT_OF_RANGE, Some v, NoOut) else
      if n =? 0 then stores found v ST_FALSE (OutIndex None) else
      match cmp with
      | None => fail NullDeref
      | Some cmp => let* (st, x) := vfind_ex v element cmp i n in stores found v st (OutIndex x)
      end).
  (** Find, 642-651 (645). *)
  Definition n_vfind (v : option vec) (element : option ptr) (found : bool) (cmp : option (list C -> list C -> bool)) : R :=
    checked_object v (fun x => n_vfind_ex v element found cmp 0 (v_size x)).
  (** BinarySearchEx, 698-741 (701). *)
  Definition n_vbinary_search_ex (v : option vec) (element : option ptr) (found : bool) (cmp : option (list C -> list C -> Z))
      (i n : N) : R :=
    checked_object v (fun v =>
      if ((v_size v <=? i) && (0 <? n)) || (v_size v <? wadd i n) then ret (NStatus ST_OUT_OF_RANGE, Some v, NoOut) else
      if n =? 0 then stores found v ST_FALSE (OutIndex (Some i)) else
      match cmp with
      | None => fail NullDeref
      | Some cmp => let* (st, x) := vbinary_search_ex v element cmp i n in stores found v st (OutIndex x)
      end).
  (** BinarySearch, 687-696 (690). *)
  Definition n_vbinary_search (v : option vec) (element : option ptr) (found : bool) (cmp : option (list C -> list C -> Z)) : R :=
    checked_object v (fun x => n_vbinary_search_ex v element found cmp 0 (v_size x)).
  (** Reserve, 791-804 (793); ShrinkToFit, 806-814 (808). *)
  Definition n_vreserve (v : option vec) (n : N) : R := checked_object v (fun v => updates (vreserve v n)).
  Definition n_vshrink_to_fit (v : option vec) : R := checked_object v (fun v => updates (vshrink_to_fit v)).
  (** GetCapacity, 820-830 (822); GetSize, 832-842 (834). *)
  Definition n_vget_capacity (v : option vec) (out : bool) : R :=
    checked_object v (fun v => let (st, n) := vget_capacity v in stores out v st (OutNum n)).
  Definition n_vget_size (v : option vec) (out : bool) : R :=
    checked_object v (fun v => let (st, n) := vget_size v in stores out v st (OutNum n)).
End NullVector.

(** ** src/String.c *)
Notation M := (Mem.M N).
Notation R := (M (nret * option str * nout)).
(** InitEx, 64-84 (67); Init, 56-60. *)
Definition n_sinit_ex (s : option str) (cap : N) (al : bool) (g t : N) : R :=
  checked_object s (fun _ => creates s (sinit_ex cap al g t)).
Definition n_sinit (s : option str) (cap : N) : R := n_sinit_ex s cap true STRING_DEFAULT_GROWTH STRING_DEFAULT_SHRINK.
(** InitCustomBuffer, 86-104 (88); the buffer is checked by ZyanVectorInitCustomBuffer (94). *)
Definition n_sinit_custom (s : option str) (buffer : option ptr) (cap : N) : R :=
  checked_object s (fun _ => creates s (sinit_custom buffer cap)).
(** Destroy, 106-118 (108). *)
Definition n_sdestroy (s : option str) : R := checked_object s (fun s => updates (sdestroy s)).
(** DuplicateEx, 135-154 (138), Duplicate, 126-131; the destination is checked by InitEx (145). *)
Definition n_sduplicate_ex (d : option str) (s : option view) (cap : N) (al : bool) (g t : N) : R :=
  match s with
  | None => refuse_null d
  | Some s => if ssize s =? 0 then refuse_null d else checked_object d (fun _ => creates d (sduplicate_ex s cap al g t))
  end.
Definition n_sduplicate (d : option str) (s : option view) (cap : N) : R :=
  n_sduplicate_ex d s cap true STRING_DEFAULT_GROWTH STRING_DEFAULT_SHRINK.
(** DuplicateCustomBuffer, 156-179 (159, 165). *)
Definition n_sduplicate_custom (d : option str) (s : option view) (buffer : option ptr) (cap : N) : R :=
  match s with
  | None => refuse_null d
  | Some s =>
      if ssize s =? 0 then refuse_null d else
      if cap <? ssize s then ret (NStatus ST_INSUFFICIENT_BUFFER_SIZE, d, NoOut)
      else checked_object d (fun _ => creates d (sduplicate_custom s buffer cap))
  end.
(** ConcatEx, 196-217 (200), Concat, 187-192. *)
Definition n_sconcat_ex (d : option str) (s1 s2 : option view) (cap : N) (al : bool) (g t : N) : R :=
  match s1, s2 with
  | Some s1, Some s2 =>
      if (ssize s1 =? 0) || (ssize s2 =? 0) then refuse_null d
      else checked_object d (fun _ => creates d (sconcat_ex s1 s2 cap al g t))
  | _, _ => refuse_null d
  end.
Definition n_sconcat (d : option str) (s1 s2 : option view) (cap : N) : R :=
  n_sconcat_ex d s1 s2 cap true STRING_DEFAULT_GROWTH STRING_DEFAULT_SHRINK.
(** ConcatCustomBuffer, 219-243 (222, 228). *)
Definition n_sconcat_custom (d : option str) (s1 s2 : option view) (buffer : option ptr) (cap : N) : R :=
  match s1, s2 with
  | Some s1, Some s2 =>
      if (ssize s1 =? 0) || (ssize s2 =? 0) then refuse_null d else
      if cap <? wsub (wadd (ssize s1) (ssize s2)) 1 then ret (NStatus ST_INSUFFICIENT_BUFFER_SIZE, d, NoOut)
      else checked_object d (fun _ => creates d (sconcat_custom s1 s2 buffer cap))
  | _, _ => refuse_null d
  end.
(** ViewInsideView, 249-260 (251); ViewInsideViewEx, 262-279 (265); ViewInsideBuffer, 281-292 (283);
    ViewInsideBufferEx, 294-305 (296). *)
Definition n_view_inside_view (v s : option view) : R :=
  checked_object v (fun x => match s with None => refuse_null v | Some s => updates (ret (view_inside_view x s)) end).
Definition n_view_inside_view_ex (v s : option view) (i n : N) : R :=
  checked_object v (fun x => match s with None => refuse_null v | Some s => updates (ret (view_inside_view_ex x s i n)) end).
Definition n_view_inside_buffer (v : option view) (string : option ptr) : R :=
  checked_object v (fun x => updates (view_inside_buffer x string)).
Definition n_view_inside_buffer_ex (v : option view) (buffer : option ptr) (n : N) : R :=
  checked_object v (fun x => updates (ret (view_inside_buffer_ex x buffer n))).
(** ViewGetSize, 307-318 (309); ViewGetData, 320-330 (322). *)
Definition n_view_get_size (v : option view) (out : bool) : R :=
  checked_object v (fun x => if negb out then refuse_null v else
    let* (st, n) := view_get_size x in stores out x st (OutNum n)).
Definition n_view_get_data (v : option view) (out : bool) : R :=
  checked_object v (fun x => if negb out then refuse_null v else
    let (st, p) := view_get_data x in stores out x st (OutPtr p)).
(** GetChar, 336-354 (338). *)
Definition n_sget_char (s : option view) (i : N) (out : bool) : R :=
  checked_object s (fun x => if negb out then refuse_null s else
    let* (st, c) := sget_char x i in
    ret (NStatus st, s, match c with Some c => OutNum c | None => NoOut end)).
(** GetCharMutable, 356-370 (358); [value] is checked by ZyanVectorGetPointerMutable (369). *)
Definition n_sget_char_mutable (s : option str) (i : N) (out : bool) : R :=
  checked_object s (fun x =>
    if ssize x <=? wadd i 1 then ret (NStatus ST_OUT_OF_RANGE, s, NoOut) else
    if negb out then refuse_null s else
    let* (st, p) := vget_pointer (s_vec x) i in ret (NStatus st, s, if st_success st then OutPtr p else NoOut)).
(** SetChar, 372-386 (374); [value] is the address of the parameter. *)
Definition n_sset_char (s : option str) (i : N) (value : option ptr) : R := checked_object s (fun s => updates (sset_char s i value)).
(** Insert, 392-415 (394); InsertEx, 417-447 (420); Append, 453-467 (455); AppendEx, 469-490 (472). *)
Definition n_sinsert (d : option str) (i : N) (s : option view) : R :=
  checked_object d (fun x => match s with None => refuse_null d | Some s => updates (sinsert x i s) end).
Definition n_sinsert_ex (d : option str) (i : N) (s : option view) (j n : N) : R :=
  checked_object d (fun x => match s with None => refuse_null d | Some s => updates (sinsert_ex x i s j n) end).
Definition n_sappend (d : option str) (s : option view) : R :=
  checked_object d (fun x => match s with None => refuse_null d | Some s => updates (sappend x s) end).
Definition n_sappend_ex (d : option str) (s : option view) (j n : N) : R :=
  checked_object d (fun x => match s with None => refuse_null d | Some s => updates (sappend_ex x s j n) end).
(** Delete, 496-513 (498); Truncate, 515-532 (517); Clear, 534-549 (536). *)
Definition n_sdelete (s : option str) (i n : N) : R := checked_object s (fun s => updates (sdelete s i n)).
Definition n_struncate (s : option str) (i : N) : R := checked_object s (fun s => updates (struncate s i)).
Definition n_sclear (s : option str) : R := checked_object s (fun s => updates (sclear s)).
(** LPosEx, 566-618 (569), LPosIEx, 631-689, RPosEx, 703-756 (706), RPosIEx, 770-833; [eqc] compares characters. *)
Definition n_slpos_ex (eqc : byte -> byte -> bool) (h n : option view) (found : bool) (i k : N) : R :=
  checked_object h (fun x => match n with
    | None => refuse_null h
    | Some n => if negb found then refuse_null h else
        let* (st, r) := slpos_ex eqc x n i k in
        ret (NStatus st, h, if st_success st then OutIndex r else NoOut)
    end).
Definition n_srpos_ex (eqc : byte -> byte -> bool) (h n : option view) (found : bool) (i k : N) : R :=
  checked_object h (fun x => match n with
    | None => refuse_null h
    | Some n => if negb found then refuse_null h else
        let* (st, r) := srpos_ex eqc x n i k in
        ret (NStatus st, h, if st_success st then OutIndex r else NoOut)
    end).
(** LPos, 555-564 (558), LPosI, 620-629 (623), RPos, 691-701 (694), RPosI, 758-768 (761). *)
Definition n_slpos (eqc : byte -> byte -> bool) (h n : option view) (found : bool) : R :=
  checked_object h (fun x => n_slpos_ex eqc h n found 0 (wsub (ssize x) 1)).
Definition n_srpos (eqc : byte -> byte -> bool) (h n : option view) (found : bool) : R :=
  checked_object h (fun x => n_srpos_ex eqc h n found (wsub (ssize x) 1) (wsub (ssize x) 1)).
(** Compare, 835-879 (837), CompareI, 881-929 (887); [result] is stored through without a check. *)
Definition n_scompare (eqc : byte -> byte -> bool) (s1 s2 : option view) (result : bool) : R :=
  checked_object s1 (fun x => match s2 with
    | None => refuse_null s1
    | Some y => let* (st, z) := scompare eqc x y in stores result x st (OutInt z)
    end).
(** ToLowerCaseEx, 945-974, ToUpperCaseEx, 986-1015; ToLowerCase, 935-943 (937), ToUpperCase, 976-984 (978). *)
Definition n_scase_ex (step : byte -> option byte) (s : option str) (i n : N) : R :=
  checked_object s (fun s => updates (scase_ex step s i n)).
Definition n_scase (step : byte -> option byte) (s : option str) : R := checked_object s (fun s => updates (scase step s)).
(** Resize, 1021-1032 (1023); Reserve, 1034-1042 (1036); ShrinkToFit, 1044-1052 (1046). *)
Definition n_sresize (s : option str) (n : N) : R := checked_object s (fun s => updates (sresize s n)).
Definition n_sreserve (s : option str) (n : N) : R := checked_object s (fun s => updates (sreserve s n)).
Definition n_sshrink_to_fit (s : option str) : R := checked_object s (fun s => updates (sshrink_to_fit s)).
(** GetCapacity, 1058-1069 (1060); GetSize, 1071-1082 (1073); GetData, 1084-1094 (1086); out-parameters not checked. *)
Definition n_sget_capacity (s : option str) (out : bool) : R :=
  checked_object s (fun s => let* (st, n) := sget_capacity s in stores out s st (OutNum n)).
Definition n_sget_size (s : option str) (out : bool) : R :=
  checked_object s (fun s => let* (st, n) := sget_size s in stores out s st (OutNum n)).
Definition n_sget_data (s : option str) (out : bool) : R :=
  checked_object s (fun s => let (st, p) := sget_data s in stores out s st (OutPtr p)).

(** ** src/Format.c *)
(** ZyanStringAppendDecU32, 87-130 (89), ZyanStringAppendDecU64, 133-175 (135), ZyanStringAppendHexU32, 183-252 (186),
    ZyanStringAppendHexU64, 254-366 (257), behind AppendDecU, 424-436, and AppendHexU, 464-477. *)
Definition n_sappend_decu (is64 : bool) (s : option str) (value padding : N) : R :=
  checked_object s (fun s => updates (sappend_decu is64 s value padding)).
Definition n_sappend_hexu (is64 : bool) (s : option str) (value padding : N) (upper : bool) : R :=
  checked_object s (fun s => updates (sappend_hexu is64 s value padding upper)).
(** AppendDecS, 438-462, and AppendHexS, 479-503, have no check of their own: the first Append, or the final call, has. *)
Definition n_sappend_signed (sub add : view) (s : option str) (value : Z) (force_sign : bool) (prefix : option view)
  (digits : option str -> N -> R) : R :=
  let sign := if (value <? 0)%Z then Some sub else if force_sign then Some add else None in
  let* (r, s, _) := match sign with Some q => n_sappend s (Some q) | None => ret (NStatus ST_SUCCESS, s, NoOut) end in
  match r with
  | NStatus st =>
      if negb (st_success st) then ret (r, s, NoOut) else
      let* (r, s, _) := match prefix with Some q => n_sappend s (Some q) | None => ret (NStatus ST_SUCCESS, s, NoOut) end in
      match r with
      | NStatus st =>
          if negb (st_success st) then ret (r, s, NoOut) else
          digits s (if (value <? 0)%Z then abs_i64 value else Z.to_N value)
      | _ => fail BadPointer
      end
  | _ => fail BadPointer
  end.
Definition n_sappend_decs (is64 : bool) (sub add : view) (s : option str) (value : Z) (padding : N) (force_sign : bool)
  (prefix : option view) : R :=
  n_sappend_signed sub add s value force_sign prefix (fun s v => n_sappend_decu is64 s v padding).
Definition n_sappend_hexs (is64 : bool) (sub add : view) (s : option str) (value : Z) (padding : N)
  (upper force_sign : bool) (prefix : option view) : R :=
  n_sappend_signed sub add s value force_sign prefix (fun s v => n_sappend_hexu is64 s v padding upper).
(** AppendFormat, 372-418 (374); [format]: a format was given. *)
Definition n_sappend_format (format : bool) (f1 f2 : formatted) (s : option str) : R :=
  checked_object s (fun x => if negb format then refuse_null s else updates (sappend_format f1 f2 x)).

(** ** src/Bitset.c *)
Notation RB := (M (nret * option bitset * nout)).
(** InitEx, 142-158 (145); Init, 134-138; InitBuffer, 160-180 (163); Destroy, 182-190 (184). *)
Definition n_bs_init_ex (zero : option ptr) (b : option bitset) (n : N) (al : bool) (g s : N) : RB :=
  checked_object b (fun _ => creates b (bs_init_ex zero n al g s)).
Definition n_bs_init (zero : option ptr) (b : option bitset) (n : N) : RB :=
  n_bs_init_ex zero b n true BITSET_GROWTH BITSET_SHRINK.
Definition n_bs_init_buffer (zero : option ptr) (b : option bitset) (n : N) (buffer : option ptr) (cap : N) : RB :=
  checked_object b (fun _ => creates b (bs_init_buffer zero n buffer cap)).
Definition n_bs_destroy (b : option bitset) : RB := checked_object b (fun b => updates (bs_destroy b)).
(** PerformByteOperation, 196-224 (199); AND, OR, XOR, 226-239, pass their arguments on. *)
Definition n_bs_byte_op (op : option (byte -> byte -> status * byte)) (d s : option bitset) : RB :=
  checked_object d (fun x => match s, op with
    | Some s, Some op => answers x (bs_byte_op op x s)
    | _, _ => refuse_null d
    end).
Definition n_bs_and := n_bs_byte_op (Some op_and).
Definition n_bs_or := n_bs_byte_op (Some op_or).
Definition n_bs_xor := n_bs_byte_op (Some op_xor).
(** Flip, 241-258 (243); Set, 264-281 (266); Reset, 283-299 (285); Toggle, 310-326 (312); Assign, 301-308. *)
Definition n_bs_flip (b : option bitset) : RB := checked_object b (fun b => answers b (bs_flip b)).
Definition n_bs_set (b : option bitset) (i : N) : RB := checked_object b (fun b => answers b (bs_set b i)).
Definition n_bs_reset (b : option bitset) (i : N) : RB := checked_object b (fun b => answers b (bs_reset b i)).
Definition n_bs_toggle (b : option bitset) (i : N) : RB := checked_object b (fun b => answers b (bs_toggle b i)).
Definition n_bs_assign (b : option bitset) (i : N) (value : bool) : RB := if value then n_bs_set b i else n_bs_reset b i.
(** Test, 328-346 (330); TestMSB, 348-356 (350); TestLSB, 358-361. *)
Definition n_bs_test (b : option bitset) (i : N) : RB := checked_object b (fun b => answers b (bs_test b i)).
Definition n_bs_test_msb (b : option bitset) : RB := checked_object b (fun x => n_bs_test b (wsub (bs_size x) 1)).
Definition n_bs_test_lsb (b : option bitset) : RB := n_bs_test b 0.
(** SetAll, 365-382 (367); ResetAll, 384-401 (386). *)
Definition n_bs_set_all (b : option bitset) : RB := checked_object b (fun b => answers b (bs_set_all b)).
Definition n_bs_reset_all (b : option bitset) : RB := checked_object b (fun b => answers b (bs_reset_all b)).
(** Push, 407-421 (409); Pop, 423-436 (425); Clear, 438-447 (440). *)
Definition n_bs_push (zero : option ptr) (b : option bitset) (value : bool) : RB :=
  checked_object b (fun b => updates (bs_push zero b value)).
Definition n_bs_pop (b : option bitset) : RB := checked_object b (fun b => updates (bs_pop b)).
Definition n_bs_clear (b : option bitset) : RB := checked_object b (fun b => updates (bs_clear b)).
(** Reserve, 453-456, and ShrinkToFit, 458-461: "&bitset->bits" of a NULL bitset is not NULL, since [bits] is not the
    first member (include/Zycore/Bitset.h:56-66), so that the check in the vector function does not help. *)
Definition n_bs_reserve (b : option bitset) (n : N) : RB :=
  match b with None => fail NullDeref | Some b => updates (bs_reserve b n) end.
Definition n_bs_shrink_to_fit (b : option bitset) : RB :=
  match b with None => fail NullDeref | Some b => updates (bs_shrink_to_fit b) end.
(** GetSize, 467-477 (469); GetSizeBytes, 487-495 (489); GetCapacityBytes, 497-505 (499); GetCapacity, 479-485. *)
Definition n_bs_get_size (b : option bitset) (out : bool) : RB :=
  checked_object b (fun b => let (st, n) := bs_get_size b in stores out b st (OutNum n)).
Definition n_bs_get_size_bytes (b : option bitset) (out : bool) : RB :=
  checked_object b (fun b => let (st, n) := bs_get_size_bytes b in stores out b st (OutNum n)).
Definition n_bs_get_capacity_bytes (b : option bitset) (out : bool) : RB :=
  checked_object b (fun b => let (st, n) := bs_get_capacity_bytes b in stores out b st (OutNum n)).
Definition n_bs_get_capacity (b : option bitset) (out : bool) : RB :=
  checked_object b (fun b => let (st, n) := bs_get_capacity b in stores out b st (OutNum n)).
(** Count, 509-536 (511); All, 538-568 (540); Any, 570-600 (572); None, 602-632 (604). *)
Definition n_bs_count (b : option bitset) (out : bool) : RB :=
  checked_object b (fun x => if negb out then refuse_null b else let* (st, n) := bs_count x in stores out x st (OutNum n)).
Definition n_bs_all (b : option bitset) : RB := checked_object b (fun b => answers b (bs_all b)).
Definition n_bs_any (b : option bitset) : RB := checked_object b (fun b => answers b (bs_any b)).
Definition n_bs_none (b : option bitset) : RB := checked_object b (fun b => answers b (bs_none b)).

(** ** src/List.c *)
Notation ML := (Mem.M cell).
Notation RL := (ML (nret * option zlist * nout)).
(** InitEx, 140-159 (143); Init, 132-136; InitCustomBuffer, 161-180 (164); Destroy, 182-218 (184). *)
Definition n_linit_ex (l : option zlist) (e : N) (d : option (element -> element)) (al : bool) : RL :=
  checked_object l (fun _ => creates l (linit_ex e d al)).
Definition n_linit (l : option zlist) (e : N) (d : option (element -> element)) : RL := n_linit_ex l e d true.
Definition n_linit_custom (l : option zlist) (e : N) (d : option (element -> element)) (buffer : option ptr) (cap : N) : RL :=
  checked_object l (fun _ => creates l (linit_custom e d buffer cap)).
Definition n_ldestroy (l : option zlist) : RL := checked_object l (fun l => updates (ldestroy l)).
(** GetHeadNode, 224-234 (226); GetTailNode, 236-246 (238); the out-parameter is not checked. *)
Definition n_lget_head (l : option zlist) (out : bool) : RL :=
  checked_object l (fun l => let (st, p) := lget_head l in stores out l st (OutPtr p)).
Definition n_lget_tail (l : option zlist) (out : bool) : RL :=
  checked_object l (fun l => let (st, p) := lget_tail l in stores out l st (OutPtr p)).
(** GetPrevNode, 248-258 (250); GetNextNode, 260-270 (262): [node] is the in/out-parameter, with the node it holds. *)
Definition n_lget_prev_node (node : option (option ptr)) : ML (nret * nout) :=
  match node with
  | None => ret (NStatus ST_INVALID_ARGUMENT, NoOut)
  | Some p => let* (st, q) := lget_prev_node p in ret (NStatus st, OutPtr q)
  end.
Definition n_lget_next_node (node : option (option ptr)) : ML (nret * nout) :=
  match node with
  | None => ret (NStatus ST_INVALID_ARGUMENT, NoOut)
  | Some p => let* (st, q) := lget_next_node p in ret (NStatus st, OutPtr q)
  end.
(** GetNodeDataEx, 282-292 (284), GetNodeDataMutableEx, 304-314 (306): [value] is not checked. *)
Definition n_lget_node_data_ex (node : option ptr) (out : bool) : ML (nret * nout) :=
  let (st, p) := lget_node_data_ex node in
  if negb (st_success st) then ret (NStatus st, NoOut) else
  if out then ret (NStatus st, OutPtr p) else fail NullDeref.
(** SetNodeData, 316-332 (318). *)
Definition n_lset_node_data (l : option zlist) (node value : option ptr) : RL :=
  checked_object l (fun l => answers l (lset_node_data l node value)).
(** PushBack, 338-364 (340); PushFront, 366-392 (368). *)
Definition n_lpush_back (l : option zlist) (item : option ptr) : RL := checked_object l (fun l => updates (lpush_back l item)).
Definition n_lpush_front (l : option zlist) (item : option ptr) : RL := checked_object l (fun l => updates (lpush_front l item)).
(** EmplaceBack, 394-424 (396); EmplaceFront, 426-456 (428). *)
Definition n_lemplace_back (l : option zlist) (item : bool) (f : option (element -> element)) : RL :=
  checked_object l (fun x => if negb item then refuse_null l else
    let* (st, x, p) := lemplace_back x f in ret (NStatus st, Some x, if st_success st then OutPtr p else NoOut)).
Definition n_lemplace_front (l : option zlist) (item : bool) (f : option (element -> element)) : RL :=
  checked_object l (fun x => if negb item then refuse_null l else
    let* (st, x, p) := lemplace_front x f in ret (NStatus st, Some x, if st_success st then OutPtr p else NoOut)).
(** PopBack, 462-492 (464); PopFront, 494-524 (496). *)
Definition n_lpop_back (l : option zlist) : RL := checked_object l (fun l => updates (lpop_back l)).
Definition n_lpop_front (l : option zlist) : RL := checked_object l (fun l => updates (lpop_front l)).
(** Remove, 526-531; RemoveRange, 533-539: the arguments are ignored. *)
Definition n_lremove (l : option zlist) (node : option ptr) : RL := ret (NStatus ST_SUCCESS, l, NoOut).
Definition n_lremove_range (l : option zlist) (first last : option ptr) : RL := ret (NStatus ST_SUCCESS, l, NoOut).
(** ResizeEx, 561-653 (563); Clear, 541-544; Resize, 556-559. *)
Definition n_lresize_ex (l : option zlist) (n : N) (initializer : option ptr) : RL :=
  checked_object l (fun l => updates (lresize_ex l n initializer)).
Definition n_lclear (l : option zlist) : RL := n_lresize_ex l 0 None.
Definition n_lresize (l : option zlist) (n : N) : RL := n_lresize_ex l n None.
(** GetSize, 659-669 (661); the out-parameter is not checked. *)
Definition n_lget_size (l : option zlist) (out : bool) : RL :=
  checked_object l (fun l => let (st, n) := lget_size l in stores out l st (OutNum n)).

(** Client programs of the argument parser.  No proofs here. *)
From Verif Require Import Base Status Mem VectorModel VectorDriver StringModel StringDriver ArgModel ArgSpec.

(** At [p] there is the C string [x]. *)
Definition cstring_at (tw : world N) (p : ptr) (x : token) : Prop :=
  Forall (fun c => c <> 0) x /\ nlen x + 1 < W64 /\
  exists a c, heap tw (pb p) = Some (a ++ (x ++ [0]) ++ c) /\ po p = nlen a.
(** The configuration [cfg] says: tokens [ts] (with the program name in front), definitions [ds]. *)
Definition def_is (tw : world N) (d : adef) (x : sdef) : Prop :=
  cstring_at tw (ad_name d) (sd_name x) /\ ad_boolean d = sd_boolean x /\ ad_required d = sd_required x.
Definition config_is (tw : world N) (cfg : aconfig) (prog : token) (ts : list token) (ds : list sdef) : Prop :=
  Forall2 (cstring_at tw) (ac_argv cfg) (prog :: ts) /\ Forall2 (def_is tw) (ac_args cfg) ds.
(** The number of entries that tokens can have (each character may be a flag), times the size of an entry and the
    growth factor of the vector, fits into memory. *)
Fixpoint arg_demand (ts : list token) : N :=
  match ts with [] => 1 | t :: ts => nlen t + 1 + arg_demand ts end.
Definition arg_room (ts : list token) : Prop := (arg_demand ts + 1) * 160 < W64.

(** Read the [i]-th parsed argument: definition, has_value, value. *)
Definition get_arg (v : avec) (i : N) : M (option N * bool * view) :=
  let* (_, arg) := vget_pointer v i in
  let* d := load_def arg in
  let* h := load_has_value arg in
  let* q := load_view (arg_value arg) in
  ret (d, h, q).
(** [v] holds the entries [es]: GetSize, and each element's fields; the values are views of the texts. *)
Definition ashows (tw : world N) (w : world acell) (v : avec) (es : list entry) : Prop :=
  vget_size v = (ST_SUCCESS, nlen es) /\
  forall i e, nnth i es = Some e ->
    exists q, get_arg v i w = Ok (e_def e, nonnull (e_value e), q) w /\
      match e_value e with Some x => views tw q x | None => True end.
(** What is stored through "error_token", as a text: not touched, NULL, a token. *)
Definition etok_is (tw : world N) (tok : option (option ptr)) (t : option token) : Prop :=
  match t with
  | None => tok = None
  | Some t => exists p, tok = Some (Some p) /\ cstring_at tw p t
  end.
(** The call gave the outcome [o]: on success the vector holds the entries and error_token is NULL; on an error nothing
    is allocated any more. *)
Definition delivered (tw : world N) (w0 w : world acell) (r : status * option avec * option (option ptr)) (o : outcome) : Prop :=
  let '(st, ov, tok) := r in
  match o with
  | Accept es => st = ST_SUCCESS /\ tok = Some None /\ exists v, ov = Some v /\ ashows tw w v es /\
      (forall k, heap w0 k <> None -> heap w k = heap w0 k) /\
      exists v' w', vdestroy v w = Ok (ST_SUCCESS, v') w' /\ forall k, heap w' k = heap w0 k
  | Reject e t => st = e /\ etok_is tw tok t /\ (forall k, heap w k = heap w0 k)
  end.
(** What happens when the memory runs out: nothing is stored if the first request fails, otherwise the vector stays allocated,
    until it is destroyed. *)
Definition out_of_memory (w : world acell) (r : status * option avec * option (option ptr)) (w' : world acell) : Prop :=
  exists st t v, orc w t = AFail st /\ r = (err_status st, Some v, None) /\
    ((forall k, heap w' k = heap w k) /\ t = tick w /\ v_data v = None \/
     t <> tick w /\ (exists b, v_data v = Some (mkptr b 0) /\ nextb w <= b /\ heap w' b <> None) /\
     exists v' w2, vdestroy v w' = Ok (ST_SUCCESS, v') w2 /\ forall k, heap w2 k = heap w k).
(** The next [n] requests are granted. *)
Definition granted (w : world acell) (n : N) : Prop := forall i, i < n -> exists fill, orc w (tick w + i) = AOk fill.
(** The errors of the grammar. *)
Definition grammar_errors : list status :=
  [ST_ARG_NOT_UNDERSTOOD; ST_ARG_MISSES_VALUE; ST_TOO_MANY_ARGS; ST_TOO_FEW_ARGS; ST_REQUIRED_ARG_MISSING].
(** Every name has the required form. *)
Definition names_ok (ds : list sdef) : Prop := Forall (fun x => name_ok (sd_name x)) ds.
(** A legal call of ZyanArgParseEx with a working allocator, in the memory [w]. *)
Definition parse_args (tw : world N) (cfg : aconfig) (prog : token) (ts : list token) (ds : list sdef) (w : world acell) : Prop :=
  config_is tw cfg prog ts ds /\ names_ok ds /\ ac_min cfg <= ac_max cfg /\ world_ok w /\ allocator_ok w /\ arg_room ts.

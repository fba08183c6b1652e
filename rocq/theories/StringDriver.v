(** Client programs of strings: how a caller drives the modelled functions.  No proofs here. *)
From Verif Require Import Base Status Mem VectorModel VectorDriver StringModel StringSpec.

(** The caller passes a view of a character array of its own. *)
Definition with_view {A} (x : list N) (k : view -> M A) : M A :=
  with_arg (x ++ [0]) (fun p => k (define_view p (nlen x + 1))).

Definition run_sop (s : str) (o : sop) : M (status * str) :=
  match o with
  | SAppend x => with_view x (fun q => sappend s q)
  | SAppendEx x j n => with_view x (fun q => sappend_ex s q j n)
  | SInsert i x => with_view x (fun q => sinsert s i q)
  | SInsertEx i x j n => with_view x (fun q => sinsert_ex s i q j n)
  | SDelete i n => sdelete s i n
  | STruncate i => struncate s i
  | SClear => sclear s
  | SResize n => sresize s n
  | SSetChar i c => with_arg [c] (fun p => sset_char s i p)
  | SToLower => scase lower_step s
  | SToLowerEx i n => scase_ex lower_step s i n
  | SToUpper => scase upper_step s
  | SToUpperEx i n => scase_ex upper_step s i n
  | SReserve n => sreserve s n
  | SShrinkToFit => sshrink_to_fit s
  end.
Fixpoint run_sops (s : str) (ops : list sop) : M (list status * str) :=
  match ops with
  | [] => ret ([], s)
  | o :: ops =>
      let* (r, s1) := run_sop s o in
      let* (rs, s2) := run_sops s1 ops in
      ret (r :: rs, s2)
  end.

(** What the API shows of a string: GetSize; GetChar at every index; and GetData, whose [size] bytes are followed
    by a 0 byte. *)
Definition sshows (w : world N) (s : str) (cs : list N) : Prop :=
  sget_size s w = Ok (ST_SUCCESS, nlen cs) w /\
  (forall i, i < W64 -> sget_char s i w =
     Ok (match nnth i cs with Some c => (ST_SUCCESS, Some c) | None => (ST_OUT_OF_RANGE, None) end) w) /\
  mread (snd (sget_data s)) (nlen cs + 1) w = Ok (cs ++ [0]) w.

(** [q] is a view of the NUL-terminated characters [x]. *)
Definition views (w : world N) (q : view) (x : list N) : Prop :=
  ssize q = nlen x + 1 /\ nlen x + 1 < W64 /\ mread (sdata q) (nlen x + 1) w = Ok (x ++ [0]) w.

(** Legal parameters of ZyanStringInitEx in a world whose allocator works. *)
Definition sinit_args_ok (w : world N) (cap g s : N) : Prop :=
  world_ok w /\ allocator_ok w /\ 1 <= g < 256 /\ s < 256 /\ N.max 32 cap + 1 < W64.
(** Legal parameters of ZyanStringInitCustomBuffer: the caller's block [b] holds [pre], the buffer, [post]. *)
Definition sbuffer_args_ok (w : world N) (cap : N) (b : N) (pre buf post : list N) : Prop :=
  world_ok w /\ heap w b = Some (pre ++ buf ++ post) /\ nlen buf = cap /\ 1 <= cap /\ cap < W64.
(** Strings of [n] characters, times the largest growth factor, fit into the address space. *)
Definition sroom (n : N) : Prop := (n + 1) * 256 < W64.

(** A string in a state reached by some history of calls, showing [cs]. *)
Definition sreached_own (w : world N) (s : str) (cs : list N) : Prop :=
  exists w0 cap g t s0 w1 ops rs,
    sinit_args_ok w0 cap g t /\ Forall sums_ok ops /\ sroom (sdemands ops) /\
    sinit_ex cap true g t w0 = Ok (ST_SUCCESS, Some s0) w1 /\
    run_sops s0 ops w1 = Ok (rs, s) w /\ sshows w s cs.
Definition sreached_buf (w : world N) (s : str) (cs : list N) : Prop :=
  exists w0 cap b pre buf post s0 w1 ops rs,
    sbuffer_args_ok w0 cap b pre buf post /\ Forall sums_ok ops /\ sroom (sdemands ops) /\
    sinit_custom (Some (mkptr b (nlen pre))) cap w0 = Ok (ST_SUCCESS, Some s0) w1 /\
    run_sops s0 ops w1 = Ok (rs, s) w /\ sshows w s cs.
Definition sreached (w : world N) (s : str) (cs : list N) : Prop := sreached_own w s cs \/ sreached_buf w s cs.

(** From world [w] on, the string [s] behaves as a string with the contents [cs] and the given limit: every
    further history of calls is fault-free, returns the statuses and leaves the contents of the specification. *)
Definition behaves_as (limit : option N) (w : world N) (s : str) (cs : list N) : Prop :=
  forall ops, Forall sums_ok ops -> sroom (nlen cs + sdemands ops) ->
    exists rs w' s' cs', run_sops s ops w = Ok (rs, s') w' /\ sspecs limit ops cs rs cs' /\ sshows w' s' cs'.

(** The same world with another allocator behaviour from now on. *)
Definition all_fail (w : world N) : world N := with_oracle w (fun _ => AFail 7).

(** [q] is a view of the characters [x], which need not be followed by a terminator. *)
Definition views_part (w : world N) (q : view) (x : list N) : Prop :=
  ssize q = nlen x + 1 /\ nlen x + 1 < W64 /\ mread (sdata q) (nlen x) w = Ok x w.

(** What the caller gets from the duplicating functions: a working string with the contents [x], which later calls
    change without touching any block of the old world. *)
Definition fresh_string (limit : option N) (keep : N -> Prop) (w0 w : world N) (d : str) (x : list N) : Prop :=
  sshows w d x /\ behaves_as limit w d x /\
  (forall b buf, heap w0 b = Some buf -> keep b -> heap w b = Some buf) /\
  (forall ops rs d' w', Forall sums_ok ops -> sroom (nlen x + sdemands ops) -> run_sops d ops w = Ok (rs, d') w' ->
     forall b buf, heap w0 b = Some buf -> keep b -> heap w' b = Some buf).

(** The view does not lie in block [b]. *)
Definition outside (q : view) (b : N) : Prop := forall p, sdata q = Some p -> pb p <> b.

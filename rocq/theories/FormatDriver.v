(** Client programs with strings and number formatting.  No proofs here. *)
From Verif Require Import Base Status Mem VectorModel VectorDriver StringModel StringSpec StringDriver FormatModel
  FormatSpec.

Definition with_prefix {A} (p : option (list N)) (k : option view -> M A) : M A :=
  match p with Some x => with_view x (fun q => k (Some q)) | None => k None end.
(** The static views STR_SUB and STR_ADD. *)
Definition with_signs {A} (k : view -> view -> M A) : M A :=
  with_view [45] (fun sub => with_view [43] (fun add => k sub add)).

Definition run_fop (is64 : bool) (s : str) (o : fop) : M (status * str) :=
  match o with
  | FStr o => run_sop s o
  | FDecU v pad => sappend_decu is64 s v pad
  | FHexU v pad upper => sappend_hexu is64 s v pad upper
  | FDecS v pad force prefix =>
      with_signs (fun sub add => with_prefix prefix (fun p => sappend_decs is64 sub add s v pad force p))
  | FHexS v pad upper force prefix =>
      with_signs (fun sub add => with_prefix prefix (fun p => sappend_hexs is64 sub add s v pad upper force p))
  end.
Fixpoint run_fops (is64 : bool) (s : str) (ops : list fop) : M (list status * str) :=
  match ops with
  | [] => ret ([], s)
  | o :: ops =>
      let* (r, s1) := run_fop is64 s o in
      let* (rs, s2) := run_fops is64 s1 ops in
      ret (r :: rs, s2)
  end.

(** Strings in a state reached by some history of string and formatting calls, showing [cs]; [limit] is the number
    of characters a fixed buffer holds. *)
Definition freached (is64 : bool) (limit : option N) (w : world N) (s : str) (cs : list N) : Prop :=
  exists w0 s0 w1 ops rs,
    match limit with
    | None => exists cap g t, sinit_args_ok w0 cap g t /\ sinit_ex cap true g t w0 = Ok (ST_SUCCESS, Some s0) w1
    | Some k => exists b pre buf post, sbuffer_args_ok w0 (k + 1) b pre buf post /\
                  sinit_custom (Some (mkptr b (nlen pre))) (k + 1) w0 = Ok (ST_SUCCESS, Some s0) w1
    end /\
    Forall fargs_ok ops /\ sroom (fdemands ops) /\ run_fops is64 s0 ops w1 = Ok (rs, s) w /\ sshows w s cs.

(** Growable strings with an allocator that refuses requests (property C82).  No proofs here. *)
From Verif Require Import Base Status Mem VectorModel VectorSpec VectorDriver RefuseSpec StringModel StringSpec StringDriver.

(** What a caller knows of a string: its characters, and the capacity that GetCapacity reports. *)
Record sstate := mksst { ss_chars : list N; ss_cap : N }.

(** The change that a string call makes to the bytes of a string of [len] characters, which are followed by a NUL;
    [None]: it does not change their number or the memory they are in. *)
Definition change_of (o : sop) (len : N) : option (vop N) :=
  let append n := Some (OResize (len + 1 + n)) in
  let insert i (x : list N) := if i =? len + 1 then append (nlen x) else if len <? i then None else Some (OInsertRange i (map (fun c => [c]) x)) in
  match o with
  | SAppend x => append (nlen x)
  | SAppendEx x j n => if nlen x <? j + n then None else append n
  | SInsert i x => insert i x
  | SInsertEx i x j n => if nlen x <? j + n then None else insert i (nsub j n x)
  | SDelete i n => if len <? i + n then None else Some (ODeleteRange i n)
  | STruncate i => if len <? i then None else Some (ODeleteRange i (len - i))
  | SClear => Some OClear
  | SResize n => Some (OResize (n + 1))
  | SReserve n => Some (OReserve n)
  | SShrinkToFit => Some OShrinkToFit
  | SSetChar _ _ | SToLower | SToLowerEx _ _ | SToUpper | SToUpperEx _ _ => None
  end.
(** The number of bytes that the call requests from the allocator, for a string with growth factor [g] and shrink
    threshold [t]; [None]: it requests nothing. *)
Definition sasked (g t : N) (o : sop) (s : sstate) : option N :=
  match change_of o (nlen (ss_chars s)) with
  | Some v => asked (mkcfg false g t 1 None) v (nlen (ss_chars s) + 1) (ss_cap s + 1)
  | None => None
  end.
(** The characters after a call whose request is refused: a deletion has happened, nothing else has. *)
Definition srefused (o : sop) (cs : list N) : list N :=
  match o with
  | SDelete i n => nfirst i cs ++ nskip (i + n) cs
  | STruncate i => nfirst i cs
  | _ => cs
  end.

(** One call when the allocator would answer its request with [ans].  The capacity is the requested one, whether or not the
    request is granted. *)
Definition scall (g t : N) (ans : aresp N) (o : sop) (s : sstate) (r : status) (s' : sstate) : Prop :=
  ss_cap s' = match sasked g t o s with Some k => k - 1 | None => ss_cap s end /\
  match sasked g t o s, refusal ans with
  | Some _, Some e => r = err_status e /\ ss_chars s' = srefused o (ss_chars s)
  | _, _ => sspec None o (ss_chars s) r (ss_chars s')
  end.
Definition srefuses (g t : N) (ans : aresp N) (o : sop) (s : sstate) : Prop :=
  sasked g t o s <> None /\ refusal ans <> None.
Definition srequests (g t : N) (o : sop) (s : sstate) : N := match sasked g t o s with None => 0 | Some _ => 1 end.
(** The capacity that is left is no lie. *)
Definition susable (s s' : sstate) : Prop := nlen (ss_chars s') <= ss_cap s' /\ ss_cap s' <= ss_cap s.

(** A history under an allocator that answers request number [n] with [ans n], in which every refused request leaves a usable
    string; [n'] is the number of the next request. *)
Inductive scalls (g t : N) (ans : N -> aresp N) : N -> list sop -> sstate -> list status -> sstate -> N -> Prop :=
| scalls_nil n s : scalls g t ans n [] s [] s n
| scalls_cons n o ops s r s1 rs s2 n2 :
    scall g t (ans n) o s r s1 -> (srefuses g t (ans n) o s -> susable s s1) ->
    scalls g t ans (n + srequests g t o s) ops s1 rs s2 n2 ->
    scalls g t ans n (o :: ops) s (r :: rs) s2 n2.

(** Legal parameters of ZyanStringInitEx, whatever the allocator does. *)
Definition sinit_params_ok (w : world N) (cap g t : N) : Prop :=
  world_ok w /\ 1 <= g < 256 /\ t < 256 /\ N.max 32 cap + 1 < W64.
(** What the API shows of a string, with its capacity. *)
Definition sstate_shown (w : world N) (s : str) (a : sstate) : Prop :=
  sshows w s (ss_chars a) /\ sget_capacity s w = Ok (ST_SUCCESS, ss_cap a) w.
(** ZyanStringDestroy succeeds and leaves the memory that there was in [w0]. *)
Definition sdestroys_back (w0 w : world N) (s : str) : Prop :=
  exists s' w', sdestroy s w = Ok (ST_SUCCESS, s') w' /\ forall b, heap w' b = heap w0 b.

(** Calls that remove characters or room for them. *)
Definition strims (o : sop) : bool := match o with SDelete _ _ | STruncate _ | SShrinkToFit => true | _ => false end.
(** The call puts in [n] characters. *)
Definition sadds (o : sop) (n : N) : Prop :=
  match o with
  | SAppend x | SInsert _ x => n = nlen x
  | SAppendEx _ _ k | SInsertEx _ _ _ k => n = k
  | _ => False
  end.

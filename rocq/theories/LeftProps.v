(** Claims refuted for every case (C05, C65, C68).  Statements only. *)
From Verif Require Import Base Status VectorModel VectorSpec VectorDriver VectorExamples RefuseSpec ApiModel ApiSpec WinModel ListModel
  LeftProofs LeftProofs2 LeftExamples Mem.

(** C05.  Whenever the allocator refuses the smaller block a Resize to fewer elements asks for, Resize has run the destructor
    for the elements behind the new end, but they stay in the vector, and Destroy runs it for them again. *)
Theorem c05_resize_every_refuted :
  forall (C : Type) (w : world C) v xs f n orc' st,
    reached_own w v xs -> v_dtor v = Some f -> n < nlen xs -> v_shrink v <> 0 -> n * v_shrink v < snd (vget_capacity v) ->
    1 <= n \/ 1 < snd (vget_capacity v) -> orc' (tick w) = AFail st ->
    exists v1 w1 v2 w2, run_op v (OResize n) (with_oracle w orc') = Ok (err_status st, v1) w1 /\
      shows w1 v1 (nfirst n xs ++ map f (nskip n xs)) /\ vdestroy v1 w1 = Ok (ST_SUCCESS, v2) w2 /\
      dlog w2 = dlog w ++ nskip n xs ++ nfirst n xs ++ map f (nskip n xs).
Proof. exact @resize_destroys_twice. Qed.
Print Assumptions c05_resize_every_refuted.
Example c05_resize_every_met : exists (w : world N) v,
  reached_own w v [[1;2];[3;4];[5;6]] /\ v_dtor v = Some (map (fun c => c + 1)) /\ 1 < nlen [[1;2];[3;4];[5;6]] /\ v_shrink v <> 0 /\
  1 * v_shrink v < snd (vget_capacity v).
Proof.
  destruct (ex_destroys 2 4 5) as (w & v & H & D & G & S & CP); [lia|lia|lia|].
  exists w, v. rewrite CP, S. repeat split; auto; lia.
Qed.

(** C65.  Element sizes for which the size of a node wraps around, in every buffer shorter than a node: the first EmplaceBack
    is accepted and writes the 16 bytes of a node, behind the buffer too, or faults if the memory ends there. *)
Theorem c65_wrapping_buffer_refuted :
  forall (w : world cell) e dtor b pre buf post, W64 - 16 <= e -> e < W64 -> heap w b = Some (pre ++ buf ++ post) ->
    1 <= nlen buf -> e + 16 - W64 <= nlen buf -> nlen buf < 16 ->
    exists l, linit_custom e dtor (Some (mkptr b (nlen pre))) (nlen buf) w = Ok (ST_SUCCESS, Some l) w /\
      if nlen buf + nlen post <? 16 then lemplace_back l None w = Fault OutOfBounds
      else exists w' l' p, lemplace_back l None w = Ok (ST_SUCCESS, l', p) w' /\
             heap w' b = Some (pre ++ enc None ++ enc None ++ nskip 16 (buf ++ post)).
Proof. exact wrapping_buffer. Qed.
Print Assumptions c65_wrapping_buffer_refuted.
Example c65_wrapping_buffer_met : exists (w : world cell),
  W64 - 16 <= W64 - 5 /\ W64 - 5 < W64 /\ heap w 0 = Some ([] ++ nrepeat (CByte 1) 12 ++ nrepeat (CByte 2) 9) /\
  W64 - 5 + 16 - W64 <= nlen (nrepeat (CByte 1) 12) /\ nlen (nrepeat (CByte 1) 12) < 16.
Proof.
  exists (mkworld (fun b => if b =? 0 then Some ([] ++ nrepeat (CByte 1) 12 ++ nrepeat (CByte 2) 9) else None) 1 (fun _ => AFail 7) 0 []).
  split; [discriminate|]. split; [reflexivity|]. split; [reflexivity|]. split; [discriminate|reflexivity].
Qed.

(** C65.  Element sizes for which the size of a node wraps around, in a buffer of any length: the first call that writes or
    constructs an element leaves the memory. *)
Theorem c65_wrapping_push_refuted :
  forall (w : world cell) e dtor b pre buf post, W64 - 16 <= e -> e < W64 -> heap w b = Some (pre ++ buf ++ post) ->
    nlen pre + nlen buf + nlen post < W64 -> 1 <= nlen buf -> e + 16 - W64 <= nlen buf ->
    exists l, linit_custom e dtor (Some (mkptr b (nlen pre))) (nlen buf) w = Ok (ST_SUCCESS, Some l) w /\
      (forall q, exists f, lpush_back l (Some q) w = Fault f) /\ (forall q, exists f, lpush_front l (Some q) w = Fault f) /\
      (forall c, exists f, lemplace_back l (Some c) w = Fault f) /\ (forall c, exists f, lemplace_front l (Some c) w = Fault f).
Proof. exact wrapping_any. Qed.
Print Assumptions c65_wrapping_push_refuted.
Example c65_wrapping_push_met : exists (w : world cell),
  W64 - 16 <= W64 - 5 /\ W64 - 5 < W64 /\ heap w 0 = Some ([] ++ nrepeat (CByte 1) 100 ++ nrepeat (CByte 2) 9) /\
  nlen (@nil cell) + nlen (nrepeat (CByte 1) 100) + nlen (nrepeat (CByte 2) 9) < W64 /\ W64 - 5 + 16 - W64 <= nlen (nrepeat (CByte 1) 100).
Proof.
  exists (mkworld (fun b => if b =? 0 then Some ([] ++ nrepeat (CByte 1) 100 ++ nrepeat (CByte 2) 9) else None) 1 (fun _ => AFail 7) 0 []).
  split; [discriminate|]. split; [reflexivity|]. split; [reflexivity|]. split; [reflexivity|discriminate].
Qed.

(** C68.  Whenever a fiber stores a value, another fiber of the same thread keeps reading its own: the thread does not read
    the value it stored last. *)
Theorem c68_other_fiber_refuted :
  forall (thread_of : N -> N) cs m0 tr0 m tr k f g x,
    fls_run no_tls cs = (m0, tr0) -> fls_run no_tls (cs ++ [(g, TSet k x 0)]) = (m, tr) ->
    (forall u k' d e, In (u, TSet k' d e) cs -> d < W64) -> x < W64 ->
    key_live k tr0 false = true -> f <> g -> thread_of f = thread_of g ->
    fls_step m f (TGet k) = (ST_SUCCESS, Some (tls_last k f tr0 0), m) /\
    tls_last k (thread_of f) (map (fun '(u, c, st, r) => (thread_of u, c, st, r)) tr) 0 = x.
Proof. exact other_fiber. Qed.
Print Assumptions c68_other_fiber_refuted.
Example c68_other_fiber_met :
  let cs := [(1, TAlloc 5 0); (2, TSet 5 11 0)] in
  key_live 5 (snd (fls_run no_tls cs)) false = true /\ tls_last 5 2 (snd (fls_run no_tls cs)) 0 = 11 /\
  snd (fls_run no_tls (cs ++ [(1, TSet 5 7 0)])) = snd (fls_run no_tls cs) ++ [(1, TSet 5 7 0, ST_SUCCESS, None)].
Proof. now vm_compute. Qed.

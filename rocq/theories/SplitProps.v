(** Property theorems on splitting and joining texts (C113).  Statements only. *)
From Verif Require Import Base Status VectorModel VectorDriver StringModel StringSpec StringDriver StringExamples ReplaceDriver
  SplitDriver SplitProofs SplitExamples Mem.

(** Every text has exactly one list of pieces; with the separator between them they are the text again, and none of them
    contains the separator. *)
Theorem c113_pieces_total :
  forall sep, sep <> [] -> forall xs, exists ps, pieces sep xs ps.
Proof. exact pieces_total. Qed.
Print Assumptions c113_pieces_total.
Theorem c113_pieces_unique :
  forall sep xs ps qs, pieces sep xs ps -> pieces sep xs qs -> ps = qs.
Proof. exact pieces_unique. Qed.
Print Assumptions c113_pieces_unique.
Theorem c113_pieces_joined :
  forall sep xs ps, sep <> [] -> pieces sep xs ps ->
    joined sep ps = xs /\ Forall (fun p => forall i, ~ occurs eq p sep i) ps.
Proof. exact pieces_joined. Qed.
Print Assumptions c113_pieces_joined.
Example c113_pieces_met : [44] <> @nil N /\ pieces [44] [97;44;44;98;99] [[97]; []; [98;99]].
Proof. split; [discriminate|exact split_example]. Qed.

(** Splitting with LPosEx and ViewInsideBufferEx gives views of exactly the pieces that are not empty, in order; they lie
    in the text, and no memory changes. *)
Theorem c113_split :
  forall (w : world N) old hay sq text sep ps,
    views w hay text -> views w sq sep -> sep <> [] -> ~ In 0 sep -> pieces sep text ps ->
    exists qs, split old hay sq w = Ok qs w /\ Forall2 (views_part w) qs (filter nonempty ps) /\
      forall s, beside hay s -> Forall (fun q => beside q s) qs.
Proof. exact split_ok. Qed.
Print Assumptions c113_split.
(** Splitting with LPosEx and ViewInsideViewEx: every field is one character short, in every text; where a piece is empty,
    the view has no size (the assertion of GetSize fails, or it reports the largest number). *)
Theorem c113_split_views_refuted :
  forall (w : world N) old hay sq text sep ps,
    views w hay text -> views w sq sep -> sep <> [] -> ~ In 0 sep -> pieces sep text ps ->
    exists qs, split_views old hay sq w = Ok qs w /\ Forall2 (one_short w) qs ps.
Proof. exact split_views_ok. Qed.
Print Assumptions c113_split_views_refuted.
(** Views of any texts that are not empty, inserted at the end of a string with the separator between them. *)
Theorem c113_join :
  forall (w : world N) s cs sq sep qs ps, sreached_own w s cs -> views_part w sq sep -> sep <> [] -> beside sq s ->
    Forall2 (views_part w) qs ps -> Forall (fun q => beside q s) qs -> Forall (fun p => p <> []) ps ->
    sroom (nlen cs + nlen (joined sep ps)) ->
    exists w' s', join s sq qs w = Ok (ST_SUCCESS, s') w' /\ sshows w' s' (cs ++ joined sep ps) /\
      (exists limit, behaves_as limit w' s' (cs ++ joined sep ps)).
Proof. exact join_own. Qed.
Print Assumptions c113_join.
(** Splitting and joining gives the text back if it has no empty piece, and otherwise the text without them. *)
Theorem c113_split_join :
  forall (w : world N) old s hay sq text sep ps,
    sreached_own w s [] -> views w hay text -> views w sq sep -> sep <> [] -> ~ In 0 sep -> beside hay s -> beside sq s ->
    pieces sep text ps -> sroom (nlen text) ->
    exists qs w' s', split old hay sq w = Ok qs w /\ join s sq qs w = Ok (ST_SUCCESS, s') w' /\
      sshows w' s' (joined sep (filter nonempty ps)) /\ (~ In [] ps -> sshows w' s' text).
Proof. exact split_join. Qed.
Print Assumptions c113_split_join.
Example c113_met : exists w s hay sq,
  sreached_own w s [] /\ views w hay [97;44;44;98;99] /\ views w sq [44] /\ [44] <> @nil N /\ ~ In 0 [44] /\
  beside hay s /\ beside sq s /\ pieces [44] [97;44;44;98;99] [[97]; []; [98;99]] /\ sroom (nlen [97;44;44;98;99]) /\
  filter nonempty [[97]; []; [98;99]] = [[97]; [98;99]] /\ joined [44] [[97]; [98;99]] = [97;44;98;99].
Proof.
  destruct split_state as (w & s & A & B & C & D & E). exists w, s, (text_view 0 6), (text_view 6 2).
  split; [exact A|]. split; [exact B|]. split; [exact C|]. split; [discriminate|]. split; [intros [H|[]]; discriminate|].
  split; [exact D|]. split; [exact E|]. split; [exact split_example|]. now repeat split.
Qed.

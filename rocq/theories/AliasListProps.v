(** Property theorems of C77 for lists: the data of a node passed to a call on the same list.  Statements only. *)
From Verif Require Import Base NListFacts Status Mem VectorModel VectorDriver ListModel ListSpec ListDriver ListExamples
  AliasProofs3.
From Coq Require Import ZifyBool ZifyNat ZifyN.

(** PushBack and PushFront of the data of a node of the list: as for any other element, with any behaviour of the
    allocator; nodes do not move. *)
Theorem c77_list_push_back :
  forall limit (w : world cell) l ps xs j q x,
    lreached limit w l xs -> lshows w l ps xs -> nlen xs + 1 < W64 -> nnth j ps = Some q -> nnth j xs = Some x ->
    exists r l' w' ps' xs' new, lpush_back l (lget_node_data (Some q)) w = Ok (r, l') w' /\
      added limit (fails w) xs (xs ++ [x]) x r xs' new /\ lshows w' l' ps' xs' /\ (exists qs, ps' = ps ++ qs).
Proof. exact reached_push_back. Qed.
Print Assumptions c77_list_push_back.
Theorem c77_list_push_front :
  forall limit (w : world cell) l ps xs j q x,
    lreached limit w l xs -> lshows w l ps xs -> nlen xs + 1 < W64 -> nnth j ps = Some q -> nnth j xs = Some x ->
    exists r l' w' ps' xs' new, lpush_front l (lget_node_data (Some q)) w = Ok (r, l') w' /\
      added limit (fails w) xs (x :: xs) x r xs' new /\ lshows w' l' ps' xs' /\ (exists qs, ps' = qs ++ ps).
Proof. exact reached_push_front. Qed.
Print Assumptions c77_list_push_front.
(** ResizeEx to more elements with the data of a node as initializer. *)
Theorem c77_list_resize :
  forall limit (w : world cell) l ps xs j q x n,
    lreached limit w l xs -> lshows w l ps xs -> nlen xs < n -> n < W64 -> nnth j ps = Some q -> nnth j xs = Some x ->
    exists r l' w' ps' xs' gone new, lresize_ex l n (lget_node_data (Some q)) w = Ok (r, l') w' /\
      lspec (l_esz l) limit (fails w) (LResize n (Some x)) xs r xs' gone new /\ lshows w' l' ps' xs' /\
      (exists qs, ps' = ps ++ qs).
Proof. exact reached_resize. Qed.
Print Assumptions c77_list_resize.
(** SetNodeData with the data of another node.  Missing: the node's own data (c77_list_set_same_refuted). *)
Theorem c77_list_set_partial :
  forall limit (w : world cell) l ps xs i j p q x y,
    lreached limit w l xs -> lshows w l ps xs -> i <> j ->
    nnth i ps = Some p -> nnth i xs = Some y -> nnth j ps = Some q -> nnth j xs = Some x ->
    exists w', lset_node_data l (Some p) (lget_node_data (Some q)) w = Ok ST_SUCCESS w' /\
      lshows w' l ps (nfirst i xs ++ [x] ++ nskip (i + 1) xs) /\ dlog w' = dlog w ++ seen (l_dtor l) [y].
Proof. exact reached_set. Qed.
Print Assumptions c77_list_set_partial.
Theorem c77_list_set_same_refuted :
  forall limit (w : world cell) l ps xs p,
    lreached limit w l xs -> lshows w l ps xs -> In p ps ->
    lset_node_data l (Some p) (lget_node_data (Some p)) w = Fault Overlapping.
Proof. exact reached_set_same. Qed.
Print Assumptions c77_list_set_same_refuted.
Example c77_list_met :
  exists w l ps p q, lreached None w l [el 1 2; el 3 4] /\ lshows w l ps [el 1 2; el 3 4] /\
    nnth 0 ps = Some p /\ nnth 1 ps = Some q /\ nnth 1 [el 1 2; el 3 4] = Some (el 3 4) /\ In p ps.
Proof.
  destruct (lreached_any 2 [el 1 2; el 3 4]) as (w & l & ps & R & SH & E); [lia|reflexivity|repeat constructor|reflexivity|].
  destruct ps as [|p [|q ps]]; [now destruct SH|now destruct SH|].
  exists w, l, (p :: q :: ps), p, q. split; [exact R|]. split; [exact SH|]. repeat split. now left.
Qed.

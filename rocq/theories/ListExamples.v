(** Concrete lists for the list theorems. *)
From Verif Require Import Base NListFacts Status Mem MemFacts VectorModel VectorDriver ListModel ListSpec ListDriver ListFinal ListFinal2.
From Coq Require Import ZifyBool ZifyNat ZifyN.

(** Empty memory, an allocator that always succeeds; the same with the requests numbered in [bad] failing. *)
Definition lworld : world cell := mkworld (fun _ => None) 0 (fun _ => AOk (fun _ => CByte 170)) 0 [].
Definition lworld_failing (bad : list N) : world cell :=
  mkworld (fun _ => None) 0 (fun t => if existsb (N.eqb t) bad then AFail 7 else AOk (fun _ => CByte 170)) 0 [].
(** A block 0 holding a buffer of [cap] bytes between two foreign bytes. *)
Definition lbuf (cap : N) : list cell := repeat (CByte 9) (N.to_nat cap).
Definition lworld_buf (cap : N) : world cell :=
  mkworld (fun b => if b =? 0 then Some ([CByte 1] ++ lbuf cap ++ [CByte 2]) else None) 1 (fun _ => AFail 7) 0 [].
Definition el (a b : N) : list cell := [CByte a; CByte b].

Lemma lworld_args e d : 1 <= e -> NODE_SIZE + e < W64 -> dtor_ok e d -> linit_args_ok lworld e d.
Proof. intros. split; [intros b _; reflexivity|auto]. Qed.
Lemma lworld_failing_args bad e d : 1 <= e -> NODE_SIZE + e < W64 -> dtor_ok e d -> linit_args_ok (lworld_failing bad) e d.
Proof. intros. split; [intros b _; reflexivity|auto]. Qed.
Lemma lworld_buf_args cap e d : 1 <= e -> 1 <= cap -> cap + (NODE_SIZE + e) < W64 -> dtor_ok e d ->
  lbuffer_args_ok (lworld_buf cap) e d cap 0 [CByte 1] (lbuf cap) [CByte 2].
Proof.
  intros. split.
  { intros b L. change (1 <= b) in L. unfold lworld_buf. cbn [heap mkworld]. destruct (N.eqb_spec b 0); [lia|reflexivity]. }
  repeat split; auto. unfold lbuf, nlen. rewrite repeat_length. lia.
Qed.

(** Initialise and run, then show the elements in forward order, for evaluation. *)
Definition data_of (xs : list (ptr * element)) : list element := map snd xs.
Definition elements_of (l : zlist) : M (list element) :=
  let* f := traverse lget_next_node (l_esz l) (snd (lget_head l)) (N.to_nat (l_size l)) in
  ret (data_of f).
Definition start_list (e : N) (d : option (element -> element)) (ops : list op) : M (list status * zlist) :=
  let* (st, ol) := linit_ex e d true in
  match ol with Some l => run_lops l ops | None => ret ([st], mklist true 0 0 None None None None 0 None) end.
Definition start_buffer_list (e : N) (d : option (element -> element)) (cap : N) (ops : list op) : M (list status * zlist) :=
  let* (st, ol) := linit_custom e d (Some (mkptr 0 1)) cap in
  match ol with Some l => run_lops l ops | None => ret ([st], mklist true 0 0 None None None None 0 None) end.

(** A history with every call. *)
Definition list_history : list op :=
  [LPushBack (el 1 1); LPushFront (el 2 2); LEmplaceBack None (Some (el 3 3)); LEmplaceFront (Some (fun _ => el 4 4)) None;
   LPopBack; LPopFront; LResize 4 (Some (el 5 5)); LSet 1 (el 6 6); LResize 3 None; LPopFront; LPushBack (el 7 7)].
Lemma list_history_ok : Forall (larg_ok 2) list_history /\ ldemands list_history < W64.
Proof. split; [|reflexivity]. repeat constructor; cbn; auto. Qed.
Example list_history_runs :
  result ((let* (rs, l) := start_list 2 None list_history in
           let* xs := elements_of l in ret (rs, xs)) lworld)
  = inr (repeat ST_SUCCESS 11, [el 6 6; el 5 5; el 7 7]).
Proof. vm_compute. reflexivity. Qed.
(** 54 bytes hold three nodes of 18 bytes: the second EmplaceFront still fits, Resize(4) does not. *)
Example list_history_runs_in_buffer :
  result ((let* (rs, l) := start_buffer_list 2 None 54 list_history in
           let* xs := elements_of l in ret (rs, xs)) (lworld_buf 54))
  = inr ([ST_SUCCESS; ST_SUCCESS; ST_SUCCESS; ST_INSUFFICIENT_BUFFER_SIZE; ST_SUCCESS; ST_SUCCESS;
          ST_INSUFFICIENT_BUFFER_SIZE; ST_SUCCESS; ST_SUCCESS; ST_SUCCESS; ST_SUCCESS], [el 6 6; el 5 5; el 7 7]).
Proof. vm_compute. reflexivity. Qed.

(** Every list of elements is the contents of a reachable growable list. *)
Lemma pushes_spec (C : Type) (e : N) xs : forall (ys : list (list C)) rs zs g n, lspecs e None False (map (@LPushBack C) xs) ys rs zs g n ->
  zs = ys ++ xs.
Proof.
  induction xs as [|x xs IH]; intros ys rs zs g n H; inversion H; subst; [now rewrite app_nil_r|].
  match goal with X : lspec _ _ _ _ _ _ _ _ _ |- _ => destruct X as ([(_ & _ & -> & _)|(RF & _)] & _) end.
  - match goal with X : lspecs _ _ _ _ _ _ _ _ _ |- _ => apply IH in X as -> end. rewrite <- app_assoc. reflexivity.
  - unfold refusal in RF. cbn [full] in RF. destruct RF as (_ & [] & _).
Qed.
Lemma lspecs_mono (C : Type) (e : N) limit (f g : Prop) (ops : list (lop C)) xs rs xs' gone new : (f -> g) ->
  lspecs e limit f ops xs rs xs' gone new -> lspecs e limit g ops xs rs xs' gone new.
Proof.
  intros FG. induction 1 as [|o ops xs r xs1 g1 n1 rs xs2 g2 n2 SP _ IH]; [constructor|]. econstructor; [|exact IH]. clear - SP FG.
  assert (RF : forall n r, refusal limit f n r -> refusal limit g n r).
  { intros n r0. unfold refusal. destruct (full _ _); [auto|]. tauto. }
  assert (AD : forall (xs ys : list (list C)) x r xs' new, added limit f xs ys x r xs' new -> added limit g xs ys x r xs' new).
  { intros xs0 ys x r0 xs0' new H. unfold added in *. destruct H as [H|(H & H')]; [left; exact H|right; split; [now apply RF|exact H']]. }
  destruct o; cbn [lspec] in *; auto.
  - destruct SP. auto.
  - destruct SP. auto.
  - destruct SP as (? & x & ? & ?). eauto.
  - destruct SP as (? & x & ? & ?). eauto.
  - destruct (n =? 0); [auto|]. destruct (n <=? nlen xs); [auto|]. destruct SP as (? & ? & ? & [X|(X & Y)]); eauto 10.
Qed.
Lemma lreached_any e xs : 1 <= e -> NODE_SIZE + e < W64 -> Forall (fun x : element => nlen x = e) xs -> nlen xs < W64 ->
  exists w l ps, lreached None w l xs /\ lshows w l ps xs /\ l_esz l = e.
Proof.
  intros E1 EW K LW. assert (A : linit_args_ok lworld e None) by (apply lworld_args; auto; exact I).
  destruct (growable_history lworld e None A) as (l0 & EI & _ & H).
  assert (AO : Forall (larg_ok e) (map (@LPushBack cell) xs)).
  { clear - K. induction K; cbn; constructor; auto. }
  assert (DM : ldemands (map (@LPushBack cell) xs) = nlen xs).
  { clear. induction xs as [|x xs IH]; [reflexivity|]. cbn [map ldemands ldemand]. rewrite IH, nlen_cons. reflexivity. }
  destruct (H _ AO) as (rs & l & w & ps & ys & gone & new & R & SP & SH & _); [now rewrite DM|].
  assert (SP' : lspecs e None False (map (@LPushBack cell) xs) [] rs ys gone new).
  { refine (lspecs_mono _ _ _ _ _ _ _ _ _ _ _ _ SP). intros (t & st & X). discriminate X. }
  apply pushes_spec in SP'. cbn [app] in SP'. subst ys.
  exists w, l, ps.
  assert (RE : lreached None w l xs).
  { exists lworld, e, None, l0, lworld, (map (@LPushBack cell) xs), rs, ps. rewrite DM. auto 10. }
  split; [exact RE|]. split; [exact SH|].
  destruct (init_rep lworld e None A) as (l1 & E1' & REP). rewrite EI in E1'. injection E1' as ->.
  destruct (run_lops_ok e None _ (heap lworld) (map (@LPushBack cell) xs) lworld l1 [] [] [] REP AO) as
    (w' & l' & rs' & ps' & us & xs' & g' & n' & R' & _ & REP' & _); [now rewrite DM|].
  rewrite R in R'. injection R' as _ -> _. apply REP'.
Qed.

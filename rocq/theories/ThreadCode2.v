(** The functions of lists and of the command line parser, taken apart into single accesses. *)
From Coq Require Import ZifyBool ZifyNat ZifyN.
From Verif Require Import Base Status VectorModel VectorDriver StringModel ListModel ListSpec ListDriver ArgModel ArgSpec
  ArgDriver ThreadSpec ThreadCode Mem.

(** ** Lists *)
Definition ro_load_ptr a : ro (load_ptr a).
Proof. unfold load_ptr. rcode. Defined.
Global Hint Resolve ro_load_ptr : rsteps.
Definition coded_load_ptr a : coded (load_ptr a).
Proof. unfold load_ptr. code. Defined.
Global Hint Resolve coded_load_ptr : steps.
Definition coded_store_ptr a p : coded (store_ptr a p).
Proof. unfold store_ptr. code. Defined.
Global Hint Resolve coded_store_ptr : steps.
Definition ro_get_prev n : ro (get_prev n).
Proof. unfold get_prev. rcode. Defined.
Global Hint Resolve ro_get_prev : rsteps.
Definition coded_get_prev n : coded (get_prev n).
Proof. unfold get_prev. code. Defined.
Global Hint Resolve coded_get_prev : steps.
Definition ro_get_next n : ro (get_next n).
Proof. unfold get_next. rcode. Defined.
Global Hint Resolve ro_get_next : rsteps.
Definition coded_get_next n : coded (get_next n).
Proof. unfold get_next. code. Defined.
Global Hint Resolve coded_get_next : steps.
Definition coded_set_prev n p : coded (set_prev n p).
Proof. unfold set_prev. code. Defined.
Global Hint Resolve coded_set_prev : steps.
Definition coded_set_next n p : coded (set_next n p).
Proof. unfold set_next. code. Defined.
Global Hint Resolve coded_set_next : steps.
Definition coded_lalloc_node l : coded (lalloc_node l).
Proof. unfold lalloc_node. code. Defined.
Global Hint Resolve coded_lalloc_node : steps.
Definition coded_ldealloc_node l n : coded (ldealloc_node l n).
Proof. unfold ldealloc_node. code. Defined.
Global Hint Resolve coded_ldealloc_node : steps.
Definition coded_destroy_node l n : coded (destroy_node l n).
Proof. unfold destroy_node. code. Defined.
Global Hint Resolve coded_destroy_node : steps.
Definition coded_linit_ex e d a : coded (linit_ex e d a).
Proof. unfold linit_ex. code. Defined.
Global Hint Resolve coded_linit_ex : steps.
Definition coded_linit e d : coded (linit e d).
Proof. unfold linit. code. Defined.
Global Hint Resolve coded_linit : steps.
Definition coded_linit_custom e d b cap : coded (linit_custom e d b cap).
Proof. unfold linit_custom. code. Defined.
Global Hint Resolve coded_linit_custom : steps.
Definition coded_destroy_loop l p n : coded (destroy_loop l p n).
Proof. revert p. induction n as [|n IH]; intros [p|]; cbn [destroy_loop]; code. Defined.
Global Hint Resolve coded_destroy_loop : steps.
Definition coded_destroy_all l : coded (destroy_all l).
Proof. unfold destroy_all. code. Defined.
Global Hint Resolve coded_destroy_all : steps.
Definition coded_ldestroy l : coded (ldestroy l).
Proof. unfold ldestroy. code. Defined.
Global Hint Resolve coded_ldestroy : steps.
Definition ro_lget_prev_node n : ro (lget_prev_node n).
Proof. unfold lget_prev_node. rcode. Defined.
Global Hint Resolve ro_lget_prev_node : rsteps.
Definition coded_lget_prev_node n : coded (lget_prev_node n).
Proof. unfold lget_prev_node. code. Defined.
Global Hint Resolve coded_lget_prev_node : steps.
Definition ro_lget_next_node n : ro (lget_next_node n).
Proof. unfold lget_next_node. rcode. Defined.
Global Hint Resolve ro_lget_next_node : rsteps.
Definition coded_lget_next_node n : coded (lget_next_node n).
Proof. unfold lget_next_node. code. Defined.
Global Hint Resolve coded_lget_next_node : steps.
Definition coded_lset_node_data l n p : coded (lset_node_data l n p).
Proof. unfold lset_node_data. code. Defined.
Global Hint Resolve coded_lset_node_data : steps.
Definition coded_link_back l n : coded (link_back l n).
Proof. unfold link_back. code. Defined.
Global Hint Resolve coded_link_back : steps.
Definition coded_link_front l n : coded (link_front l n).
Proof. unfold link_front. code. Defined.
Global Hint Resolve coded_link_front : steps.
Definition coded_lpush_back l p : coded (lpush_back l p).
Proof. unfold lpush_back. code. Defined.
Global Hint Resolve coded_lpush_back : steps.
Definition coded_lpush_front l p : coded (lpush_front l p).
Proof. unfold lpush_front. code. Defined.
Global Hint Resolve coded_lpush_front : steps.
Definition coded_call_ctor f p n : coded (call_ctor f p n).
Proof. unfold call_ctor. code. Defined.
Global Hint Resolve coded_call_ctor : steps.
Definition coded_lemplace_back l f : coded (lemplace_back l f).
Proof. unfold lemplace_back. code. Defined.
Global Hint Resolve coded_lemplace_back : steps.
Definition coded_lemplace_front l f : coded (lemplace_front l f).
Proof. unfold lemplace_front. code. Defined.
Global Hint Resolve coded_lemplace_front : steps.
Definition coded_lpop_back l : coded (lpop_back l).
Proof. unfold lpop_back. code. Defined.
Global Hint Resolve coded_lpop_back : steps.
Definition coded_lpop_front l : coded (lpop_front l).
Proof. unfold lpop_front. code. Defined.
Global Hint Resolve coded_lpop_front : steps.
Definition coded_lremove l n : coded (lremove l n).
Proof. unfold lremove. code. Defined.
Global Hint Resolve coded_lremove : steps.
Definition coded_lremove_range l p q : coded (lremove_range l p q).
Proof. unfold lremove_range. code. Defined.
Global Hint Resolve coded_lremove_range : steps.
Definition coded_grow_loop l p n : coded (grow_loop l p n).
Proof. revert l. induction n as [|n IH]; intros l; cbn [grow_loop]; code. Defined.
Global Hint Resolve coded_grow_loop : steps.
Definition coded_shrink_loop l n : coded (shrink_loop l n).
Proof. revert l. induction n as [|n IH]; intros l; cbn [shrink_loop]; code. Defined.
Global Hint Resolve coded_shrink_loop : steps.
Definition coded_lresize_ex l n p : coded (lresize_ex l n p).
Proof. unfold lresize_ex. code. Defined.
Global Hint Resolve coded_lresize_ex : steps.
Definition coded_lresize l n : coded (lresize l n).
Proof. unfold lresize. code. Defined.
Global Hint Resolve coded_lresize : steps.
Definition coded_lclear l : coded (lclear l).
Proof. unfold lclear. code. Defined.
Global Hint Resolve coded_lclear : steps.
Definition ro_walk p n : ro (walk p n).
Proof. revert p. induction n as [|n IH]; intros p; cbn [walk]; rcode. Defined.
Global Hint Resolve ro_walk : rsteps.
Definition coded_walk p n : coded (walk p n).
Proof. revert p. induction n as [|n IH]; intros p; cbn [walk]; code. Defined.
Global Hint Resolve coded_walk : steps.
Definition ro_nth_node l i : ro (nth_node l i).
Proof. unfold nth_node. rcode. Defined.
Global Hint Resolve ro_nth_node : rsteps.
Definition coded_nth_node l i : coded (nth_node l i).
Proof. unfold nth_node. code. Defined.
Global Hint Resolve coded_nth_node : steps.
Definition coded_store_item p x : coded (store_item p x).
Proof. unfold store_item. code. Defined.
Global Hint Resolve coded_store_item : steps.

Definition coded_after_emplace m s : coded m -> coded (after_emplace m s).
Proof. intros Y. unfold after_emplace. code. Defined.
Global Hint Resolve coded_after_emplace : steps.
Definition coded_run_lop l o : coded (run_lop l o).
Proof. unfold run_lop, with_opt. code. Defined.
Global Hint Resolve coded_run_lop : steps.
Definition coded_run_lops l ops : coded (run_lops l ops).
Proof. revert l. induction ops as [|o ops IH]; intros l; cbn [run_lops]; code. Defined.
Global Hint Resolve coded_run_lops : steps.

Definition ro_traverse f e p n : (forall p, ro (f p)) -> ro (traverse f e p n).
Proof. intros Y. revert p. induction n as [|n IH]; intros [p|]; cbn [traverse]; rcode. Defined.

(** ** Command lines *)

Definition ro_text {A} tw (m : Mem.M N A) : ro (text tw m).
Proof.
  refine (mkro (match m tw with Ok a _ => Done a | Fault f => Crash f end) _ _).
  - intros w. unfold text. destruct (m tw); reflexivity.
  - destruct (m tw); exact I.
Defined.
Global Hint Resolve ro_text : rsteps.
Definition coded_text {A} tw (m : Mem.M N A) : coded (text tw m) := coded_of_ro _ (ro_text tw m).
Global Hint Resolve coded_text : steps.
Definition ro_load_word p : ro (load_word p).
Proof. unfold load_word. rcode. Defined.
Global Hint Resolve ro_load_word : rsteps.
Definition coded_load_word p : coded (load_word p).
Proof. unfold load_word. code. Defined.
Global Hint Resolve coded_load_word : steps.
Definition coded_store_word p a : coded (store_word p a).
Proof. unfold store_word. code. Defined.
Global Hint Resolve coded_store_word : steps.
Definition ro_load_byte p : ro (load_byte p).
Proof. unfold load_byte. rcode. Defined.
Global Hint Resolve ro_load_byte : rsteps.
Definition coded_load_byte p : coded (load_byte p).
Proof. unfold load_byte. code. Defined.
Global Hint Resolve coded_load_byte : steps.
Definition ro_load_def p : ro (load_def p).
Proof. unfold load_def. rcode. Defined.
Global Hint Resolve ro_load_def : rsteps.
Definition coded_load_def p : coded (load_def p).
Proof. unfold load_def. code. Defined.
Global Hint Resolve coded_load_def : steps.
Definition coded_store_def p d : coded (store_def p d).
Proof. unfold store_def. code. Defined.
Global Hint Resolve coded_store_def : steps.
Definition ro_load_has_value p : ro (load_has_value p).
Proof. unfold load_has_value. rcode. Defined.
Global Hint Resolve ro_load_has_value : rsteps.
Definition coded_load_has_value p : coded (load_has_value p).
Proof. unfold load_has_value. code. Defined.
Global Hint Resolve coded_load_has_value : steps.
Definition coded_store_has_value p : coded (store_has_value p).
Proof. unfold store_has_value. code. Defined.
Global Hint Resolve coded_store_has_value : steps.
Definition ro_num_of a : ro (num_of a).
Proof. unfold num_of. rcode. Defined.
Global Hint Resolve ro_num_of : rsteps.
Definition coded_num_of a : coded (num_of a).
Proof. unfold num_of. code. Defined.
Global Hint Resolve coded_num_of : steps.
Definition ro_load_view p : ro (load_view p).
Proof. unfold load_view. rcode. Defined.
Global Hint Resolve ro_load_view : rsteps.
Definition coded_load_view p : coded (load_view p).
Proof. unfold load_view. code. Defined.
Global Hint Resolve coded_load_view : steps.
Definition ro_char_at tw p i : ro (char_at tw p i).
Proof. unfold char_at. rcode. Defined.
Global Hint Resolve ro_char_at : rsteps.
Definition coded_char_at tw p i : coded (char_at tw p i).
Proof. unfold char_at. code. Defined.
Global Hint Resolve coded_char_at : steps.
Definition ro_astrlen tw p : ro (astrlen tw p).
Proof. unfold astrlen. rcode. Defined.
Global Hint Resolve ro_astrlen : rsteps.
Definition coded_astrlen tw p : coded (astrlen tw p).
Proof. unfold astrlen. code. Defined.
Global Hint Resolve coded_astrlen : steps.
Definition ro_astreq tw p q : ro (astreq tw p q).
Proof. unfold astreq. rcode. Defined.
Global Hint Resolve ro_astreq : rsteps.
Definition coded_astreq tw p q : coded (astreq tw p q).
Proof. unfold astreq. code. Defined.
Global Hint Resolve coded_astreq : steps.
Definition coded_aview_inside_buffer tw q p : coded (aview_inside_buffer tw q p).
Proof. unfold aview_inside_buffer. code. Defined.
Global Hint Resolve coded_aview_inside_buffer : steps.
Definition ro_check_defs tw ds : ro (check_defs tw ds).
Proof. induction ds as [|d ds IH]; cbn [check_defs]; rcode. Defined.
Global Hint Resolve ro_check_defs : rsteps.
Definition coded_check_defs tw ds : coded (check_defs tw ds).
Proof. induction ds as [|d ds IH]; cbn [check_defs]; code. Defined.
Global Hint Resolve coded_check_defs : steps.
Definition ro_find_long tw ds k p : ro (find_long tw ds k p).
Proof. revert k. induction ds as [|d ds IH]; intros k; cbn [find_long]; rcode. Defined.
Global Hint Resolve ro_find_long : rsteps.
Definition coded_find_long tw ds k p : coded (find_long tw ds k p).
Proof. revert k. induction ds as [|d ds IH]; intros k; cbn [find_long]; code. Defined.
Global Hint Resolve coded_find_long : steps.
Definition ro_find_short tw ds k p : ro (find_short tw ds k p).
Proof. revert k. induction ds as [|d ds IH]; intros k; cbn [find_short]; rcode. Defined.
Global Hint Resolve ro_find_short : rsteps.
Definition coded_find_short tw ds k p : coded (find_short tw ds k p).
Proof. revert k. induction ds as [|d ds IH]; intros k; cbn [find_short]; code. Defined.
Global Hint Resolve coded_find_short : steps.
Definition coded_new_arg v : coded (new_arg v).
Proof. unfold new_arg. code. Defined.
Global Hint Resolve coded_new_arg : steps.
Definition coded_put_def p f : coded (put_def p f).
Proof. unfold put_def. code. Defined.
Global Hint Resolve coded_put_def : steps.
Definition ro_is_boolean cfg d : ro (is_boolean cfg d).
Proof. unfold is_boolean. rcode. Defined.
Global Hint Resolve ro_is_boolean : rsteps.
Definition coded_is_boolean cfg d : coded (is_boolean cfg d).
Proof. unfold is_boolean. code. Defined.
Global Hint Resolve coded_is_boolean : steps.
Definition coded_put_value tw p s : coded (put_value tw p s).
Proof. unfold put_value. code. Defined.
Global Hint Resolve coded_put_value : steps.
Definition ro_argv_at cfg i : ro (argv_at cfg i).
Proof. unfold argv_at. rcode. Defined.
Global Hint Resolve ro_argv_at : rsteps.
Definition coded_argv_at cfg i : coded (argv_at cfg i).
Proof. unfold argv_at. code. Defined.
Global Hint Resolve coded_argv_at : steps.
Definition coded_next_value tw cfg i v u p q : coded (next_value tw cfg i v u p q).
Proof. unfold next_value. code. Defined.
Global Hint Resolve coded_next_value : steps.
Definition coded_long_arg tw cfg i v u p : coded (long_arg tw cfg i v u p).
Proof. unfold long_arg. code. Defined.
Global Hint Resolve coded_long_arg : steps.
Definition coded_short_loop tw cfg i v u p r n : coded (short_loop tw cfg i v u p r n).
Proof. revert v r. induction n as [|n IH]; intros v r; cbn [short_loop]; code. Defined.
Global Hint Resolve coded_short_loop : steps.
Definition coded_unnamed_arg tw cfg i v a u p : coded (unnamed_arg tw cfg i v a u p).
Proof. unfold unnamed_arg. code. Defined.
Global Hint Resolve coded_unnamed_arg : steps.
Definition coded_main_step tw cfg i v a u : coded (main_step tw cfg i v a u).
Proof. unfold main_step. code. Defined.
Global Hint Resolve coded_main_step : steps.
Definition coded_main_loop tw cfg i v a u n : coded (main_loop tw cfg i v a u n).
Proof. revert i v a u. induction n as [|n IH]; intros i v a u; cbn [main_loop]; code. Defined.
Global Hint Resolve coded_main_loop : steps.
Definition ro_find_parsed v d i n : ro (find_parsed v d i n).
Proof. revert i. induction n as [|n IH]; intros i; cbn [find_parsed]; rcode. Defined.
Global Hint Resolve ro_find_parsed : rsteps.
Definition coded_find_parsed v d i n : coded (find_parsed v d i n).
Proof. revert i. induction n as [|n IH]; intros i; cbn [find_parsed]; code. Defined.
Global Hint Resolve coded_find_parsed : steps.
Definition ro_check_required v ds k : ro (check_required v ds k).
Proof. revert k. induction ds as [|d ds IH]; intros k; cbn [check_required]; rcode. Defined.
Global Hint Resolve ro_check_required : rsteps.
Definition coded_check_required v ds k : coded (check_required v ds k).
Proof. revert k. induction ds as [|d ds IH]; intros k; cbn [check_required]; code. Defined.
Global Hint Resolve coded_check_required : steps.
Definition coded_failure e t v : coded (failure e t v).
Proof. unfold failure. code. Defined.
Global Hint Resolve coded_failure : steps.
Definition coded_leave_by s : coded (leave_by s).
Proof. unfold leave_by. code. Defined.
Global Hint Resolve coded_leave_by : steps.
Definition coded_argparse_ex tw cfg a : coded (argparse_ex tw cfg a).
Proof. unfold argparse_ex. code. Defined.
Global Hint Resolve coded_argparse_ex : steps.
Definition coded_argparse tw cfg : coded (argparse tw cfg).
Proof. unfold argparse. code. Defined.
Global Hint Resolve coded_argparse : steps.
Definition ro_get_arg v i : ro (get_arg v i).
Proof. unfold get_arg. rcode. Defined.
Global Hint Resolve ro_get_arg : rsteps.
Definition coded_get_arg v i : coded (get_arg v i).
Proof. unfold get_arg. code. Defined.
Global Hint Resolve coded_get_arg : steps.

(** Property theorems about the memory requests of ZyanArgParse. *)
From Verif Require Import Base NListFacts Status Mem VectorModel VectorDriver StringModel StringDriver ArgModel ArgSpec ArgDriver ArgExamples
  ArgAskProofs.
From Coq Require Import Ascii String.
Local Open Scope list_scope.
Import ListNotations.

(** C103.  A call makes exactly the requests that its entries need: if those are granted it gives the verdict, whatever
    the answers to any further request would be. *)
Theorem c103_granted :
  forall tw cfg prog ts ds w es stop,
    config_is tw cfg prog ts ds -> names_ok ds -> ac_min cfg <= ac_max cfg -> world_ok w -> arg_room ts ->
    scan ds actual true ts es stop ->
    granted w (parser_requests ts (entries_made (ac_max cfg) es stop)) ->
    exists o r w',
      judged ds (ac_min cfg) (ac_max cfg) es stop o /\ argparse_ex tw cfg true w = Ok r w' /\ delivered tw w w' r o /\
      tick w' = tick w + parser_requests ts (entries_made (ac_max cfg) es stop).
Proof. exact requests_granted. Qed.
Print Assumptions c103_granted.
(** One token of five flags has six entries (five flags and, see C41, the token), two fit into the first block and the
    third asks for a second block; the third request would be refused. *)
Example c103_granted_met :
  let ts := line ["-aaaaa"]%string in let '(tw, cfg) := setup (chars "prog") ts defs 0 9 in let w := aworld_failing [2] in
  config_is tw cfg (chars "prog") ts defs /\ names_ok defs /\ ac_min cfg <= ac_max cfg /\ world_ok w /\ arg_room ts /\
  exists es, scan defs actual true ts es None /\ nlen es = 6 /\ parser_requests ts (entries_made (ac_max cfg) es None) = 2 /\ granted w 2 /\
    (exists st, orc w 2 = AFail st).
Proof.
  assert (P : let s := setup (chars "prog") (line ["-aaaaa"]%string) defs 0 9 in
    parse_args (fst s) (snd s) (chars "prog") (line ["-aaaaa"]%string) defs aworld) by (apply call_ok; vm_compute; reflexivity).
  destruct P as (P1 & P2 & P3 & _ & _ & P4). split; [exact P1|]. split; [exact P2|]. split; [exact P3|]. split; [intros b _; reflexivity|].
  split; [exact P4|]. eexists. split.
  { eapply (scan_flags _ _ (chars "-aaaaa") (chars "aaaaa")); [exists 97, (chars "aaaa"); split; [reflexivity|discriminate]|reflexivity| |constructor].
    assert (NM : named defs [dash; 97] 0 true).
    { eexists. split; [reflexivity|]. split; [reflexivity|]. split; [reflexivity|]. intros j y L. destruct j; discriminate L. }
    repeat (apply flags_cons; [exact NM|]). constructor. }
  split; [reflexivity|]. split; [reflexivity|]. split.
  - intros i L. destruct i as [|[p|p|]]; [eexists; reflexivity| | |eexists; reflexivity]; destruct p; discriminate L.
  - eexists. reflexivity.
Qed.

(** C103.  If one of these requests is refused the call makes no other one and returns the allocator's error. *)
Theorem c103_refused :
  forall tw cfg prog ts ds w es stop i st,
    config_is tw cfg prog ts ds -> names_ok ds -> ac_min cfg <= ac_max cfg -> world_ok w -> arg_room ts ->
    scan ds actual true ts es stop ->
    i < parser_requests ts (entries_made (ac_max cfg) es stop) -> granted w i -> orc w (tick w + i) = AFail st ->
    exists v w', argparse_ex tw cfg true w = Ok (err_status st, Some v, None) w' /\ tick w' = tick w + i + 1 /\
      out_of_memory w (err_status st, Some v, None) w'.
Proof. exact request_refused. Qed.
Print Assumptions c103_refused.
(** The call above with its second request refused. *)
Example c103_refused_met :
  let ts := line ["-aaaaa"]%string in let '(tw, cfg) := setup (chars "prog") ts defs 0 9 in let w := aworld_failing [1] in
  granted w 1 /\ orc w 1 = AFail 7 /\
  match argparse_ex tw cfg true w with Ok (st, _, _) w' => st = err_status 7 /\ tick w' = 2 | Fault _ => False end.
Proof.
  cbv zeta. split; [|split; [reflexivity|vm_compute; auto]]. intros i L. destruct i as [|p]; [eexists; reflexivity|]. destruct p; discriminate L.
Qed.

(** C103.  There is only one request if no token has the form of short options, and whenever there are no more entries than
    tokens, counting the name of the program. *)
Theorem c103_one_request :
  forall ds ts es stop hi,
    scan ds actual true ts es stop -> Forall (fun t => ~ short t) ts -> parser_requests ts (entries_made hi es stop) = 1.
Proof. exact no_options_one. Qed.
Print Assumptions c103_one_request.
Example c103_one_request_met :
  let ts := line ["x"; "--help"; "--out"; "f"]%string in
  Forall (fun t => ~ short t) ts /\
  let '(tw, cfg) := setup (chars "prog") ts defs 0 9 in
  match argparse_ex tw cfg true (aworld_failing [1; 2; 3]) with Ok (st, _, _) w' => st = ST_SUCCESS /\ tick w' = 1 | Fault _ => False end.
Proof.
  cbv zeta. split; [|vm_compute; auto].
  repeat (constructor; [intros (c & y & E & NE); vm_compute in E; try discriminate E; injection E as <- _; now apply NE|]). constructor.
Qed.
Theorem c103_one_block :
  forall ts made, made <= nlen ts + 1 -> parser_requests ts made = 1.
Proof. exact one_request. Qed.
Print Assumptions c103_one_block.
Example c103_one_block_met : 4 <= nlen (line ["x"; "-a"; "-b"]%string) + 1 /\ parser_requests (line ["x"; "-a"; "-b"]%string) 5 = 2.
Proof. vm_compute. split; [discriminate|reflexivity]. Qed.

(** C103.  The requests are few: each one behind the first at least doubles the room, which starts with an entry per token. *)
Theorem c103_few_requests :
  forall ts made, 2 <= parser_requests ts made -> (nlen ts + 1) * 2 ^ (parser_requests ts made - 2) < made.
Proof. exact few_requests. Qed.
Print Assumptions c103_few_requests.
(** A token of 40 flags: blocks for 2, 6, 14, 30 and 62 entries. *)
Example c103_few_requests_met : parser_requests [repeat 97 41] 41 = 5 /\ (nlen [repeat 97 41] + 1) * 2 ^ 3 = 16.
Proof. vm_compute. auto. Qed.

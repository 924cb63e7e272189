(** Specification vocabulary for complete answers (C85): what was called and what the modem said, read off the labels of a run, and the
    result a call must have according to it. *)
From Coq Require Import List NArith ZArith Bool Arith.
From Verif Require Import Bytes AtCore Status SpecAt Pktio SpecPktio SpecStream Request SpecRequest.
Import ListNotations.

(** The requests passed to the request functions, in the order of the calls: call number [id] is element [id]. *)
Definition calls (lbs : list label) : list request := flat_map (fun lb => match lb with LCall _ r => [r] | _ => [] end) lbs.
(** The lines the modem sent in answer to transmission [g], in order. *)
Definition emitted (lbs : list label) (g : tag) : list line :=
  flat_map (fun lb => match lb with
                      | LEmit l => match l_from l with Some h => if tag_eqb h g then [l] else [] | None => [] end
                      | _ => []
                      end) lbs.

(** A request the library transmits. *)
Definition needs_prefix (t : at_type) : Prop := t = T_WITH_PREFIX \/ t = T_MULTI_WITH_PREFIX \/ t = T_WITH_PREFIX_NO_RESULT_CODE.
Definition can_send (r : request) : Prop :=
  exists cmd, rq_cmd r = Some cmd /\ (length cmd <= 200)%nat /\ rq_type r <> T_NO_COMMAND /\ (needs_prefix (rq_type r) -> rq_prefix r <> None).
(** The prefix the intermediate lines of its answer may carry. *)
Definition expects (r : request) : option str :=
  match rq_type r with
  | T_WITH_PREFIX | T_MULTI_WITH_PREFIX | T_WITH_PREFIX_NO_RESULT_CODE | T_MULTI_WO_PREFIX | T_MULTI_DATA_WO_PREFIX => rq_prefix r
  | _ => None
  end.

Section Answers.
Variable tt : token_table.

(** No line answering [g] is on its way or collected yet. *)
Definition none_held (s : state) (g : tag) : Prop :=
  (forall x, In x (wire s) -> l_from x <> Some g) /\
  (forall x, reader_line (rd s) = Some x -> l_from x <> Some g) /\
  (forall ls x, resp s = Some ls -> In x ls -> l_from x <> Some g).
(** The line fits a command of type [t] expecting prefix [e]: it is recognised as belonging to the command, and a line before the
    result is sent only where the command type has such lines (for single-line types, only one). *)
Definition fits (s : state) (t : at_type) (e : option str) (g : tag) (l : line) : Prop :=
  line_of_command tt t e (l_text l) /\
  (l_last l = false -> multi_line_type t \/ single_line_type t /\ none_held s g).
(** The modem answers in the format the command announces. *)
Definition conforming (s : state) (lb : label) : Prop :=
  match lb with
  | LEmit l => forall g, l_from l = Some g -> exists i c,
      nth_error (ths s) i = Some (Wait c) /\ g = (c_id c, false) /\ fits s (rq_type (c_req c)) (expects (c_req c)) g l \/
      nth_error (ths s) i = Some (DataWait c) /\ g = (c_id c, true) /\ fits s T_NO_RESULT None g l
  | _ => True
  end.
Variable pfxs : list str.
Definition conforming_runs (s : state) (lb : label) : Prop := tidy_runs tt pfxs s lb /\ conforming s lb.

Variable n : nat.            (* the number of threads *)
Variable lbs : list label.   (* the run *)

(** The tokens in force while request [r] is pending. *)
Definition tokens_of (r : request) : token_table := tokens_now tt (hook_extra (rq_kind r)).
(** The complete response of call [id]: all lines the modem sent in answer, without the result code; [l] ends the answer. *)
Definition complete_response (id : nat) (r : request) (ls : list line) (l : line) : Prop :=
  exists body, emitted lbs (id, false) = body ++ [l] /\
    (success_line (tokens_of r) (l_text l) /\ ls = body \/
     plain_line (tokens_of r) (l_text l) /\ no_code_type (rq_type r) /\ ls = body ++ [l]).
(** The response callback of call [id], given these lines, returned [st]. *)
Definition callback_returned (id : nat) (ls : list line) (l : line) (st : pkt_status) : Prop :=
  exists a b s, lbs = a ++ LCbReturns st :: b /\ run tt conforming_runs (init n) a s /\ rd s = RInCB id ls l.

(** Status of the command transmission according to the modem's answer. *)
Inductive command_answer (id : nat) (r : request) : pkt_status -> Prop :=
| ca_error body l : emitted lbs (id, false) = body ++ [l] -> error_line (tokens_of r) (l_text l) -> command_answer id r PKT_FAILURE
| ca_ok ls l : rq_cb r = false -> complete_response id r ls l -> command_answer id r PKT_OK
| ca_callback ls l st : rq_cb r = true -> complete_response id r ls l -> callback_returned id ls l st -> command_answer id r st.
(** Status of the data transmission. *)
Inductive data_answer (id : nat) : pkt_status -> Prop :=
| da_error l : emitted lbs (id, true) = [l] -> error_line (tokens_now tt None) (l_text l) -> data_answer id PKT_FAILURE
| da_ok l : emitted lbs (id, true) = [l] -> success_line (tokens_now tt None) (l_text l) -> data_answer id PKT_OK.

(** The status call [id] with request [r] must return. *)
Inductive outcome (id : nat) (r : request) : pkt_status -> Prop :=
(** refused without transmission *)
| oc_table : rq_kind r = KToken None -> emitted lbs (id, false) = [] -> emitted lbs (id, true) = [] -> outcome id r PKT_BAD_PARAM
| oc_no_command : rq_kind r <> KToken None -> rq_cmd r = None -> emitted lbs (id, false) = [] -> emitted lbs (id, true) = [] -> outcome id r PKT_BAD_REQUEST
| oc_not_sendable : rq_kind r <> KToken None -> rq_cmd r <> None -> ~ can_send r -> emitted lbs (id, false) = [] -> emitted lbs (id, true) = [] ->
    outcome id r PKT_BAD_PARAM
(** transmitted, no answer *)
| oc_silent : can_send r -> emitted lbs (id, false) = [] -> emitted lbs (id, true) = [] -> outcome id r PKT_TIMED_OUT
(** command answered, no data phase *)
| oc_command st : can_send r -> command_answer id r st -> data_of (rq_kind r) = None \/ st <> PKT_OK -> emitted lbs (id, true) = [] -> outcome id r st
(** command accepted, data phase *)
| oc_no_data d : can_send r -> command_answer id r PKT_OK -> data_of (rq_kind r) = Some d -> d_data d = None -> emitted lbs (id, true) = [] ->
    outcome id r PKT_BAD_REQUEST
| oc_data_short d : can_send r -> command_answer id r PKT_OK -> data_of (rq_kind r) = Some d -> d_data d <> None -> emitted lbs (id, true) = [] ->
    outcome id r PKT_SEND_ERROR
| oc_data_silent d : can_send r -> command_answer id r PKT_OK -> data_of (rq_kind r) = Some d -> d_data d <> None -> emitted lbs (id, true) = [] ->
    outcome id r PKT_TIMED_OUT
| oc_data d st : can_send r -> command_answer id r PKT_OK -> data_of (rq_kind r) = Some d -> d_data d <> None -> data_answer id st -> outcome id r st.
End Answers.

(** Identities of the calls that returned, and of those whose callback was called, newest first. *)
Definition returned_ids (lg : list entry) : list nat := flat_map (fun e => match e with Returned c _ _ => [c_id c] | _ => [] end) lg.
Definition delivered_ids (lg : list entry) : list nat := flat_map (fun e => match e with Delivered id _ _ => [id] | _ => [] end) lg.

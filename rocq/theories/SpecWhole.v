(** Specification vocabulary for the whole request path on bytes (C99): the environment, what was called and what the modem said, read off
    the labels of a run, and the result a call must have according to it. *)
From Coq Require Import List NArith ZArith Bool Arith.
From Verif Require Import Bytes AtCore Status SpecAt Pktio SpecPktio SpecStream Request SpecRequest SpecAnswers Whole.
Import ListNotations.

(** The bytes spell the line: line ends, its text, at least one line end.  (How they are cut into reads is up to [WRead].) *)
Definition spelled (bs : list N) (l : line) : Prop :=
  exists pre post, bs = pre ++ l_text l ++ post /\ Forall eol pre /\ Forall eol post /\ post <> [] /\ l_text l <> [] /\ line_text (l_text l).

(** The requests passed to the request functions, in order. *)
Definition calls_made (lbs : list wlabel) : list request := flat_map (fun lb => match lb with WApp (LCall _ r) => [r] | _ => [] end) lbs.
(** The lines the modem spelled in answer to transmission [g], in order. *)
Definition answered (lbs : list wlabel) (g : tag) : list line :=
  flat_map (fun lb => match lb with
                      | WSend _ (Some l) => match l_from l with Some h => if tag_eqb h g then [l] else [] | None => [] end
                      | _ => []
                      end) lbs.

(** Actions of the reader (and the return of a response callback). *)
Definition reader_action (lb : wlabel) : Prop :=
  match lb with WRead _ | WScan | WLine LReader | WLine (LCbReturns _) => True | _ => False end.
(** How far the receive buffer is filled. *)
Definition filled (w : whole) : nat :=
  match w_at w with
  | Waiting => (match rx_ptr (w_rx w) with Some p => p | None => 0 end + rx_partial (w_rx w))%nat
  | Scanning line n | Working line n _ => (line + n)%nat
  end.
(** The bytes on their way fit into the rest of it. *)
Definition fits_buffer (cap : nat) (w : whole) : Prop := (filled w + length (w_fifo w) < cap)%nat.

Section Env.
Variable cap : nat.
Variable tt : token_table.

(** A read finds room in the receive buffer (C20: what happens otherwise). *)
Definition reads_with_room (w : whole) (lb : wlabel) : Prop := match lb with WRead _ => room cap (w_rx w) | _ => True end.

(** Any bytes at all, in any pieces, at any time; the applications' token tables have at most 255 entries. *)
Definition any_bytes (w : whole) (lb : wlabel) : Prop :=
  reads_with_room w lb /\
  match lb with
  | WApp (LCall _ r) => table_small (hook_extra (rq_kind r))
  | WSend _ g => g = None
  | _ => True
  end.

(** A modem that answers as announced (C85), in bytes. *)
Variable pfxs : list str.
Definition conforming_bytes (w : whole) (lb : wlabel) : Prop :=
  reads_with_room w lb /\
  match lb with
  | WApp a | WLine a => conforming_runs tt pfxs (w_core w) a
  | WSend bs g => exists l, g = Some l /\ spelled bs l /\ conforming_runs tt pfxs (w_core w) (LEmit l)
  | _ => True
  end.

Variable n : nat.             (* the number of threads *)
Variable lbs : list wlabel.   (* the run *)

(** The response callback of call [id], having read these lines, returned [st]. *)
Definition callback_said (id : nat) (ls : list line) (l : line) (st : pkt_status) : Prop :=
  exists a b w, lbs = a ++ WLine (LCbReturns st) :: b /\ wrun cap tt conforming_bytes (winit cap n) a w /\ rd (w_core w) = RInCB id ls l.
(** All lines the modem spelled in answer to the command of call [id], without the result code; [l] ends the answer. *)
Definition complete_answer (id : nat) (r : request) (ls : list line) (l : line) : Prop :=
  exists body, answered lbs (id, false) = body ++ [l] /\
    (success_line (tokens_of tt r) (l_text l) /\ ls = body \/
     plain_line (tokens_of tt r) (l_text l) /\ no_code_type (rq_type r) /\ ls = body ++ [l]).
(** Status of the command according to the bytes of the modem. *)
Inductive command_status (id : nat) (r : request) : pkt_status -> Prop :=
| cs_error body l : answered lbs (id, false) = body ++ [l] -> error_line (tokens_of tt r) (l_text l) -> command_status id r PKT_FAILURE
| cs_ok ls l : rq_cb r = false -> complete_answer id r ls l -> command_status id r PKT_OK
| cs_callback ls l st : rq_cb r = true -> complete_answer id r ls l -> callback_said id ls l st -> command_status id r st.
(** Status of the data. *)
Inductive data_status (id : nat) : pkt_status -> Prop :=
| ds_error l : answered lbs (id, true) = [l] -> error_line (tokens_now tt None) (l_text l) -> data_status id PKT_FAILURE
| ds_ok l : answered lbs (id, true) = [l] -> success_line (tokens_now tt None) (l_text l) -> data_status id PKT_OK.

(** The status call [id] with request [r] must return. *)
Inductive must_return (id : nat) (r : request) : pkt_status -> Prop :=
(** refused without transmission *)
| mr_table : rq_kind r = KToken None -> answered lbs (id, false) = [] -> answered lbs (id, true) = [] -> must_return id r PKT_BAD_PARAM
| mr_no_command : rq_kind r <> KToken None -> rq_cmd r = None -> answered lbs (id, false) = [] -> answered lbs (id, true) = [] -> must_return id r PKT_BAD_REQUEST
| mr_not_sendable : rq_kind r <> KToken None -> rq_cmd r <> None -> ~ can_send r -> answered lbs (id, false) = [] -> answered lbs (id, true) = [] ->
    must_return id r PKT_BAD_PARAM
(** transmitted, no answer *)
| mr_silent : can_send r -> answered lbs (id, false) = [] -> answered lbs (id, true) = [] -> must_return id r PKT_TIMED_OUT
(** command answered, no data phase *)
| mr_command st : can_send r -> command_status id r st -> data_of (rq_kind r) = None \/ st <> PKT_OK -> answered lbs (id, true) = [] -> must_return id r st
(** command accepted, data phase *)
| mr_no_data d : can_send r -> command_status id r PKT_OK -> data_of (rq_kind r) = Some d -> d_data d = None -> answered lbs (id, true) = [] ->
    must_return id r PKT_BAD_REQUEST
| mr_data_short d : can_send r -> command_status id r PKT_OK -> data_of (rq_kind r) = Some d -> d_data d <> None -> answered lbs (id, true) = [] ->
    must_return id r PKT_SEND_ERROR
| mr_data_silent d : can_send r -> command_status id r PKT_OK -> data_of (rq_kind r) = Some d -> d_data d <> None -> answered lbs (id, true) = [] ->
    must_return id r PKT_TIMED_OUT
| mr_data d st : can_send r -> command_status id r PKT_OK -> data_of (rq_kind r) = Some d -> d_data d <> None -> data_status id st -> must_return id r st.
End Env.

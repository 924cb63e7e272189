(** Specification vocabulary for receiving payloads through the whole request path (C104): the environment, the bytes the modem sent, how
    they must be cut into lines and payloads, and what the response callbacks got. *)
From Coq Require Import List NArith ZArith Bool Arith.
From Verif Require Import Bytes AtCore Status SpecAt Pktio SpecPktio SpecStream Request SpecRequest Whole Payload.
Import ListNotations.

(** All bytes the modem sent. *)
Definition sent_bytes (lbs : list plabel) : list N := flat_map (fun lb => match lb with PSend bs => bs | _ => [] end) lbs.
(** The undefined-response handler refused no line. *)
Definition none_refused (lbs : list plabel) : Prop := forall k, ~ In (PLine (LUndef false k)) lbs.

(** Pieces of the byte stream: a line end between lines, a line with its end, bytes between the end of an announcing line and the data, a
    payload, bytes that a data-send prefix callback turned into a line (the prompt), bytes the input-buffer callback took, bytes lost with a
    refused line. *)
Inductive piece := Skip (c : N) | Text (l : list N) (e : N) | Gap (bs : list N) | Data (bs : list N) | Prompt (bs : list N) | Taken (bs : list N) | Lost (bs : list N).
(** The bytes of a piece. *)
Definition bytes_of (p : piece) : list N := match p with Skip c => [c] | Text l e => l ++ [e] | Gap bs | Data bs | Prompt bs | Taken bs | Lost bs => bs end.

(** The responses given to the response callbacks so far, oldest first: the items and the line that ended the response. *)
Definition responses_given (c : Request.state) : list (list (list N) * list N) :=
  flat_map (fun e => match e with Delivered _ ls l => [(map l_text ls, l_text l)] | _ => [] end) (rev (log c)).

(** [collected_as us rs cur ended]: the groups [us] (a line, or an announcing line with its payload) became the responses [rs] and the items
    [cur] of the response being collected: every group is added to the response with everything in it, except single lines that are not
    part of it (URCs, result codes); only at a line does the response end, once, by being given to a callback or being dropped. *)
Inductive collected_as : list (list (list N)) -> list (list (list N) * list N) -> list (list (list N)) -> bool -> Prop :=
| ca_start : collected_as [] [] [] false
| ca_other us rs cur b l : collected_as us rs cur b -> collected_as (us ++ [[l]]) rs cur false
| ca_item us rs cur b u : collected_as us rs cur b -> collected_as (us ++ [u]) rs (cur ++ [u]) false
| ca_given us rs cur l : collected_as (us ++ [[l]]) rs cur false -> collected_as (us ++ [[l]]) (rs ++ [(concat cur, l)]) [] true
| ca_dropped us rs cur l : collected_as (us ++ [[l]]) rs cur false -> collected_as (us ++ [[l]]) rs [] true.

Section Cut.
(** The callbacks, and the calls of the prefix callbacks. *)
Variable cbs : callbacks.
Variable asked : list asking.

(** [well_cut ps us None]: [ps] is a correct cut of what they spell; the lines and payloads in it are, in order, those of the groups [us].
    [Some d]: ... up to a line for which a callback announced [d] bytes, which have not all arrived.  After an announcement come exactly
    the announced number of bytes, from the announced offset on, whatever they are; the byte that ends the announcing line may be one the
    callback overwrote with a line end.  Only bytes that a data-send prefix callback replaced by a line become another line.  The input-buffer callback is shown
    all bytes from the end of a piece on, and the bytes it takes appear nowhere else. *)
Inductive well_cut : list piece -> list (list (list N)) -> option nat -> Prop :=
| wc_start : well_cut [] [] None
| wc_skip ps us c : well_cut ps us None -> eol c -> well_cut (ps ++ [Skip c]) us None
| wc_line ps us l e : well_cut ps us None -> l <> [] -> line_text l -> eol e -> well_cut (ps ++ [Text l e]) (us ++ [[l]]) None
| wc_announced ps us l c e g x id d : well_cut ps us None -> l <> [] -> line_text l -> eol e -> In (ForData id (l ++ c :: g ++ x)) asked ->
    cb_data cbs id (l ++ c :: g ++ x) = (PKT_OK, Some (length (l ++ c :: g)), Some d, l ++ e :: g ++ x) -> d <> 0%nat ->
    well_cut (ps ++ [Text l c; Gap g]) (us ++ [[l]]) (Some d)
| wc_data ps us l bs : well_cut ps (us ++ [[l]]) (Some (length bs)) -> well_cut (ps ++ [Data bs]) (us ++ [[l; bs]]) None
| wc_prompt ps us raw x l e id : well_cut ps us None -> l <> [] -> line_text l -> eol e -> In (ForPrompt id (raw ++ x)) asked ->
    cb_send cbs id (raw ++ x) = (PKT_OK, l ++ e :: x) -> well_cut (ps ++ [Prompt raw]) (us ++ [[l]]) None
| wc_taken ps us bs x f : well_cut ps us None -> cb_input cbs = Some f -> f (bs ++ x) = (PKT_OK, length bs) -> well_cut (ps ++ [Taken bs]) us None
| wc_lost ps us bs : well_cut ps us None -> well_cut (ps ++ [Lost bs]) us None.
End Cut.

Section Env.
Variable cap : nat.
Variable tt : token_table.
Variable cbs : callbacks.

(** The line is an intermediate line of a data command now in flight. *)
Definition of_data_command (c : Request.state) (l : list N) : Prop :=
  let prefix := if puse c then Some (pbuf c) else None in
  typ c = T_MULTI_DATA_WO_PREFIX /\ prefix_usable prefix /\
  line_of_command tt (typ c) prefix l /\ plain_line (tokens_now tt (extra c)) l.

(** A data prefix callback, called with these bytes, does what it may: it says "not mine", "more" or "announced"; it announces data (of
    non-zero length) only behind a complete line [l] - or text that it makes one by overwriting the byte behind it with a line end -, inside
    or at the end of what it was shown; it edits nothing else. *)
Definition announces (ok_line : list N -> Prop) (id : nat) (bs : list N) : Prop :=
  let '(st, start, len, bs') := cb_data cbs id bs in
  (st = PKT_OK \/ st = PKT_PREFIX_MISMATCH \/ st = PKT_SIZE_MISMATCH) /\
  ((len = None \/ len = Some 0%nat) /\ bs' = bs \/
   exists d l c e rest o, len = Some (Datatypes.S d) /\ st = PKT_OK /\ bs = l ++ c :: rest /\ bs' = l ++ e :: rest /\ l <> [] /\ line_text l /\ eol e /\
     start = Some o /\ (length l < o <= length bs)%nat /\ ok_line l).
(** ... and that line is one that a data command in flight expects. *)
Definition announces_properly (c : Request.state) : nat -> list N -> Prop := announces (of_data_command c).
(** A data-send prefix callback, called with these bytes at this offset of the buffer, does what it may: it leaves the bytes alone, or it
    replaces the prompt - the first bytes - by a complete line, if there is room for it. *)
Definition prompts_properly (line id : nat) (bs : list N) : Prop :=
  let '(st, bs') := cb_send cbs id bs in
  bs' = bs /\ (st = PKT_OK \/ st = PKT_PREFIX_MISMATCH \/ st = PKT_SIZE_MISMATCH) \/
  st = PKT_OK /\ exists raw l e rest, bs = raw ++ rest /\ bs' = l ++ e :: rest /\ l <> [] /\ line_text l /\ eol e /\ (line + length bs' <= cap)%nat.

(** The input-buffer callback, called with these bytes, does what it may: it takes some of them - the rest must not begin with a line end,
    which would count as an empty line -, says "not mine" or "more". *)
Definition takes_properly (bs : list N) : Prop :=
  forall f, cb_input cbs = Some f ->
    let '(st, len) := f bs in
    (st = PKT_OK /\ (len <= length bs)%nat /\ forall c x, skipn len bs = c :: x -> ~ eol c) \/ st = PKT_PREFIX_MISMATCH \/ st = PKT_SIZE_MISMATCH.

(** The reader works on a line behind which data was announced. *)
Definition on_announcement (p : pay) : Prop := (exists line n i, w_at (p_whole p) = Working line n i) /\ rx_dlen (w_rx (p_whole p)) <> 0%nat.
(** The action leaves the command in flight, its prefix and the token tables alone. *)
Definition keeps_command (c c' : Request.state) : Prop := typ c' = typ c /\ puse c' = puse c /\ pbuf c' = pbuf c /\ extra c' = extra c.

(** Any bytes, in any pieces, at any time, each read finding room; proper callbacks; and no request begins or ends (no time-out strikes)
    between an announcement and the moment the reader has looked at its line. *)
Definition proper (p : pay) (lb : plabel) : Prop :=
  let w := p_whole p in
  match lb with
  | PRead _ => room cap (w_rx w)
  | PApp a =>
      (forall i r, a = LCall i r -> table_small (hook_extra (rq_kind r))) /\
      (on_announcement p -> forall c', exec tt a (w_core w) = Some c' -> keeps_command (w_core w) c')
  | PFetch => forall line n bs ends rest, w_at w = Scanning line n -> Pktio.rd (rx_buf (w_rx w)) line n = Ok bs ->
      bs = ends ++ rest -> Forall eol ends -> (forall c x, rest = c :: x -> ~ eol c) -> takes_properly rest
  | PAsk => forall line n bs, w_at w = Scanning line n -> Pktio.rd (rx_buf (w_rx w)) line n = Ok bs ->
      (forall id o, p_copy p = Some (Some id, o) -> prompts_properly line id bs) /\
      (forall id, p_copy p = Some (None, Some id) -> announces_properly (w_core w) id bs)
  | _ => True
  end.

(** As [announces_properly], but the line may also arrive when no command expects it (any more). *)
Definition announces_in_format : nat -> list N -> Prop := announces (fun _ => True).
(** As [proper], but ... *)
Definition in_format (p : pay) (lb : plabel) : Prop :=
  match lb with
  | PAsk => forall line n bs, w_at (p_whole p) = Scanning line n -> Pktio.rd (rx_buf (w_rx (p_whole p))) line n = Ok bs ->
      (forall id o, p_copy p = Some (Some id, o) -> prompts_properly line id bs) /\
      (forall id, p_copy p = Some (None, Some id) -> announces_in_format id bs)
  | _ => proper p lb
  end.

(** As [proper], but requests may begin and end (time-outs may strike) at any time. *)
Definition at_any_time (p : pay) (lb : plabel) : Prop :=
  match lb with
  | PApp a => forall i r, a = LCall i r -> table_small (hook_extra (rq_kind r))
  | _ => proper p lb
  end.

(** The request has been set up and not been ended. *)
Definition command_set_up (c : call) (p : tpc) : Prop :=
  match p with Setup k | SendA k | SendB k | Wait k | Request.Reset k _ _ | Unhook k _ _ => k = c | _ => False end.
(** The callback the reader is about to call was supplied with a request that has not ended: a data-send prefix callback with a data-send
    request, a data prefix callback with a data request. *)
Definition call_is_current (p : pay) : Prop :=
  let set_up_with k := exists i pc c, nth_error (ths (w_core (p_whole p))) i = Some pc /\ command_set_up c pc /\ k (rq_kind (c_req c)) in
  (forall id o, p_copy p = Some (Some id, o) -> set_up_with (fun kind => exists payload, kind = KSend (Some id) payload)) /\
  (forall id, p_copy p = Some (None, Some id) -> set_up_with (fun kind => kind = KRecv (Some id))).
(** The request that installed the callback which the reader holds a copy of does not end now. *)
Definition no_end_under_callback (p : pay) (lb : plabel) : Prop :=
  forall i, lb = PApp (LThread i) -> (exists s d, p_copy p = Some (s, d) /\ (s <> None \/ d <> None)) ->
  forall c st o, nth_error (ths (w_core (p_whole p))) i <> Some (Unhook c st o).
End Env.

(** Specification vocabulary for the receive path. *)
From Coq Require Import List NArith ZArith Bool.
From Verif Require Import Bytes AtCore Status SpecAt Pktio.
Import ListNotations.

(** Line terminators of the modem byte stream. *)
Definition eol (c : N) : Prop := (c = 0 \/ c = 13 \/ c = 10)%N.
Definition line_text (l : str) : Prop := Forall (fun c => ~ eol c) l.

(** ** Line classification *)
Definition in_table (t : option (list str)) (l : str) : Prop := exists k, t = Some k /\ In l k.
(** The line carries a response prefix (of a length the library can treat). *)
Definition prefixed (l : str) : Prop := at_len_ok l /\ prefix_form l.
(** The line starts with the prefix the command in flight expects. *)
Definition expected (prefix : option str) (l : str) : Prop := exists p, prefix = Some p /\ is_prefix_of p l.
(** A usable expectation: none, or a non-empty text of treatable length. *)
Definition prefix_usable (prefix : option str) : Prop := forall p, prefix = Some p -> at_len_ok p.

(** The line belongs to the command in flight. *)
Definition line_of_command (tt : token_table) (cmd : at_type) (prefix : option str) (l : str) : Prop :=
  ~ in_table (tk_urc_wo_prefix tt) l /\ cmd <> T_NO_COMMAND /\ (prefixed l -> expected prefix l).
Definition line_is_urc (tt : token_table) (cmd : at_type) (prefix : option str) (l : str) : Prop :=
  in_table (tk_urc_wo_prefix tt) l \/ (prefixed l /\ (cmd = T_NO_COMMAND \/ ~ expected prefix l)).
Definition line_is_unexpected (tt : token_table) (cmd : at_type) (l : str) : Prop :=
  ~ in_table (tk_urc_wo_prefix tt) l /\ cmd = T_NO_COMMAND /\ ~ prefixed l.

(** ** Result codes *)
(** Some keyword of the table is a prefix of the line. *)
Definition matches (t : option (list str)) (l : str) : Prop :=
  at_len_ok l /\ exists ks k, t = Some ks /\ In k ks /\ at_len_ok k /\ is_prefix_of k l.
Definition success_line (tt : token_table) (l : str) : Prop := matches (tk_extra_success tt) l \/ matches (tk_success tt) l.
Definition error_line (tt : token_table) (l : str) : Prop := ~ success_line tt l /\ matches (tk_error tt) l.
Definition plain_line (tt : token_table) (l : str) : Prop := ~ success_line tt l /\ ~ matches (tk_error tt) l.

Definition table_small (t : option (list str)) : Prop := forall k, t = Some k -> (length k <= 255)%nat.
(** The token tables the port must provide: error and success present, none longer than 255 entries (C11). *)
Definition tables_ok (tt : token_table) : Prop :=
  tk_error tt <> None /\ tk_success tt <> None /\
  table_small (tk_error tt) /\ table_small (tk_success tt) /\ table_small (tk_extra_success tt).

(** ** Contract of the port callbacks *)
(** The input-buffer callback edits the bytes in place. *)
Definition inbuf_contract (f : str -> pkt_status * nat * str) : Prop :=
  forall bs st len bs', f bs = (st, len, bs') -> length bs' = length bs.
(** The data-send prefix callback edits in place and may drop bytes at the end or terminate an unterminated prompt. *)
Definition send_contract (f : str -> pkt_status * str) : Prop :=
  forall bs st bs', f bs = (st, bs') ->
    (length bs' <= length bs)%nat \/
    st = PKT_OK /\ exists c e, bs' = c ++ [e] /\ eol e /\ line_text c /\ length c = length bs.
(** The data prefix callback edits in place; it announces a payload (non-zero length) only with status OK, then the
    payload starts inside the bytes it was shown, ... *)
Definition data_contract (f : str -> pkt_status * option nat * option nat * str) : Prop :=
  forall bs st start len bs', f bs = (st, start, len, bs') ->
    length bs' = length bs /\
    forall d, len = Some (S d) -> st = PKT_OK /\ exists o, start = Some o /\ (o <= length bs)%nat.
(** ... and only on a line that is an intermediate line of a data command now in flight. *)
Definition announcements_expected (v : view) : Prop :=
  forall f bs st start d bs', v_send v = None -> v_data v = Some f -> f bs = (st, start, Some (S d), bs') ->
    exists l e rest, bs' = l ++ e :: rest /\ line_text l /\ eol e /\
      prefix_usable (v_prefix v) /\ line_of_command (v_tokens v) (v_cmd v) (v_prefix v) l /\
      v_cmd2 v = T_MULTI_DATA_WO_PREFIX /\ plain_line (v_tokens v) l.

Definition view_contract (v : view) : Prop :=
  (forall f, v_inbuf v = Some f -> inbuf_contract f) /\
  (forall f, v_send v = Some f -> send_contract f) /\
  (forall f, v_data v = Some f -> data_contract f) /\
  tables_ok (v_tokens v).

(** The comm interface never delivers more than it was asked for. *)
Definition recv_contract (recv : nat -> str) : Prop := forall space, (length (recv space) <= space)%nat.

(** What the reader must do with a modem byte stream, said without buffers, pointers or chunks.

    The state is: the history of dispatches so far [h], the intermediate items [a] collected for the command in
    flight, the number [d] of payload bytes still announced (0: line mode), and the stream still to come. *)
From Coq Require Import List NArith ZArith Bool.
From Verif Require Import Bytes AtCore Status SpecAt Pktio SpecPktio.
Import ListNotations.

(** The command types that take one line, several lines, a payload, or no final result code. *)
Definition single_line_type (t : at_type) : Prop := t = T_WO_PREFIX \/ t = T_WITH_PREFIX.
Definition multi_line_type (t : at_type) : Prop := t = T_MULTI_WITH_PREFIX \/ t = T_MULTI_WO_PREFIX \/ t = T_MULTI_DATA_WO_PREFIX.
Definition no_code_type (t : at_type) : Prop := t = T_WO_PREFIX_NO_RESULT_CODE \/ t = T_WITH_PREFIX_NO_RESULT_CODE.

(** Effect of one complete line: events and the items collected afterwards. *)
Inductive line_step (v : view) (a : list (list N)) (l : str) : list event -> list (list N) -> Prop :=
| ls_urc : line_is_urc (v_tokens v) (v_cmd v) (v_prefix v) l -> line_step v a l [EvUrc l] a
| ls_success : line_of_command (v_tokens v) (v_cmd v) (v_prefix v) l -> success_line (v_tokens v) l ->
    line_step v a l [EvResp true a] []
| ls_error : line_of_command (v_tokens v) (v_cmd v) (v_prefix v) l -> error_line (v_tokens v) l ->
    line_step v a l [EvResp false a] []
| ls_single : line_of_command (v_tokens v) (v_cmd v) (v_prefix v) l -> plain_line (v_tokens v) l ->
    single_line_type (v_cmd v) -> a = [] -> line_step v a l [] [l]
| ls_multi : line_of_command (v_tokens v) (v_cmd v) (v_prefix v) l -> plain_line (v_tokens v) l ->
    multi_line_type (v_cmd v) -> line_step v a l [] (a ++ [l])
| ls_no_code : line_of_command (v_tokens v) (v_cmd v) (v_prefix v) l -> plain_line (v_tokens v) l ->
    no_code_type (v_cmd v) -> line_step v a l [EvResp true (a ++ [l])] []
| ls_unexpected_ok :
    (line_is_unexpected (v_tokens v) (v_cmd v) l \/
     line_of_command (v_tokens v) (v_cmd v) (v_prefix v) l /\ plain_line (v_tokens v) l /\
       (v_cmd v = T_NO_RESULT \/ (single_line_type (v_cmd v) /\ a <> []))) ->
    v_undef v l = PKT_OK -> line_step v a l [EvUndef l] a.

(** A line the packet handler does not take: unexpected, or not fitting the command in flight, and refused by the
    undefined-response handler. *)
Definition rejects (v : view) (a : list (list N)) (l : str) : Prop :=
  (line_is_unexpected (v_tokens v) (v_cmd v) l \/
   line_of_command (v_tokens v) (v_cmd v) (v_prefix v) l /\ plain_line (v_tokens v) l /\
     (v_cmd v = T_NO_RESULT \/ (single_line_type (v_cmd v) /\ a <> []))) /\
  v_undef v l <> PKT_OK.

(** The data prefix callback announces that [d] payload bytes start at offset [o]. *)
Definition announces (v : view) (bs : str) (o d : nat) : Prop :=
  exists f, v_data v = Some f /\ f bs = (PKT_OK, Some o, Some d, bs) /\ d <> 0%nat.
Definition not_data (v : view) (bs : str) : Prop :=
  v_data v = None \/ exists f o, v_data v = Some f /\ f bs = (PKT_PREFIX_MISMATCH, o, None, bs).
Definition wants_more (v : view) (bs : str) : Prop :=
  exists f o, v_data v = Some f /\ f bs = (PKT_SIZE_MISMATCH, o, None, bs).

Definition stream_state : Type := list event * list (list N) * nat * str.

Inductive stream_step (env : list event -> view) : stream_state -> stream_state -> Prop :=
(** line terminators between lines are skipped *)
| ss_skip h a c S : eol c -> stream_step env (h, a, 0%nat, c :: S) (h, a, 0%nat, S)
(** a complete non-empty line is dispatched *)
| ss_line h a l e S ev a' : l <> [] -> line_text l -> eol e -> not_data (env h) (l ++ e :: S) ->
    line_step (env h) a l ev a' ->
    stream_step env (h, a, 0%nat, l ++ e :: S) (h ++ ev, a', 0%nat, S)
(** a line announcing a payload is collected and payload mode entered at the announced offset *)
| ss_announce h a l e S o d : l <> [] -> line_text l -> eol e -> announces (env h) (l ++ e :: S) o d ->
    stream_step env (h, a, 0%nat, l ++ e :: S) (h, a ++ [l], d, skipn o (l ++ e :: S))
(** exactly the announced number of bytes, whatever their values, become the payload item *)
| ss_payload h a p S : p <> [] -> stream_step env (h, a, length p, p ++ S) (h, a ++ [p], 0%nat, S).

Inductive stream_steps (env : list event -> view) : stream_state -> stream_state -> Prop :=
| sss_nil x : stream_steps env x x
| sss_cons x y z : stream_step env x y -> stream_steps env y z -> stream_steps env x z.

(** Nothing more can be done with the bytes left over. *)
Definition settled (v : view) (d : nat) (S : str) : Prop :=
  (d <> 0%nat /\ (length S < d)%nat) \/
  (d = 0%nat /\ (S = [] \/ (exists c t, S = c :: t /\ ~ eol c) /\ (line_text S \/ wants_more v S))).

(** The reader refused a line: it processed the stream like [stream_steps] says up to that line, reported it, and
    dropped its input. *)
Definition refused (env : list event -> view) (start : stream_state) (h' : list event) : Prop :=
  exists h0 a0 l e S, h' = h0 ++ [EvUndef l; EvDrop] /\ l <> [] /\ line_text l /\ eol e /\ rejects (env h0) a0 l /\
    not_data (env h0) (l ++ e :: S) /\ stream_steps env start (h0, a0, 0%nat, l ++ e :: S).

(** What a whole execution must do with the chunks [cs] it received: process their concatenation; when a line is
    refused, the rest of the chunk that completed that line is lost, nothing else: the next chunk is processed from
    a clean state. *)
Inductive chunks_processed (env : list event -> view) : list event -> list (list N) -> nat -> str -> list str -> list event -> Prop :=
| cp_all h a d lft cs h' a' d' lft' : stream_steps env (h, a, d, lft ++ concat cs) (h', a', d', lft') -> settled (env h') d' lft' ->
    chunks_processed env h a d lft cs h'
| cp_refused h a d lft cs1 cs2 h1 h' : cs1 <> [] -> refused env (h, a, d, lft ++ concat cs1) h1 ->
    chunks_processed env h1 [] 0%nat [] cs2 h' -> chunks_processed env h a d lft (cs1 ++ cs2) h'.

(** The first refusal, if any, as seen from the whole stream. *)
Definition halted (env : list event -> view) (start : stream_state) (h' : list event) : Prop :=
  exists h0 a0 l e S x, h' = h0 ++ EvUndef l :: EvDrop :: x /\ l <> [] /\ line_text l /\ eol e /\ rejects (env h0) a0 l /\
    not_data (env h0) (l ++ e :: S) /\ stream_steps env start (h0, a0, 0%nat, l ++ e :: S).

(** Everything reported before the first drop. *)
Fixpoint before_drop (h : list event) : list event :=
  match h with [] => [] | EvDrop :: _ => [] | e :: t => e :: before_drop t end.

(** Plain text streams: the non-empty lines of a byte stream and the unterminated rest. *)
Fixpoint stream_lines (acc : str) (S : str) : list str * str :=
  match S with
  | [] => ([], acc)
  | c :: t =>
      if (c =? 0)%N || (c =? 13)%N || (c =? 10)%N then
        let '(ls, r) := stream_lines [] t in
        (match acc with [] => ls | _ => acc :: ls end, r)
      else stream_lines (acc ++ [c]) t
  end.
Inductive lines_steps (env : list event -> view) : list event -> list (list N) -> list str -> list event -> list (list N) -> Prop :=
| lss_nil h a : lines_steps env h a [] h a
| lss_cons h a l ev a1 ls h' a' : line_step (env h) a l ev a1 -> lines_steps env (h ++ ev) a1 ls h' a' ->
    lines_steps env h a (l :: ls) h' a'.

(** Contract of a data prefix callback for fragmented input: it does not edit the bytes; it answers "announced",
    "not mine" or "need more"; an announced payload starts behind the end of the announcing line; an announcement,
    and a "not mine" given on a complete line, do not change when more bytes follow. *)
Definition data_stable (f : str -> pkt_status * option nat * option nat * str) : Prop :=
  forall bs,
    (exists o d, f bs = (PKT_OK, Some o, Some d, bs) /\ d <> 0%nat /\ (o <= length bs)%nat /\
       (exists c, In c (firstn o bs) /\ eol c) /\
       forall x, f (bs ++ x) = (PKT_OK, Some o, Some d, bs ++ x)) \/
    (exists o, f bs = (PKT_PREFIX_MISMATCH, o, None, bs) /\
       ((exists c, In c bs /\ eol c) -> forall x, exists o', f (bs ++ x) = (PKT_PREFIX_MISMATCH, o', None, bs ++ x))) \/
    (exists o, f bs = (PKT_SIZE_MISMATCH, o, None, bs)).

(** Environments of the stream theorems: what the reader sees depends on what has been dispatched (an application
    may react to every dispatch), no input-buffer or send-prefix callback is active, the packet handler is present,
    a usable prefix and token tables are installed, and a command does not time out within one line. *)
Definition stream_env (env : environment) : Prop :=
  forall t h, env t h = env 0%nat h /\
    let v := env t h in
    v_inbuf v = None /\ v_send v = None /\ v_handler v = true /\ tables_ok (v_tokens v) /\
    prefix_usable (v_prefix v) /\ v_cmd2 v = v_cmd v /\
    (forall f, v_data v = Some f -> data_stable f) /\ announcements_expected v.

(** Executions of the reader: one read per element of the list, which is what the comm interface delivered (never
    more than asked for).  [room] excludes a read with a full buffer that still holds unfinished input. *)
Section Runs.
Variable cap : nat.
Definition compacts (s : rx) : bool :=
  match rx_ptr s with Some (S _) => true | _ => false end && negb (rx_partial s =? 0)%nat
  && match rx_resp s with None => true | _ => false end.
(** Free bytes of the read buffer that the next read offers to the comm interface. *)
Definition offered (s : rx) : nat :=
  (cap - rx_partial s - (if compacts s then 0 else match rx_ptr s with Some p => p | None => 0 end))%nat.
Definition room (s : rx) : Prop := offered s <> 0%nat \/ (rx_partial s = 0%nat /\ rx_resp s = None).
Inductive run (fuel : nat) (env : environment) : nat -> list event -> rx -> list str -> nat -> list event -> rx -> Prop :=
| run_nil t h s : run fuel env t h s [] t h s
| run_read t h s recv k t1 h1 s1 cs t2 h2 s2 :
    recv_contract recv -> room s ->
    handleRxDataEvent cap fuel env t h s recv = Ok (k, t1, h1, s1) ->
    run fuel env t1 h1 s1 cs t2 h2 s2 ->
    run fuel env t h s (recv (offered s) :: cs) t2 h2 s2.
End Runs.

(** [sorted_out v ls us ps]: every line of [ls] is a URC (collected in [us]) or an intermediate line of the command in
    flight (collected in [ps]), in order. *)
Inductive sorted_out (v : view) : list str -> list str -> list str -> Prop :=
| so_nil : sorted_out v [] [] []
| so_urc l ls us ps : line_is_urc (v_tokens v) (v_cmd v) (v_prefix v) l -> sorted_out v ls us ps ->
    sorted_out v (l :: ls) (l :: us) ps
| so_plain l ls us ps : line_of_command (v_tokens v) (v_cmd v) (v_prefix v) l -> plain_line (v_tokens v) l ->
    sorted_out v ls us ps -> sorted_out v (l :: ls) us (l :: ps).

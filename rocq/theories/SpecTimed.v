(** Vocabulary for receiving while time passes: what the reader sees may change between any two lines (a command is set up, its
    response is complete, it times out, another thread sends the next one). *)
From Coq Require Import List NArith ZArith Bool.
From Verif Require Import Bytes AtCore Status SpecAt Pktio SpecPktio SpecStream G3pp Wire SpecWire.
Import ListNotations.

(** Environments: arbitrary at each moment; text only, packet handler present, a usable prefix and token tables installed, and the
    command does not change while one line is processed. *)
Definition text_env (env : environment) : Prop :=
  forall t h, let v := env t h in
    v_inbuf v = None /\ v_send v = None /\ v_data v = None /\ v_handler v = true /\ tables_ok (v_tokens v) /\
    prefix_usable (v_prefix v) /\ v_cmd2 v = v_cmd v.

(** A line with the moment it is processed. *)
Definition arrival : Type := nat * str.
(** The moments are in order, from [t] on and before [t']. *)
Fixpoint in_order (t : nat) (ls : list arrival) (t' : nat) : Prop :=
  match ls with [] => (t <= t')%nat | (k, _) :: r => (t <= k)%nat /\ in_order (S k) r t' end.
(** Each line has the effect [line_step] gives it in what the reader sees at that moment. *)
Inductive dispatched (env : environment) : list event -> list (list N) -> list arrival -> list event -> list (list N) -> Prop :=
| dp_nil h a : dispatched env h a [] h a
| dp_cons h a t l ev a1 ls h' a' : line_step (env t h) a l ev a1 -> dispatched env (h ++ ev) a1 ls h' a' ->
    dispatched env h a ((t, l) :: ls) h' a'.
(** Lines of a stream for a reader that holds [cap] bytes: as [stream_lines], but text of [cap] bytes without a line end is dropped (what
    follows it starts a line of its own). *)
Fixpoint capped_lines (cap : nat) (acc : str) (S : str) : list str * str :=
  match S with
  | [] => ([], acc)
  | c :: t =>
      if (c =? 0)%N || (c =? 13)%N || (c =? 10)%N then
        let '(ls, r) := capped_lines cap [] t in
        (match acc with [] => ls | _ => acc :: ls end, r)
      else if (length (acc ++ [c]) =? cap)%nat then capped_lines cap [] t
      else capped_lines cap (acc ++ [c]) t
  end.

(** Executions of the reader: any sequence of reads, in which none finds the buffer full while lines of an answer are being collected
    (see C20 for those that do). *)
Inductive execution (cap fuel : nat) (env : environment) : nat -> list event -> rx -> list str -> nat -> list event -> rx -> Prop :=
| ex_nil t h s : execution cap fuel env t h s [] t h s
| ex_read t h s recv k t1 h1 s1 cs t2 h2 s2 :
    recv_contract recv -> offered cap s <> 0%nat \/ rx_resp s = None ->
    handleRxDataEvent cap fuel env t h s recv = Ok (k, t1, h1, s1) ->
    execution cap fuel env t1 h1 s1 cs t2 h2 s2 ->
    execution cap fuel env t h s (recv (offered cap s) :: cs) t2 h2 s2.

(** What a whole execution does with the chunks [cs], the lines [a] collected and the unfinished line [lft] so far: the lines each chunk
    completes are dispatched one by one; when one is refused, the rest of its chunk is lost, nothing else. *)
Inductive text_processed (cap : nat) (env : environment) : nat -> list event -> list (list N) -> str -> list str -> nat -> list event -> Prop :=
| tp_nil t h a lft t' : (t <= t')%nat -> text_processed cap env t h a lft [] t' h
| tp_chunk t h a lft c cs ls lft' t1 h1 a1 t' h' : capped_lines cap lft c = (map snd ls, lft') -> in_order t ls t1 ->
    dispatched env h a ls h1 a1 -> text_processed cap env t1 h1 a1 lft' cs t' h' -> text_processed cap env t h a lft (c :: cs) t' h'
| tp_refused t h a lft c cs ls k l rest t1 h1 a1 t' h' : fst (capped_lines cap lft c) = map snd ls ++ l :: rest -> in_order t ls k -> (k < t1)%nat ->
    dispatched env h a ls h1 a1 -> rejects (env k h1) a1 l ->
    text_processed cap env t1 (h1 ++ [EvUndef l; EvDrop]) [] [] cs t' h' -> text_processed cap env t h a lft (c :: cs) t' h'.

(** [received cap env t cs t' h' ls]: of the lines of the chunks [cs], which arrived between [t] and [t'], the lines [ls] were dispatched;
    these are all, unless a line was refused and dropped (then all before that one). *)
Definition received (cap : nat) (env : environment) (t : nat) (cs : list str) (t' : nat) (h' : list event) (ls : list arrival) : Prop :=
  exists h1 a1, in_order t ls t' /\ dispatched env [] [] ls h1 a1 /\
    ((h' = h1 /\ map snd ls = fst (capped_lines cap [] (concat cs))) \/
     (exists k l rest x, fst (capped_lines cap [] (concat cs)) = map snd ls ++ l :: rest /\ rejects (env k h1) a1 l /\
        h' = h1 ++ EvUndef l :: EvDrop :: x)).

(** [timed_reply env q h ps ls a h' ps']: with history [h] and the lines [ps] already received for [q], the arrivals [ls] make up the
    answer [a] to [q].  URCs and other lines the port's handler accepts do not belong to it; each line of the answer comes while [q]
    is in flight.  Without a final line the request times out and the lines [ps'] are left behind. *)
Inductive timed_reply (env : environment) (q : req) : list event -> list str -> list arrival -> answer -> list event -> list str -> Prop :=
| tr_none h ps : timed_reply env q h ps [] (NoAnswer true) h ps
| tr_urc h ps t l ls a h' ps' : line_is_urc (v_tokens (env t h)) (v_cmd (env t h)) (v_prefix (env t h)) l ->
    timed_reply env q (h ++ [EvUrc l]) ps ls a h' ps' -> timed_reply env q h ps ((t, l) :: ls) a h' ps'
| tr_other h ps t l ls a h' ps' : line_is_unexpected (v_tokens (env t h)) (v_cmd (env t h)) l -> v_undef (env t h) l = PKT_OK ->
    timed_reply env q (h ++ [EvUndef l]) ps ls a h' ps' -> timed_reply env q h ps ((t, l) :: ls) a h' ps'
| tr_line h ps t l ls a h' ps' : in_flight (env t h) q -> line_of_command (v_tokens (env t h)) (rq_type q) (v_prefix (env t h)) l ->
    plain_line (v_tokens (env t h)) l -> takes_line (rq_type q) ps ->
    timed_reply env q h (ps ++ [l]) ls a h' ps' -> timed_reply env q h ps ((t, l) :: ls) a h' ps'
| tr_success h ps t l : in_flight (env t h) q -> line_of_command (v_tokens (env t h)) (rq_type q) (v_prefix (env t h)) l ->
    success_line (v_tokens (env t h)) l -> timed_reply env q h ps [(t, l)] (Answered ps) (h ++ [EvResp true ps]) []
| tr_error h ps t l : in_flight (env t h) q -> line_of_command (v_tokens (env t h)) (rq_type q) (v_prefix (env t h)) l ->
    error_line (v_tokens (env t h)) l -> timed_reply env q h ps [(t, l)] Refused (h ++ [EvResp false ps]) []
| tr_no_code h ps t l : in_flight (env t h) q -> line_of_command (v_tokens (env t h)) (rq_type q) (v_prefix (env t h)) l ->
    plain_line (v_tokens (env t h)) l -> no_code_type (rq_type q) ->
    timed_reply env q h ps [(t, l)] (Answered (ps ++ [l])) (h ++ [EvResp true (ps ++ [l])]) [].

(** [timed_session env m sent h rs ls ws]: after the requests [sent], the arrivals [ls] answer the requests [rs] one after the other
    as the modem [m] does; [ws] are the reader's events from each request to its return.  A request that times out leaves nothing
    behind unless it is the last one (what happens otherwise is C28, C29). *)
Inductive timed_session (env : environment) (m : modem) : list req -> list event -> list req -> list arrival -> list (list event) -> Prop :=
| ts_nil sent h : timed_session env m sent h [] [] []
| ts_cons sent h q rs l1 l2 w ws : timed_reply env q h [] l1 (m (sent ++ [q])) (h ++ w) [] ->
    timed_session env m (sent ++ [q]) (h ++ w) rs l2 ws -> timed_session env m sent h (q :: rs) (l1 ++ l2) (w :: ws)
| ts_last sent h q l1 w ps : timed_reply env q h [] l1 (m (sent ++ [q])) (h ++ w) ps ->
    timed_session env m sent h [q] l1 [w].

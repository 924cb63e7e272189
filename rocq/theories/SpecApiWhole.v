(** Specification vocabulary for API calls made by several threads (C101): what the modem said to a request, and what the requesting thread
    saw of it. *)
From Coq Require Import List NArith ZArith Bool Arith.
From Verif Require Import Bytes Status SpecAt Pktio SpecPktio SpecStream G3pp Wire SpecWire Request SpecRequest SpecAnswers Whole SpecWhole.
Import ListNotations.

(** The request an API function passes to the request function, with or without a response callback. *)
Definition as_request (q : G3pp.req) (b : bool) : Request.request :=
  {| rq_kind := KPlain; rq_cmd := Some (G3pp.rq_cmd q); rq_type := G3pp.rq_type q; rq_prefix := G3pp.rq_prefix q; rq_cb := b |}.

(** What the modem said in answer to the command of call [id], according to the bytes it sent. *)
Inductive modem_said (tt : token_table) (wl : list wlabel) (id : nat) (r : Request.request) : answer -> Prop :=
| ms_silent : answered wl (id, false) = [] -> modem_said tt wl id r (NoAnswer true)
| ms_refused body l : answered wl (id, false) = body ++ [l] -> error_line (tokens_of tt r) (l_text l) -> modem_said tt wl id r Refused
| ms_answered ls l : complete_answer tt wl id r ls l -> modem_said tt wl id r (Answered (map l_text ls)).

(** What the calling thread saw: the status of the request and, if its response callback ran, the lines that read. *)
Definition thread_saw (w : whole) (c : call) (a : answer) : Prop :=
  exists st o, In (Returned c st o) (log (w_core w)) /\
  match a with
  | NoAnswer t => t = true /\ st = PKT_TIMED_OUT /\ forall ls l, ~ In (Delivered (c_id c) ls l) (log (w_core w))
  | Refused => st = PKT_FAILURE /\ forall ls l, ~ In (Delivered (c_id c) ls l) (log (w_core w))
  | Answered ls => if rq_cb (c_req c) then exists lls l, In (Delivered (c_id c) lls l) (log (w_core w)) /\ map l_text lls = ls
                   else st = PKT_OK
  end.

(** A modem that gives these answers, one after the other. *)
Definition replay (as_ : list answer) : modem := fun sent => nth (length sent - 1) as_ (NoAnswer true).

(** The calls [cs] are those an API call [f] with result [x] made: its requests, one by one, and whatever the thread saw, [f] makes [x] of
    it (for a request without callback the lines of the answer are not seen). *)
Definition api_call {A} (f : modem -> res (result A)) (w : whole) (cs : list call) (x : result A) : Prop :=
  Forall2 (fun c q => exists b, c_req c = as_request q b /\ can_send (c_req c)) cs (sent x) /\
  (forall c, In c cs -> exists st o, In (Returned c st o) (log (w_core w))) /\
  forall as_, Forall2 (thread_saw w) cs as_ -> f (replay as_) = Ok x.

(** From the byte stream to the results of the API calls: what a sequence of requests obtains from the bytes the modem sends, as
    delivered by the reader (Pktio.v), in the form the API layer (G3pp.v) sees it; and the remaining API functions built directly on
    a request.

    Simplification: the requests are made one after the other (concurrent callers are in Request.v); plain requests only (no data
    callbacks). *)
From Coq Require Import String List NArith ZArith Bool.
From Verif Require Import Bytes AtCore Status Pktio RegStatus G3pp.
From Verif Require Request.
Import ListNotations.

(** The responses handed to the packet handler so far: success or error, and the lines. *)
Definition responses (h : list event) : list (bool * list (list N)) :=
  flat_map (fun e => match e with EvResp ok ls => [(ok, ls)] | _ => [] end) h.

(** What a request is answered with, by the response the reader handed over: cellular_pkthandler.c:86-117
    _convertAndQueueRespPacket (success: the callback runs on the lines; otherwise failure) and 234-252 (nothing queued: time-out). *)
Definition response_answer (r : option (bool * list (list N))) : answer :=
  match r with
  | Some (true, ls) => Answered ls
  | Some (false, _) => Refused
  | None => NoAnswer true
  end.

(** The n-th request of a sequence gets the n-th response. *)
Definition wire_modem (h : list event) : modem := fun sent => response_answer (nth_error (responses h) (length sent - 1)).

(** The same with time-outs: [ws] are the reader's events between the set-up of each request and its return; a request whose window
    contains no response returns with the time-out of cellular_pkthandler.c:246-250. *)
Definition window_modem (ws : list (list event)) : modem := fun sent =>
  response_answer (hd_error (responses (nth (length sent - 1) ws []))).

(** The reader's view while request [q] is in flight: what _Cellular_PktioSendAtCmd stored (cellular_pktio.c:1455-1468,
    Request.send_check). *)
Definition in_flight (v : view) (q : req) : Prop :=
  v_cmd v = rq_type q /\ Request.send_check (rq_cmd q) (rq_type q) (rq_prefix q) = inr (v_prefix v).

(** /repo/source/cellular_common_api.c:363-404 Cellular_CommonATCommandRaw.  [payload = None]: NULL; [cb]: the caller's callback
    acting on the caller's data [a], if any.  A command _Cellular_PktioSendAtCmd rejects (cellular_pktio.c:1439-1468) is not sent
    and the request fails; [sent] lists what was sent. *)
Definition ATCommandRaw {A} (lib : option lib_flags) (m : modem) (prefix payload : option str) (t : at_type)
  (cb : option (list str -> A -> res (pkt_status * A))) (a : A) : res (result A) :=
  match CheckLibraryStatus lib with
  | C_SUCCESS =>
      match payload with
      | None => rejected C_BAD_PARAMETER a
      | Some cmd =>
          match Request.send_check cmd t prefix with
          | inl st => rejected (TranslatePktStatus st) a
          | inr _ => finish (request m [] {| rq_cmd := cmd; rq_type := t; rq_prefix := prefix |}
                               (match cb with Some f => f | None => no_callback end) a) (fun x => x)
          end
      end
  | e => rejected e a
  end.

(** /repo/source/cellular_common.c:807-830 _Cellular_GetCurrentRat. *)
Definition GetCurrentRat (lib : option lib_flags) (d : at_data) (p : option Z) : cell_error * option Z :=
  match CheckLibraryStatus lib with
  | C_SUCCESS => match p with None => (C_BAD_PARAMETER, p) | Some _ => (C_SUCCESS, Some (d_rat d)) end
  | e => (e, p)
  end.

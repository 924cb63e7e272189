(** From the bytes of the modem to the registration callback: the reader's URCs (Pktio.v) go through _processUrcPacket (PktHandler.v)
    to the registration handlers (RegStatus.v).  The record of the registration is changed by them and by answers to registration
    queries; here no such query is in flight.  Memory for the copy of the line is obtained by [alloc]. *)
From Coq Require Import List NArith ZArith Bool.
From Verif Require Import Bytes AtCore Status SpecAt Pktio PktHandler RegStatus.
Import ListNotations.

(** What the application and the port are told: a registration event (callback of Cellular_RegisterUrcNetworkRegistrationEventCallback), a
    URC for another handler of the port's table, a URC for the generic callback. *)
Inductive told := ToldReg (e : reg_event) | ToldHandler (h : nat) (text : str) | ToldGeneric (text : str).

Section RegWire.
(** Width of long, memory, the port's URC table, and which of its handlers are Cellular_CommonUrcProcessCreg / Cgreg / Cereg. *)
Variables (bits : Z) (alloc : nat -> option (list N)) (tbl : list urc_entry) (who : nat -> option reg_type).

(** cellular_pkthandler.c:450, 188: the handler or the generic callback gets the text. *)
Definition urc_effect_step (cb : bool) (e : urc_effect) (d : at_data) : res (at_data * list told) :=
  match e with
  | CallHandler h text =>
      match who h with
      | Some rt => do r <- UrcProcessReg bits cb rt (Some text) d; let '(_, d', ev) := r in Ok (d', map ToldReg ev)
      | None => Ok (d, [ToldHandler h text])
      end
  | CallGeneric text => Ok (d, [ToldGeneric text])
  end.
(** In order. *)
Fixpoint urc_effects (cb : bool) (es : list urc_effect) (d : at_data) : res (at_data * list told) :=
  match es with
  | [] => Ok (d, [])
  | e :: r => do x <- urc_effect_step cb e d; do y <- urc_effects cb r (fst x); Ok (fst y, snd x ++ snd y)
  end.
(** cellular_pkthandler.c:542-544 _Cellular_HandlePacket, AT_UNSOLICITED, for one event of the reader. *)
Definition urc_event (cb : bool) (e : event) (d : at_data) : res (at_data * list told) :=
  match e with
  | EvUrc l => do r <- processUrcPacket alloc tbl (obj [] l []) 0; urc_effects cb (snd r) d
  | _ => Ok (d, [])
  end.
(** All events of the reader, in order. *)
Fixpoint urc_events (cb : bool) (h : list event) (d : at_data) : res (at_data * list told) :=
  match h with
  | [] => Ok (d, [])
  | e :: r => do x <- urc_event cb e d; do y <- urc_events cb r (fst x); Ok (fst y, snd x ++ snd y)
  end.
End RegWire.

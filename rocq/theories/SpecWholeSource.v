(** Specification vocabulary: what the modem sent, whatever it is, and what calls return of it (C100). *)
From Coq Require Import List NArith ZArith Bool Arith.
From Verif Require Import Bytes AtCore Status SpecAt Pktio SpecPktio Request Whole.
Import ListNotations.

(** The bytes the modem sends in a run. *)
Definition modem_bytes (lbs : list wlabel) : list N := flat_map (fun lb => match lb with WSend bs _ => bs | _ => [] end) lbs.
(** The undefined-response handler refused a line: the rest of the receive buffer was thrown away. *)
Definition refused_once (lbs : list wlabel) : Prop := exists k, In (WLine (LUndef false k)) lbs.
(** The modem sent [l] as a line: it is followed by a line end, and what is in front of it ends in a line end, unless bytes in front of it
    have been thrown away. *)
Definition sent_as_line (lbs : list wlabel) (l : list N) : Prop :=
  l <> [] /\ line_text l /\
  exists before e after, modem_bytes lbs = before ++ l ++ e :: after /\ eol e /\
    (before = [] \/ (exists b c, before = b ++ [c] /\ eol c) \/ refused_once lbs).

(** The status that a line (did it mean success?) and the response callback (if one was called) decide. *)
Definition verdict_of (q : qitem) : pkt_status :=
  if q_ok q then match q_cb q with Some st => st | None => PKT_OK end else PKT_FAILURE.

(** Specification for the consistency of the registration data seen by applications (C98). *)
From Coq Require Import List NArith ZArith Bool Arith.
From Verif Require Import Bytes Status RegStatus AtData.
Import ListNotations.

(** The data after a message, if nothing else ran: what the URC handler, or the response callback of the query, makes of it (C36-C40 say
    what that is). *)
Definition records (bits : Z) (m : message) (d : at_data) : at_data :=
  match (match m with Urc rt payload => UrcProcessReg bits true rt payload d | AnswerLine rt l => RecvFuncGetNetworkReg bits true [l] rt d end) with
  | Ok (_, d', _) => d'
  | _ => d
  end.
(** The data after the messages [ms], from the start. *)
Definition data_after (bits : Z) (ms : list message) : at_data := fold_left (fun d m => records bits m d) ms at_data0.

(** The answer to a call, if the data is [d]: the members of CellularServiceStatus_t in the order rat, csRegistrationStatus,
    psRegistrationStatus, csRejectionCause, csRejectionType, psRejectionCause, psRejectionType. *)
Definition answer_of (d : at_data) (o : op) : list Z :=
  match o with
  | OpService => [d_rat d; d_cs d; d_ps d; d_csRejCause d; d_csRejType d; d_psRejCause d; d_psRejType d]
  | OpPsStatus => [d_ps d]
  | OpRat => [d_rat d]
  end.
(** What the registration callback is told, if the data is [d]. *)
Definition status_of (k : reg_event_kind) (d : at_data) : reg_event :=
  {| ev_kind := k; ev_rat := d_rat d; ev_cs := d_cs d; ev_ps := d_ps d; ev_csRejCause := d_csRejCause d; ev_csRejType := d_csRejType d;
     ev_psRejCause := d_psRejCause d; ev_psRejType := d_psRejType d |}.
(** How many messages had been recorded at the moment of an observation. *)
Definition moment (x : seen) : nat := match x with Got _ _ _ upto _ => upto | Called upto _ => upto end.

(** An observation shows the data as it was after the first [moment x] messages: all members of the same moment, a copy of one within
    the call; the callback the data after the message it reports, whose domain's status has changed. *)
Definition shows_one_moment (bits : Z) (ms : list message) (x : seen) : Prop :=
  (moment x <= length ms)%nat /\
  match x with
  | Got i o from upto vals => (from <= upto)%nat /\ vals = answer_of (data_after bits (firstn upto ms)) o
  | Called upto e =>
      exists before m, firstn upto ms = before ++ [m] /\
        (msg_type m = REG_CREG /\ e = status_of EV_CS (data_after bits (before ++ [m])) /\ d_cs (data_after bits (before ++ [m])) <> d_cs (data_after bits before) \/
         (msg_type m = REG_CGREG \/ msg_type m = REG_CEREG) /\ e = status_of EV_PS (data_after bits (before ++ [m])) /\ d_ps (data_after bits (before ++ [m])) <> d_ps (data_after bits before))
  end.
(** Observations in the order in which they were made: none is older than an earlier one. *)
Fixpoint never_older (l : list seen) : Prop :=
  match l with [] => True | x :: t => Forall (fun y => (moment x <= moment y)%nat) t /\ never_older t end.

(** Properties C78-C80: blocking, and the lifetime of the response queue and of the comm interface (model: Locks.v). *)
From Coq Require Import List Bool Arith Lia.
From Verif Require Import Locks SpecLocks LocksProofs LocksInv LocksLive.
Import ListNotations.

(** Reachable-state scripts for the examples: one step at a time. *)
Ltac fwd H R := cbv beta iota zeta delta [set_owner set_bits set_comm set_queue set_reader set_life set_apps owner started aborted abort comm queue reader life apps set_nth sys0 repeat open_prog close_prog pair] in R; clear H; rename R into H.
Ltac ist H tac := match type of H with reach ?cb ?n ?s => let R := fresh in eassert (R : reach cb n _) by (eapply (RI cb n s); [exact H|tac]); fwd H R end.
Ltac xst H tac := match type of H with reach ?cb ?n ?s => let R := fresh in eassert (R : reach cb n _) by (eapply (RX cb n s); [exact H|tac]); fwd H R end.
Ltac op H tac := ist H ltac:(eapply IOpening; [reflexivity|tac]).
Ltac cl H tac := ist H ltac:(eapply IClosing; [reflexivity|tac]).
Ltac rdr H tac := ist H ltac:(eapply IBusy; [reflexivity|tac]).
Ltac app H i tac := ist H ltac:(eapply (IApp _ i); [reflexivity|tac]).
Ltac acq := eapply PSAcq; reflexivity.
(** A successful initialisation from the initial state. *)
Ltac opened H :=
  xst H ltac:(eapply XOpen; [reflexivity|repeat constructor; eexists; reflexivity]);
  op H acq; op H acq; op H ltac:(eapply PSRel); op H ltac:(eapply PSRight); op H ltac:(eapply PSMkQueue); op H ltac:(eapply PSRight);
  op H ltac:(eapply PSSpawn); ist H ltac:(eapply IComm; reflexivity); ist H ltac:(eapply IStarted; reflexivity);
  op H ltac:(eapply PSStartOk; reflexivity); op H ltac:(eapply PSRel); ist H ltac:(eapply IOpened; reflexivity).

(** ** C78: no deadlock. *)

(** For any number of application threads making any API calls at any time, concurrently with initialisation and clean-up and with
    any incoming data: whenever something is in progress, some thread can take a step.  Missing from the full claim: callbacks that
    break the rule of SpecLocks.callbacks_ok, see the refutations below. *)
Theorem c78_no_deadlock_partial n s : reach callbacks_ok n s ->
  (exists i, in_call s i) \/ starting_or_stopping s \/ reader_active s -> exists t a s', istep s t a s'.
Proof.
  intros R P. destruct (progress s (inv_reach n s R)) as [C|(Q1 & Q2 & Q3)]; [exact C|].
  exfalso. destruct P as [[i P]|[P|P]]; [exact (Q1 i P)|contradiction..].
Qed.

(** And every call returns: from any reachable state, however the threads are scheduled, the library takes only boundedly many steps
    by itself, and when it can take no more, every call, initialisation and clean-up has returned. *)
Theorem c78_calls_return_partial n s : reach callbacks_ok n s ->
  exists bound, forall k s', runs k s s' -> k <= bound /\ ((forall t a s'', ~ istep s' t a s'') -> settled s').
Proof.
  intros R. exists (work s). intros k s' U. split; [eapply runs_bound; exact U|]. intros St.
  destruct (progress s' (inv_reach n s' (reach_runs _ _ _ _ _ R U))) as [(t & a & s'' & X)|Q]; [exfalso; eapply St; exact X|exact Q].
Qed.

(** One application thread in a data-sending call while clean-up waits for the reader, which is handling a registration line whose
    callback issues an AT command. *)
Example c78_ex : exists s, reach callbacks_ok 1 s /\ in_call s 0 /\ starting_or_stopping s /\ reader_active s.
Proof.
  pose proof (R0 callbacks_ok 1) as H. opened H.
  xst H ltac:(eapply (XCall _ _ 0 true (CRequests [RData])); [reflexivity|left; reflexivity]).
  xst H ltac:(eapply (XRx _ _ [PReg [CRequests [RPlain]]]); [reflexivity|reflexivity|repeat constructor]).
  xst H ltac:(eapply XClose; reflexivity).
  eexists. split; [exact H|]. split; [|split].
  - eexists. split; [reflexivity|]. discriminate.
  - eexists. right. reflexivity.
  - exact Logic.I.
Qed.

(** Full claim refuted: the network registration callback runs with the registration data locked, so one that calls
    Cellular_GetServiceStatus blocks the reader for good; from then on nothing is received, every request of the application times
    out, and clean-up never returns.  Shown: a reachable state, without any other application thread, in which clean-up is in
    progress, the reader waits for the mutex it holds itself, and nothing whatsoever can happen. *)
Theorem c78_registration_callback_refuted : exists s,
  reach (fun e => e = [PReg [CServiceStatus]]) 0 s /\ starting_or_stopping s /\ owner s DataL = Some TReader /\
  (forall t a s', ~ istep s t a s') /\ (forall cb s', ~ xstep cb s s').
Proof.
  pose proof (R0 (fun e => e = [PReg [CServiceStatus]]) 0) as H. opened H.
  xst H ltac:(eapply (XRx _ _ [PReg [CServiceStatus]]); reflexivity).
  rdr H acq. rdr H acq. rdr H ltac:(eapply PSRel). rdr H ltac:(eapply PSRight). rdr H acq. rdr H ltac:(eapply PSRel). rdr H ltac:(eapply PSRight). rdr H ltac:(eapply PSRight).
  (* the +CREG query, which times out *)
  rdr H acq. rdr H ltac:(eapply PSRight). rdr H acq. rdr H ltac:(eapply PSRel). rdr H ltac:(eapply PSComm; reflexivity). rdr H ltac:(eapply PSRight).
  rdr H acq. rdr H ltac:(eapply PSRel). rdr H ltac:(eapply PSRight). rdr H ltac:(eapply PSSend). rdr H ltac:(eapply PSRecv). rdr H acq. rdr H ltac:(eapply PSRel).
  rdr H ltac:(eapply PSRight). rdr H ltac:(eapply PSRel).
  xst H ltac:(eapply XClose; reflexivity).
  cl H acq. cl H ltac:(eapply PSRel). cl H ltac:(eapply PSSetAbort).
  eexists. split; [exact H|]. split; [eexists; right; reflexivity|]. split; [reflexivity|]. split.
  - intros t a s' St. inversion St; subst; simpl in *; try discriminate.
    + destruct i; discriminate.
    + match goal with E : LClosing _ = LClosing _ |- _ => inversion E; subst end. match goal with P : pstep _ _ _ _ _ _ |- _ => inversion P; subst; simpl in *; discriminate end.
    + match goal with E : RBusy _ = RBusy _ |- _ => inversion E; subst end. match goal with P : pstep _ _ _ _ _ _ |- _ => inversion P; subst; simpl in *; discriminate end.
  - intros cb s' X. inversion X; subst; simpl in *; try discriminate. destruct i; discriminate.
Qed.

(** Likewise an input-buffer callback that (un)registers a callback: it runs with the response mutex held. *)
Theorem c78_input_callback_refuted : exists s,
  reach (fun e => e = [PInput [CRegisterRaw]]) 0 s /\ starting_or_stopping s /\ owner s RespL = Some TReader /\
  (forall t a s', ~ istep s t a s') /\ (forall cb s', ~ xstep cb s s').
Proof.
  pose proof (R0 (fun e => e = [PInput [CRegisterRaw]]) 0) as H. opened H.
  xst H ltac:(eapply (XRx _ _ [PInput [CRegisterRaw]]); reflexivity).
  rdr H acq.
  xst H ltac:(eapply XClose; reflexivity).
  cl H acq. cl H ltac:(eapply PSRel). cl H ltac:(eapply PSSetAbort).
  eexists. split; [exact H|]. split; [eexists; right; reflexivity|]. split; [reflexivity|]. split.
  - intros t a s' St. inversion St; subst; simpl in *; try discriminate.
    + destruct i; discriminate.
    + match goal with E : LClosing _ = LClosing _ |- _ => inversion E; subst end. match goal with P : pstep _ _ _ _ _ _ |- _ => inversion P; subst; simpl in *; discriminate end.
    + match goal with E : RBusy _ = RBusy _ |- _ => inversion E; subst end. match goal with P : pstep _ _ _ _ _ _ |- _ => inversion P; subst; simpl in *; discriminate end.
  - intros cb s' X. inversion X; subst; simpl in *; try discriminate. destruct i; discriminate.
Qed.

(** And clean-up waits as long as the modem keeps sending: the request to stop is looked at only when no data is left, so with data
    always available the reader goes round for ever while clean-up waits. *)
Theorem c78_busy_modem_refuted : exists s,
  reach callbacks_ok 0 s /\ starting_or_stopping s /\ abort s = true /\ reader_runs s s.
Proof.
  pose proof (R0 callbacks_ok 0) as H. opened H.
  xst H ltac:(eapply (XRx _ _ [PQueue]); [reflexivity|reflexivity|repeat constructor]).
  xst H ltac:(eapply XClose; reflexivity).
  cl H acq. cl H ltac:(eapply PSRel). cl H ltac:(eapply PSSetAbort). rdr H ltac:(eapply PSQSend).
  eexists. split; [exact H|]. split; [eexists; right; reflexivity|]. split; [reflexivity|].
  eapply rr3; [eapply (rr2 _ [PQueue]); [right; eexists; reflexivity|reflexivity]|].
  eapply rr1. match goal with |- istep ?s _ _ ?s' => assert (X : istep s TReader (Some QSend) (set_reader (RBusy (Ret true)) s)) by (eapply IBusy; [reflexivity|apply PSQSend]) end.
  exact X.
Qed.

(** ** C79: the response queue is used only while it exists. *)

(** Whatever callbacks do: when a request waits on the response queue, or the reader puts a status into it, the queue exists - also
    when clean-up overlaps with requests that passed the library-open check before. *)
Theorem c79_queue_used_while_it_exists cb n s t a s' : reach cb n s -> istep s t a s' -> a = Some Recv \/ a = Some QSend -> queue s = true.
Proof. intros R. apply uses_queue with (st := false). eapply inv_reach_any; exact R. Qed.

(** It is deleted only by initialisation or clean-up, with the request mutex held and after the reader has ended and the interface is
    closed; it exists while the library is open and is gone after clean-up. *)
Theorem c79_queue_lifetime cb n s : reach cb n s ->
  (forall t s', istep s t (Some DelQueue) s' -> t = TLife /\ owner s RequestL = Some TLife /\ comm s = false /\ (reader s = RNone \/ reader s = RDone)) /\
  (life s = LOpen -> queue s = true) /\ (life s = LClosed -> queue s = false).
Proof.
  intros R. split; [intros t s'; apply (deletes false); eapply inv_reach_any; exact R|].
  destruct (queue_life cb n s R) as [A B]. split; [exact A|]. intros E. apply B; exact E.
Qed.

(** A request that passed the check, overtaken by clean-up: clean-up waits for the request mutex at the point where it deletes the
    queue, the request is waiting for its answer. *)
Ltac request_in_flight H :=
  xst H ltac:(eapply (XCall _ _ 0 true (CRequests [RPlain])); [reflexivity|left; reflexivity]);
  app H 0 acq; app H 0 ltac:(eapply PSRel); app H 0 ltac:(eapply PSRight); app H 0 acq; app H 0 ltac:(eapply PSRel); app H 0 ltac:(eapply PSRight);
  app H 0 ltac:(eapply PSRight); app H 0 acq; app H 0 ltac:(eapply PSRight); app H 0 acq; app H 0 ltac:(eapply PSRel);
  app H 0 ltac:(eapply PSComm; reflexivity); app H 0 ltac:(eapply PSRight); app H 0 acq; app H 0 ltac:(eapply PSRel); app H 0 ltac:(eapply PSRight).
Ltac reader_stopped H :=
  xst H ltac:(eapply XClose; reflexivity); cl H acq; cl H ltac:(eapply PSRel); cl H ltac:(eapply PSSetAbort);
  ist H ltac:(eapply IAbort; reflexivity); ist H ltac:(eapply IClose; reflexivity); ist H ltac:(eapply IGone; reflexivity); cl H ltac:(eapply PSWaitAborted; reflexivity).
Example c79_ex : exists s p, reach callbacks_ok 1 s /\ life s = LClosing (Do (Acq RequestL) (Do DelQueue p)) /\
  exists s', istep s (TApp 0) (Some Recv) s'.
Proof.
  pose proof (R0 callbacks_ok 1) as H. opened H. request_in_flight H. app H 0 ltac:(eapply PSSend). reader_stopped H.
  eexists. eexists. split; [exact H|]. split; [reflexivity|]. eexists. eapply (IApp _ 0); [reflexivity|]. apply PSRecv.
Qed.

(** ** C80: the comm interface is used only between its opening and its closing. *)

(** Proved: data is sent only by the thread holding the request mutex, never when the library is not open, and on the open interface
    unless clean-up is in progress.  Missing: the last clause without its exception. *)
Theorem c80_send_on_open_interface_partial cb n s t s' : reach cb n s -> istep s t (Some Send) s' ->
  owner s RequestL = Some t /\ life s <> LClosed /\ (comm s = true \/ exists p, life s = LClosing p).
Proof. apply sends. Qed.

(** After clean-up the interface is closed and the reader has ended. *)
Theorem c80_closed_after_cleanup cb n s : reach cb n s -> life s = LClosed -> comm s = false /\ (reader s = RNone \/ reader s = RDone).
Proof. intros R E. destruct (queue_life cb n s R) as [_ B]. apply B. exact E. Qed.

(** Full claim refuted: the handle is checked (cellular_pktio.c:1434) well before it is used (1470), and clean-up does not wait for
    requests before it closes the interface: a request overtaken by clean-up sends on the closed interface. *)
Theorem c80_send_after_close_refuted : exists s s', reach callbacks_ok 1 s /\ comm s = false /\ reader s = RDone /\ istep s (TApp 0) (Some Send) s'.
Proof.
  pose proof (R0 callbacks_ok 1) as H. opened H. request_in_flight H. reader_stopped H.
  eexists. eexists. split; [exact H|]. split; [reflexivity|]. split; [reflexivity|]. eapply (IApp _ 0); [reflexivity|]. apply PSSend.
Qed.

Print Assumptions c78_no_deadlock_partial.
Print Assumptions c78_calls_return_partial.
Print Assumptions c78_registration_callback_refuted.
Print Assumptions c78_input_callback_refuted.
Print Assumptions c78_busy_modem_refuted.
Print Assumptions c79_queue_used_while_it_exists.
Print Assumptions c79_queue_lifetime.
Print Assumptions c80_send_on_open_interface_partial.
Print Assumptions c80_closed_after_cleanup.
Print Assumptions c80_send_after_close_refuted.

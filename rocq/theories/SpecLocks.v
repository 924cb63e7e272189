(** Notions used in the statements about blocking (Properties_Locks.v). *)
From Coq Require Import List Bool Arith.
From Verif Require Import Locks.
Import ListNotations.

(** Calls that read the registration data: Cellular_GetServiceStatus and the current-RAT query. *)
Definition uses_data (c : call) : bool := match c with CServiceStatus | CGetRat => true | _ => false end.

(** Callbacks that keep to this rule: the input-buffer callback makes no library call; the network registration callback makes none
    that reads the registration data; all other callbacks may make any calls. *)
Definition piece_ok (p : piece) : Prop :=
  match p with PInput cs => cs = [] | PReg cs => Forall (fun c => uses_data c = false) cs | _ => True end.
Definition callbacks_ok (e : list piece) : Prop := Forall piece_ok e.
(** No restriction on what callbacks do. *)
Definition any_callbacks (e : list piece) : Prop := True.

(** Application thread [i] is inside an API call. *)
Definition in_call (s : sys) (i : nat) : Prop := exists p, nth_error (apps s) i = Some p /\ forall o, p <> Ret o.
(** Initialisation or clean-up is in progress. *)
Definition starting_or_stopping (s : sys) : Prop := exists p, life s = LOpening p \/ life s = LClosing p.
(** The reader is processing received data, or is starting or ending. *)
Definition reader_active (s : sys) : Prop := match reader s with RNone | RIdle | RDone => False | _ => True end.

(** Everything has returned: no API call, initialisation or clean-up is in progress, and the reader is waiting or absent. *)
Definition settled (s : sys) : Prop := (forall i, ~ in_call s i) /\ ~ starting_or_stopping s /\ ~ reader_active s.

(** [n] steps of the library by itself: no new calls, no new data. *)
Inductive runs : nat -> sys -> sys -> Prop :=
| runs0 s : runs 0 s s
| runsS n s t a s1 s2 : istep s t a s1 -> runs n s1 s2 -> runs (S n) s s2.

(** One or more steps of the reader thread, or of the modem delivering data. *)
Inductive reader_runs : sys -> sys -> Prop :=
| rr1 s a s' : istep s TReader a s' -> reader_runs s s'
| rr2 s e s' : (reader s = RIdle /\ abort s = false \/ exists o, reader s = RBusy (Ret o)) -> s' = set_reader (RBusy (event_prog e)) s -> reader_runs s s'
| rr3 s s1 s2 : reader_runs s s1 -> reader_runs s1 s2 -> reader_runs s s2.

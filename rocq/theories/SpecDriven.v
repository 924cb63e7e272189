(** Specification vocabulary for C103: the request path on bytes with a reader that must be woken up. *)
From Coq Require Import List NArith ZArith Bool Arith.
From Verif Require Import Bytes AtCore Status SpecAt Pktio SpecPktio SpecStream Request SpecRequest SpecAnswers Whole SpecWhole Driven.
Import ListNotations.

(** The actions of the request path among those of the system. *)
Definition path_actions (lbs : list dlabel) : list wlabel := flat_map (fun lb => match lb with DWhole a => [a] | _ => [] end) lbs.
(** Everything is quiet: the comm interface owes no callback, no event is pending, the reader sleeps. *)
Definition at_rest (d : driven) : Prop := d_owed d = false /\ d_bit d = false /\ d_awake d = false.

Section Spec.
Variable cap : nat.
Variable tt : token_table.
Variable pfxs : list str.
Variable n : nat.

(** The executions considered, action by action: a modem that answers as announced (C99); *)
Definition conforming_modem (d : driven) (lb : dlabel) : Prop := match lb with DWhole a => conforming_bytes cap tt pfxs (d_whole d) a | _ => True end.
(** the platform accepts the events that the receive callback sets; *)
Definition events_accepted (d : driven) (lb : dlabel) : Prop := forall woken, lb <> DCallback false woken.
(** a read delivers at least one byte if there is one and space for it is offered; *)
Definition read_delivers (d : driven) (lb : dlabel) : Prop := lb = DWhole (WRead 0) -> w_fifo (d_whole d) = [].
(** no read finds the buffer full to its end. *)
Definition space_offered (d : driven) (lb : dlabel) : Prop := forall k, lb = DWhole (WRead k) -> offered cap (w_rx (d_whole d)) <> 0%nat.
(** All of it but the last. *)
Definition usual (d : driven) (lb : dlabel) : Prop := conforming_modem d lb /\ events_accepted d lb /\ read_delivers d lb.

(** All of it. *)
Definition roomy (d : driven) (lb : dlabel) : Prop := usual d lb /\ space_offered d lb.

(** An infinite execution: [st k] is the state after [k] moments, [act k] what happens then ([None]: nothing). *)
Definition driven_execution (ok : driven -> dlabel -> Prop) (st : nat -> driven) (act : nat -> option dlabel) : Prop :=
  st 0%nat = dinit cap n /\
  forall k, match act k with Some lb => ok (st k) lb /\ dexec cap tt lb (st k) = Some (Ok (st (S k))) | None => st (S k) = st k end.
(** The actions of the first [k] moments. *)
Definition so_far (act : nat -> option dlabel) (k : nat) : list dlabel := flat_map (fun j => match act j with Some lb => [lb] | None => [] end) (seq 0 k).

(** The comm interface calls the callback it owes. *)
Definition callbacks_come (st : nat -> driven) (act : nat -> option dlabel) : Prop :=
  forall k, d_owed (st k) = true -> exists j woken, (k <= j)%nat /\ act j = Some (DCallback true woken).
(** The reader thread is scheduled: blocked in WaitBits with the bit set, it wakes up; about to read, it reads; at work on its input, it
    acts (or the response callback it called returns). *)
Definition reader_scheduled (st : nat -> driven) (act : nat -> option dlabel) : Prop :=
  (forall k, d_awake (st k) = false -> d_bit (st k) = true -> exists j, (k <= j)%nat /\ act j = Some DWake) /\
  (forall k, d_awake (st k) = true -> w_at (d_whole (st k)) = Waiting -> exists j m, (k <= j)%nat /\ act j = Some (DWhole (WRead m))) /\
  (forall k, w_at (d_whole (st k)) <> Waiting -> exists j a, (k <= j)%nat /\ act j = Some (DWhole a) /\ reader_action a).
(** Either every read is offered space, or the modem never falls silent. *)
Definition not_cut_off (st : nat -> driven) (act : nat -> option dlabel) : Prop :=
  (forall k lb, act k = Some lb -> space_offered (st k) lb) \/ (forall k, exists j bs g, (k <= j)%nat /\ act j = Some (DWhole (WSend bs g))).
(** A thread whose next action is possible eventually acts. *)
Definition threads_scheduled (st : nat -> driven) (act : nat -> option dlabel) : Prop :=
  forall k i, (exists d, dexec cap tt (DWhole (WApp (LThread i))) (st k) = Some (Ok d)) -> exists j a, (k <= j)%nat /\ act j = Some (DWhole (WApp a)) /\ own i a.
End Spec.

(** Vocabulary for C93: finite and infinite executions of arrivals, receive callbacks and the reader thread. *)
From Coq Require Import List NArith Bool Arith.
From Verif Require Import Bytes AtCore Status SpecAt Pktio SpecPktio SpecStream Wakeup.
Import ListNotations.

Section Spec.
Variables (cap fuel : nat) (env : environment).

(** The executions considered, action by action, said about the state before: *)
(** the event group takes the bits that the interrupt handler sets, *)
Definition signals_arrive (s : state) (l : label) : Prop := forall w, l <> LCallback false w.
(** a read that finds the buffer full (C21), *)
Definition full_read (s : state) (l : label) : Prop := exists n, l = LRead n /\ offered cap (rxs s) = 0%nat.
(** a read that finds the buffer full while an answer is being collected (C20). *)
Definition full_read_collecting (s : state) (l : label) : Prop := full_read s l /\ rx_resp (rxs s) <> None.

(** [reach ok s]: [s] can be reached by actions that all satisfy [ok]. *)
Inductive reach (ok : state -> label -> Prop) : state -> Prop :=
| reach_init : reach ok (init cap)
| reach_step s l s' : reach ok s -> ok s l -> step cap fuel env l s = Some s' -> reach ok s'.

(** The library is at rest: nothing owed by the comm interface, no event pending, the reader asleep. *)
Definition at_rest (s : state) : Prop := owed s = false /\ bit_rx s = false /\ bit_abort s = false /\ reader s = Waiting.

(** Infinite executions; an action may be missing at a moment ([None]: nothing happens). *)
Definition infinite (st : nat -> state) (act : nat -> option label) : Prop :=
  st 0%nat = init cap /\ forall k, match act k with Some l => step cap fuel env l (st k) = Some (st (S k)) | None => st (S k) = st k end.
(** The comm interface calls the callback it owes, a thread that can run runs. *)
Definition callbacks_come (st : nat -> state) (act : nat -> option label) : Prop :=
  forall k, owed (st k) = true -> exists j w, (k <= j)%nat /\ act j = Some (LCallback true w).
Definition reader_runs (st : nat -> state) (act : nat -> option label) : Prop :=
  (forall k, reader (st k) = Reading -> exists j n, (k <= j)%nat /\ act j = Some (LRead n)) /\
  (forall k n, reader (st k) = Busy n -> exists j, (k <= j)%nat /\ act j = Some LDone) /\
  (forall k, reader (st k) = Waiting -> bit_rx (st k) = true -> exists j, (k <= j)%nat /\ act j = Some LWake).
End Spec.

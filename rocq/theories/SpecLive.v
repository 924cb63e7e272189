(** Specification vocabulary for infinite executions on bytes (C102): who keeps acting. *)
From Coq Require Import List NArith ZArith Bool Arith.
From Verif Require Import Bytes AtCore Status SpecAt Pktio SpecPktio SpecStream Request SpecRequest SpecAnswers Whole SpecWhole.
Import ListNotations.

Section Live.
Variable cap : nat.
Variable tt : token_table.
Variable pfxs : list str.
Variable n : nat.

(** An infinite execution with a modem that answers as announced: [st k] is the state after [k] actions, [act k] the next action. *)
Definition byte_execution (st : nat -> whole) (act : nat -> wlabel) : Prop :=
  st 0%nat = winit cap n /\ forall k, conforming_bytes cap tt pfxs (st k) (act k) /\ wexec cap tt (act k) (st k) = Some (Ok (st (S k))).
(** The first [k] actions. *)
Definition past (act : nat -> wlabel) (k : nat) : list wlabel := map act (seq 0 k).

(** The reader has something to do: it is at work, or bytes can be read. *)
Definition reader_busy (w : whole) : Prop := match w_at w with Waiting => w_fifo w <> [] | _ => True end.
(** A busy reader eventually acts (and the response callback it called returns). *)
Definition reader_runs (st : nat -> whole) (act : nat -> wlabel) : Prop :=
  forall k, reader_busy (st k) -> exists k', (k <= k')%nat /\ reader_action (act k').
(** A read delivers at least one byte if there is one and space for it is offered. *)
Definition reads_deliver (st : nat -> whole) (act : nat -> wlabel) : Prop :=
  forall k m, act k = WRead m -> w_fifo (st k) <> [] -> m <> 0%nat.
(** A thread whose next action is possible eventually acts. *)
Definition threads_run (st : nat -> whole) (act : nat -> wlabel) : Prop :=
  forall k i, (exists w, wexec cap tt (WApp (LThread i)) (st k) = Some (Ok w)) -> exists k' a, (k <= k')%nat /\ act k' = WApp a /\ own i a.
End Live.

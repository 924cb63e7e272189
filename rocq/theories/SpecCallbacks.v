(** Specification vocabulary for event callbacks: executions, event windows, last registration. *)
From Coq Require Import List Bool Arith.
From Verif Require Import Callbacks.
Import ListNotations.

(** An execution of length [n]: states 0..n, one action between consecutive states, [t] application threads. *)
Definition execution (t : nat) (x : nat -> state) (n : nat) : Prop :=
  x 0 = init t /\ forall i, i < n -> exists l, step l (x i) = Some (x (S i)).

(** The reader is handling event [e] of this kind. *)
Definition handling (s : state) (k : kind) (e : nat) : Prop :=
  rd s = RFirst k e \/ rd s = RCheck k e \/ rd s = RLock k e \/ (exists f c, rd s = RGet k e f c) \/ (exists f c, rd s = RCall k e f c).
(** The event arrived at step [i] and is being handled up to state [n]. *)
Definition window (x : nat -> state) (i n : nat) (k : kind) (e : nat) : Prop :=
  i < n /\ rd (x i) = RIdle /\ forall m, i < m <= n -> handling (x m) k e.

(** The last registration (newest entry first); nothing registered at first. *)
Fixpoint last_registration (k : kind) (l : list entry) : option nat * nat :=
  match l with
  | [] => (None, 0)
  | Registered k' f c :: l' => if kind_eqb k' k then (f, c) else last_registration k l'
  | _ :: l' => last_registration k l'
  end.
(** The invocations. *)
Definition invocations (l : list entry) : list entry := filter (fun e => match e with Invoked _ _ _ _ => true | _ => false end) l.

(** A registration for [k] is half done: function stored, lock not yet released. *)
Definition half_registered (s : state) (k : kind) : Prop :=
  exists t f c, nth_error (ths s) t = Some (ACtx k f c) \/ nth_error (ths s) t = Some (AUnlock k f c).

(** Doing a list of actions; the states passed through. *)
Fixpoint run (ls : list label) (s : state) : option state :=
  match ls with [] => Some s | l :: ls' => match step l s with Some s' => run ls' s' | None => None end end.
Fixpoint path (ls : list label) (s : state) (i : nat) : state :=
  match i, ls with
  | S i', l :: ls' => match step l s with Some s' => path ls' s' i' | None => s end
  | _, _ => s
  end.

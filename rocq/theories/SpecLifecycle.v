(** What "released exactly once" means, in terms of the sequence of platform calls only. *)
From Coq Require Import List Arith Bool.
From Verif Require Import AtCore Status Lifecycle.
Import ListNotations.

Definition resource_eq_dec (a b : resource) : {a = b} + {a <> b}.
Proof. decide equality; apply Nat.eq_dec. Defined.

(** How often a resource was acquired / released in a sequence of platform calls. *)
Fixpoint creates (r : resource) (l : list op) : nat :=
  match l with
  | [] => 0
  | OpCreate x :: t => (if resource_eq_dec r x then 1 else 0) + creates r t
  | OpDestroy _ :: t => creates r t
  end.
Fixpoint destroys (r : resource) (l : list op) : nat :=
  match l with
  | [] => 0
  | OpDestroy x :: t => (if resource_eq_dec r x then 1 else 0) + destroys r t
  | OpCreate _ :: t => destroys r t
  end.

(** Every acquisition so far has been matched by one release. *)
Definition released (r : resource) (l : list op) : Prop := creates r l = destroys r l.
(** It is held: acquired once more than released. *)
Definition held (r : resource) (l : list op) : Prop := creates r l = S (destroys r l).

(** What an open library holds, besides the sockets. *)
Definition library_resources : list resource := [RCtx; RMutex 0; RMutex 1; RMutex 2; RMutex 3; RQueue; REvent; RComm].
Definition is_socket (r : resource) : Prop := exists k, r = RSocket k.

(** A schedule: the labels executed one after the other. *)
Fixpoint exec_all (static : bool) (ls : list label) (s : state) : option state :=
  match ls with
  | [] => Some s
  | lb :: t => match exec static lb s with Some s1 => exec_all static t s1 | None => None end
  end.

(** The step that makes a call return. *)
Definition returns (static : bool) (s s' : state) (r : result) : Prop :=
  reach static s /\ (exists lb, exec static lb s = Some s') /\ results s' = r :: results s.

(** No platform or module call fails. *)
Definition nothing_fails (lb : label) : Prop :=
  match lb with LMain b e => b = true /\ e = C_SUCCESS | LReader b => b = true | _ => True end.
(** No module function fails. *)
Definition module_succeeds (lb : label) : Prop := match lb with LMain _ e => e = C_SUCCESS | _ => True end.
(** Steps of readers of released contexts. *)
Definition late_reader (lb : label) : bool := match lb with LOld _ => true | _ => false end.

(** Infinite executions, and weak fairness: a thread that can go on forever eventually does. *)
Definition execution (static : bool) (st : nat -> state) (lab : nat -> label) : Prop :=
  reach static (st 0) /\ forall i, exec static (lab i) (st i) = Some (st (S i)).
Definition app_thread (lb : label) : Prop := match lb with LMain _ _ => True | _ => False end.
Definition reader_thread (lb : label) : Prop := match lb with LReader _ => True | _ => False end.
Definition fair_for (static : bool) (thread : label -> Prop) (st : nat -> state) (lab : nat -> label) : Prop :=
  forall i, exists j, i <= j /\ (thread (lab j) \/ forall lb, thread lb -> exec static lb (st j) = None).

(** The arguments the documentation of Cellular_Init asks for: a place for the handle, a comm interface with its four functions,
    and a token table with the four tables. *)
Definition usable_arguments (p : params) : Prop :=
  p_handle p = true /\
  (exists i, p_intf p = Some i /\ ci_open i = true /\ ci_send i = true /\ ci_recv i = true /\ ci_close i = true) /\
  (exists t, p_tok p = Some t /\ ct_urcs t <> None /\ ct_error t = true /\ ct_success t = true /\ ct_wo_prefix t = true).

(** The application makes a call. *)
Definition makes_a_call (lb : label) : Prop :=
  match lb with LInit _ | LCleanup _ | LSockOpen _ | LSockClose _ => True | LMain _ _ | LReader _ | LOld _ => False end.

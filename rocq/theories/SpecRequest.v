(** Specification vocabulary for requests: assumptions on the environment, and what is observed. *)
From Coq Require Import List NArith ZArith Bool Arith.
From Verif Require Import Bytes AtCore Status SpecAt Pktio SpecPktio SpecStream Request.
Import ListNotations.

(** Every schedule, every modem. *)
Definition anything (s : state) (lb : label) : Prop := True.

(** The call is between 'lock acquired' and 'returned'. *)
Definition in_flight (p : tpc) : Prop := match p with Idle | Called _ => False | _ => True end.

(** Answer status according to the response callback. *)
Definition own_status (ok : bool) (cbst : option pkt_status) : pkt_status :=
  if ok then match cbst with Some s => s | None => PKT_OK end else PKT_FAILURE.

Section Env.
Variable tt : token_table.
Variable pfxs : list str.     (* the response prefixes the application uses *)

(** A line that completes a transmission of type [t] under the token tables [tk]. *)
Definition completes (tk : token_table) (t : at_type) (x : str) : Prop := success_line tk x \/ error_line tk x \/ no_code_type t.
(** What the completing line says: success or failure. *)
Definition verdict (tk : token_table) (t : at_type) (x : str) (ok : bool) : Prop :=
  ok = true /\ (success_line tk x \/ plain_line tk x /\ no_code_type t) \/ ok = false /\ error_line tk x.
(** A line that is a URC whatever command is pending. *)
Definition spontaneous (x : str) : Prop := forall cmd p, (forall q, p = Some q -> In q pfxs) -> line_is_urc tt cmd p x.

(** An honest modem answers only what was transmitted to it, marks nothing but the completing line as the last, and all other lines are
    URCs. *)
Definition honest (s : state) (lb : label) : Prop :=
  match lb with
  | LEmit l =>
      match l_from l with
      | None => l_last l = false /\ spontaneous (l_text l)
      | Some g => exists tr, In tr (pend s) /\ tr_tag tr = g /\
                    (l_last l = true <-> completes (tokens_now tt (tr_extra tr)) (tr_type tr) (l_text l))
      end
  | _ => True
  end.

(** Requests use the announced prefixes and tables of at most 255 entries. *)
Definition proper_calls (s : state) (lb : label) : Prop :=
  match lb with
  | LCall _ r => (forall q, rq_prefix r = Some q -> In q pfxs) /\ table_small (hook_extra (rq_kind r))
  | _ => True
  end.

Definition reader_line (p : rpc) : option line :=
  match p with
  | RIdle | RCrashed => None
  | RGot l | RPtr l _ | RMsg l _ | RTyp l _ | RUndef l | RDone _ _ l | RHandle _ _ l | RCall _ l | RInCB _ _ l | RPost _ l _ _ => Some l
  end.

(** Nothing of an answer to transmission [g] is on its way or stored, and none will come. *)
Definition no_residue (s : state) (g : tag) : Prop :=
  (forall tr, In tr (pend s) -> tr_tag tr <> g) /\
  (forall l, In l (wire s) -> l_from l <> Some g) /\
  (forall l, reader_line (rd s) = Some l -> l_from l <> Some g) /\
  resp s = None /\ queue s = None.

(** Time-outs only strike transmissions that left no residue. *)
Definition tidy_timeouts (s : state) (lb : label) : Prop :=
  match lb with
  | LTimeout i =>
      (forall c, nth_error (ths s) i = Some (Wait c) -> no_residue s (c_id c, false)) /\
      (forall c, nth_error (ths s) i = Some (DataWait c) -> no_residue s (c_id c, true))
  | _ => True
  end.

Definition honest_runs (s : state) (lb : label) : Prop := honest s lb /\ proper_calls s lb.
Definition tidy_runs (s : state) (lb : label) : Prop := honest s lb /\ proper_calls s lb /\ tidy_timeouts s lb.
End Env.

(** ** Infinite executions (for C68) *)
(** An action of thread [i]. *)
Definition own (i : nat) (lb : label) : Prop :=
  match lb with LThread j | LTimeout j | LSendLost j | LDataShort j => j = i | _ => False end.
(** An infinite execution: [st k] is the state after [k] actions, [act k] the next action. *)
Definition execution (tt : token_table) (n : nat) (st : nat -> state) (act : nat -> label) : Prop :=
  st 0%nat = init n /\ forall k, exec tt (act k) (st k) = Some (st (S k)).
(** Time advances: a thread inside a request acts again (a wait ends by the answer or the time-out). *)
Definition scheduled (st : nat -> state) (act : nat -> label) : Prop :=
  forall k i p, nth_error (ths (st k)) i = Some p -> in_flight p -> exists k', (k <= k')%nat /\ own i (act k').
(** A thread waiting for a lock that is free again and again gets it. *)
Definition lock_is_fair (st : nat -> state) (act : nat -> label) : Prop :=
  forall k i c, nth_error (ths (st k)) i = Some (Called c) -> (forall m, exists m', (m <= m')%nat /\ mtx (st m') = None) ->
    exists k', (k <= k')%nat /\ act k' = LThread i.

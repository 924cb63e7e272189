(** Event callbacks: registration (cellular_common_api.c:228-359, cellular_common.c:1095-1161) against invocation by the
    reader thread (cellular_common.c:834-892, cellular_pkthandler.c:472-500, cellular_pktio.c:905-921), as an interleaving system.

    One label is one access to a shared member, or one lock operation.  Simplifications: sequentially consistent memory; what a
    callback does is not modelled (it runs to completion and does not register callbacks itself); a registration that fails the
    library gate (C48) changes nothing and is not a step here; callbacks and contexts are known by numbers, context 0 is NULL. *)
From Coq Require Import List NArith ZArith Bool Arith.
From Verif Require Import Bytes.
Import ListNotations.

(** The seven callbacks: the members of cbEvents, undefinedRespCallback, inputBufferCallback (cellular_common_internal.h). *)
Inductive kind := EvNetwork | EvPdn | EvSignal | EvGeneric | EvModem | EvUndefined | EvInput.
(** Equality of registration kinds. *)
Definition kind_eqb (a b : kind) : bool :=
  match a, b with
  | EvNetwork, EvNetwork | EvPdn, EvPdn | EvSignal, EvSignal | EvGeneric, EvGeneric | EvModem, EvModem
  | EvUndefined, EvUndefined | EvInput, EvInput => true
  | _, _ => false
  end.
(** Assignment to one of the five function / context pairs of cellular_common_internal.h. *)
Definition upd {A} (k : kind) (v : A) (m : kind -> A) : kind -> A := fun k' => if kind_eqb k k' then v else m k'.

(** A thread registering a callback. *)
Inductive apc :=
| AIdle
| ALock (k : kind) (f : option nat) (c : nat)     (* about to lock PktRespMutex *)
| AFn (k : kind) (f : option nat) (c : nat)       (* about to store the function *)
| ACtx (k : kind) (f : option nat) (c : nat)      (* about to store the context *)
| AUnlock (k : kind) (f : option nat) (c : nat).

(** The reader thread, handling event [e]. *)
Inductive rpc :=
| RIdle
| RFirst (k : kind) (e : nat)                     (* cellular_3gpp_urc_handler.c:659, network registration only *)
| RCheck (k : kind) (e : nat)                     (* the NULL check *)
| RLock (k : kind) (e : nat)                      (* cellular_pktio.c:916, input buffer callback only *)
| RGet (k : kind) (e : nat) (f : option (option nat)) (c : option nat)  (* reading function and context, in either order *)
| RCall (k : kind) (e : nat) (f : option nat) (c : nat)                 (* about to call *)
| RCrash.                                         (* called through NULL *)

(** Owner of PktRespMutex. *)
Inductive holder := Free | App (t : nat) | Reader.
(** What happened: a registration took effect; a callback was called with its context for an event. *)
Inductive entry := Registered (k : kind) (f : option nat) (c : nat) | Invoked (k : kind) (e : nat) (f : nat) (c : nat).

(** The callback members of CellularContext (cellular_common_internal.h), the mutex, the threads and, as history, the calls. *)
Record state := { fns : kind -> option nat; ctxs : kind -> nat; owner : holder; ths : list apc; rd : rpc; log : list entry }.

(** Threads idle, nothing registered (context memory is zeroed, cellular_common.c:137). *)
Definition init (n : nat) : state :=
  {| fns := fun _ => None; ctxs := fun _ => 0; owner := Free; ths := repeat AIdle n; rd := RIdle; log := [] |}.

(** The context stored: cellular_common.c:1112-1119 and 1146-1153 store NULL when unregistering. *)
Definition stored_ctx (k : kind) (f : option nat) (c : nat) : nat :=
  match k, f with EvUndefined, None => 0 | EvInput, None => 0 | _, _ => c end.

(** Program counter of application thread [t]. *)
Definition set_th (t : nat) (p : apc) (s : state) : state :=
  {| fns := fns s; ctxs := ctxs s; owner := owner s; ths := firstn t (ths s) ++ p :: skipn (S t) (ths s); rd := rd s; log := log s |}.
(** Program counter of the reader. *)
Definition set_rd (r : rpc) (s : state) : state := {| fns := fns s; ctxs := ctxs s; owner := owner s; ths := ths s; rd := r; log := log s |}.
(** Lock or unlock PktRespMutex. *)
Definition set_owner (h : holder) (s : state) : state := {| fns := fns s; ctxs := ctxs s; owner := h; ths := ths s; rd := rd s; log := log s |}.
(** Store of a callback pointer (cellular_common_api.c:228-359). *)
Definition set_fn (k : kind) (f : option nat) (s : state) : state := {| fns := upd k f (fns s); ctxs := ctxs s; owner := owner s; ths := ths s; rd := rd s; log := log s |}.
(** Store of a callback context (cellular_common_api.c:228-359). *)
Definition set_ctx (k : kind) (c : nat) (s : state) : state := {| fns := fns s; ctxs := upd k c (ctxs s); owner := owner s; ths := ths s; rd := rd s; log := log s |}.
(** History (ghost). *)
Definition add_log (e : entry) (s : state) : state := {| fns := fns s; ctxs := ctxs s; owner := owner s; ths := ths s; rd := rd s; log := e :: log s |}.

(** Labels: a thread calls a registration function; a thread's next action; an event for the reader; the reader's next action
    ([b]: read the function first). *)
Inductive label := LCall (t : nat) (k : kind) (f : option nat) (c : nat) | LThread (t : nat) | LEvent (k : kind) (e : nat) | LReader (b : bool).

(** cellular_common_api.c:244-247, 271-274, 298-301, 325-328, 352-355; cellular_common.c:1109-1121, 1143-1155. *)
Definition thread_step (t : nat) (s : state) : option state :=
  match nth_error (ths s) t with
  | Some (ALock k f c) => match owner s with Free => Some (set_th t (AFn k f c) (set_owner (App t) s)) | _ => None end
  | Some (AFn k f c) => Some (set_th t (ACtx k f c) (set_fn k f s))
  | Some (ACtx k f c) => Some (set_th t (AUnlock k f c) (set_ctx k (stored_ctx k f c) s))
  | Some (AUnlock k f c) => Some (set_th t AIdle (set_owner Free (add_log (Registered k f (stored_ctx k f c)) s)))
  | _ => None
  end.

(** One step of the reader delivering an event: cellular_common.c:834-890. *)
Definition reader_step (b : bool) (s : state) : option state :=
  match rd s with
  | RFirst k e => match fns s k with None => Some (set_rd RIdle s) | Some _ => Some (set_rd (RCheck k e) s) end
  | RCheck k e =>
      match fns s k with
      | None => Some (set_rd RIdle s)
      | Some _ => Some (set_rd (match k with EvInput => RLock k e | _ => RGet k e None None end) s)
      end
  | RLock k e => match owner s with Free => Some (set_rd (RGet k e None None) (set_owner Reader s)) | _ => None end
  | RGet k e None None => Some (set_rd (if b then RGet k e (Some (fns s k)) None else RGet k e None (Some (ctxs s k))) s)
  | RGet k e (Some f) None => Some (set_rd (RCall k e f (ctxs s k)) s)
  | RGet k e None (Some c) => Some (set_rd (RCall k e (fns s k) c) s)
  | RGet k e (Some f) (Some c) => Some (set_rd (RCall k e f c) s)
  | RCall k e None c => Some (set_rd RCrash s)
  | RCall k e (Some f) c =>
      let s1 := add_log (Invoked k e f c) s in
      Some (set_rd RIdle (match k with EvInput => set_owner Free s1 | _ => s1 end))
  | _ => None
  end.

(** One step of the system. *)
Definition step (l : label) (s : state) : option state :=
  match l with
  | LCall t k f c => match nth_error (ths s) t with Some AIdle => Some (set_th t (ALock k f c) s) | _ => None end
  | LThread t => thread_step t s
  | LEvent k e => match rd s with RIdle => Some (set_rd (match k with EvNetwork => RFirst k e | _ => RCheck k e end) s) | _ => None end
  | LReader b => reader_step b s
  end.

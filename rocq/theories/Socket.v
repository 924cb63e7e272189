(** Socket table of /repo/source/cellular_common.c and the socket option / callback API of
    /repo/source/cellular_common_api.c. *)
From Coq Require Import List NArith ZArith Bool.
From Verif Require Import Bytes Status.
Import ListNotations.

(** /repo/source/include/cellular_config_defaults.h (CELLULAR_NUM_SOCKET_MAX default 12,
    CELLULAR_PDN_CONTEXT_ID_MIN/MAX default 1/16). *)
Definition NUM_SOCKET_MAX : nat := 12.
(** cellular_config_defaults.h:253 *)
Definition PDN_MIN : N := 1.
(** cellular_config_defaults.h:263 *)
Definition PDN_MAX : N := 16.

(** /repo/source/include/common/cellular_common.h:110-116 CellularSocketState_t *)
Inductive sock_state := SS_ALLOCATED | SS_CONNECTING | SS_CONNECTED | SS_DISCONNECTED.

(** /repo/source/include/common/cellular_common.h:122-151 CellularSocketContext_t.  Enumerations and
    callback/context pointers are numbers (0 = first enumerator / NULL); localIpAddress,
    remoteSocketAddress, dataMode and pModemData, which no code in /repo/source touches after the
    memset, are one field [sk_rest]. *)
Record sock := {
  sk_ctx : N; sk_id : N; sk_state : sock_state; sk_type : N; sk_domain : N; sk_proto : N;
  sk_localPort : N; sk_sendTo : N; sk_recvTo : N;
  sk_dataReady : N; sk_dataReadyCtx : N; sk_open : N; sk_openCtx : N; sk_closed : N; sk_closedCtx : N;
  sk_rest : N }.

(** cellular_common.c:290-304 createSocketSetSocketData (memset 0 then six assignments). *)
Definition new_sock (contextId socketId domain type proto : N) : sock :=
  {| sk_ctx := contextId; sk_id := socketId; sk_state := SS_ALLOCATED; sk_type := type; sk_domain := domain;
     sk_proto := proto; sk_localPort := 0; sk_sendTo := 0; sk_recvTo := 0; sk_dataReady := 0; sk_dataReadyCtx := 0;
     sk_open := 0; sk_openCtx := 0; sk_closed := 0; sk_closedCtx := 0; sk_rest := 0 |}.

(** The socket part of the context: pSocketData[] (None = NULL) and the socket objects in memory.  A
    handle is the address of an object; [heap h = None] means no live object at that address. *)
Record sstate := { tbl : list (option nat); heap : nat -> option sock }.

(** The heap with one socket block changed. *)
Definition hset (h : nat -> option sock) (a : nat) (v : option sock) : nat -> option sock :=
  fun b => if (b =? a)%nat then v else h b.

(** pContext after _Cellular_AllocContext (cellular_common.c:116-150: memset 0) with no live socket. *)
Definition sinit : sstate := {| tbl := repeat None NUM_SOCKET_MAX; heap := fun _ => None |}.

(** First NULL slot at or after index [i] (the for loop, cellular_common.c:533-561). *)
Fixpoint first_free (t : list (option nat)) : option nat :=
  match t with
  | [] => None
  | None :: _ => Some O
  | Some _ :: t' => match first_free t' with Some i => Some (S i) | None => None end
  end.

(** Store to pSocketData[ i ]. *)
Fixpoint tset (t : list (option nat)) (i : nat) (v : option nat) : list (option nat) :=
  match t, i with
  | [], _ => []
  | _ :: t', O => v :: t'
  | x :: t', S j => x :: tset t' j v
  end.

(** cellular_common.c:522-578 _Cellular_CreateSocketData (dynamic allocation,
    CELLULAR_CONFIG_STATIC_SOCKET_CONTEXT_ALLOCATION == 0, the default).  [m] is what Platform_Malloc
    returns if it is called.  Result: status, *pSocketHandle if written, new state. *)
Definition CreateSocketData (s : sstate) (ctx domain type proto : N) (m : option nat)
  : cell_error * option nat * sstate :=
  match first_free (tbl s) with
  | None => (C_NO_MEMORY, None, s)
  | Some i =>
      match m with
      | None => (C_NO_MEMORY, None, s)
      | Some a => (C_SUCCESS, Some a,
                   {| tbl := tset (tbl s) i (Some a);
                      heap := hset (heap s) a (Some (new_sock ctx (N.of_nat i) domain type proto)) |})
      end
  end.

(** cellular_common.c:653-665 _Cellular_IsValidPdn *)
Definition IsValidPdn (c : N) : cell_error :=
  if ((PDN_MAX <? c) || (c <? PDN_MIN))%N then C_BAD_PARAMETER else C_SUCCESS.

(** cellular_common_api.c:408-442 Cellular_CommonCreateSocket ([lib] = flags of the context, [out] = false
    when pSocketHandle is NULL). *)
Definition CommonCreateSocket (lib : option lib_flags) (s : sstate) (pdn domain type proto : N) (out : bool)
           (m : option nat) : cell_error * option nat * sstate :=
  match CheckLibraryStatus lib with
  | C_SUCCESS =>
      if negb out then (C_BAD_PARAMETER, None, s)
      else match IsValidPdn pdn with
           | C_SUCCESS => CreateSocketData s pdn domain type proto m
           | _ => (C_INVALID_HANDLE, None, s)
           end
  | e => (e, None, s)
  end.

(** Index of the first slot holding handle [h] (cellular_common.c:597-604). *)
Fixpoint find_handle (t : list (option nat)) (h : nat) : option nat :=
  match t with
  | [] => None
  | x :: t' => if match x with Some a => (a =? h)%nat | None => false end then Some O
               else match find_handle t' h with Some i => Some (S i) | None => None end
  end.

(** cellular_common.c:582-626 _Cellular_RemoveSocketData (dynamic allocation).  Line 588 reads
    socketHandle->socketState before anything is checked: [UB] if the handle is not a live object. *)
Definition RemoveSocketData (s : sstate) (h : nat) : res (cell_error * sstate) :=
  match heap s h with
  | None => UB
  | Some _ =>
      match find_handle (tbl s) h with
      | None => Ok (C_BAD_PARAMETER, s)
      | Some i => Ok (C_SUCCESS, {| tbl := tset (tbl s) i None; heap := hset (heap s) h None |})
      end
  end.

(** cellular_common.c:630-649 _Cellular_IsValidSocket and 894-916 _Cellular_GetSocketData (non-NULL context). *)
Definition IsValidSocket (s : sstate) (i : N) : cell_error :=
  if (N.of_nat NUM_SOCKET_MAX <=? i)%N then C_BAD_PARAMETER
  else match nth (N.to_nat i) (tbl s) None with None => C_BAD_PARAMETER | Some _ => C_SUCCESS end.
(** cellular_common.c:894-916 _Cellular_GetSocketData *)
Definition GetSocketData (s : sstate) (i : N) : option nat :=
  if (N.of_nat NUM_SOCKET_MAX <=? i)%N then None else nth (N.to_nat i) (tbl s) None.

(** /repo/source/include/cellular_types.h:314-331 *)
Inductive sock_opt_level := LEVEL_IP | LEVEL_TRANSPORT.
(** cellular_types.h CellularSocketOption_t *)
Inductive sock_opt := OPT_MAX_IP_PACKET_SIZE | OPT_SEND_TIMEOUT | OPT_RECV_TIMEOUT | OPT_PDN_CONTEXT_ID | OPT_SET_LOCAL_PORT.

(** Little-endian value of the option bytes (reads through uint32_t / uint16_t pointers; a big-endian
    target would use the other order). *)
Fixpoint le_value (l : list N) : N :=
  match l with [] => 0 | b :: t => (b + 256 * le_value t)%N end.

(** Store to sendTimeoutMs. *)
Definition with_sendTo (k : sock) v := {| sk_ctx := sk_ctx k; sk_id := sk_id k; sk_state := sk_state k; sk_type := sk_type k;
  sk_domain := sk_domain k; sk_proto := sk_proto k; sk_localPort := sk_localPort k; sk_sendTo := v; sk_recvTo := sk_recvTo k;
  sk_dataReady := sk_dataReady k; sk_dataReadyCtx := sk_dataReadyCtx k; sk_open := sk_open k; sk_openCtx := sk_openCtx k;
  sk_closed := sk_closed k; sk_closedCtx := sk_closedCtx k; sk_rest := sk_rest k |}.
(** Store to recvTimeoutMs. *)
Definition with_recvTo (k : sock) v := {| sk_ctx := sk_ctx k; sk_id := sk_id k; sk_state := sk_state k; sk_type := sk_type k;
  sk_domain := sk_domain k; sk_proto := sk_proto k; sk_localPort := sk_localPort k; sk_sendTo := sk_sendTo k; sk_recvTo := v;
  sk_dataReady := sk_dataReady k; sk_dataReadyCtx := sk_dataReadyCtx k; sk_open := sk_open k; sk_openCtx := sk_openCtx k;
  sk_closed := sk_closed k; sk_closedCtx := sk_closedCtx k; sk_rest := sk_rest k |}.
(** Store to contextId. *)
Definition with_ctx (k : sock) v := {| sk_ctx := v; sk_id := sk_id k; sk_state := sk_state k; sk_type := sk_type k;
  sk_domain := sk_domain k; sk_proto := sk_proto k; sk_localPort := sk_localPort k; sk_sendTo := sk_sendTo k; sk_recvTo := sk_recvTo k;
  sk_dataReady := sk_dataReady k; sk_dataReadyCtx := sk_dataReadyCtx k; sk_open := sk_open k; sk_openCtx := sk_openCtx k;
  sk_closed := sk_closed k; sk_closedCtx := sk_closedCtx k; sk_rest := sk_rest k |}.
(** Store to localPort. *)
Definition with_localPort (k : sock) v := {| sk_ctx := sk_ctx k; sk_id := sk_id k; sk_state := sk_state k; sk_type := sk_type k;
  sk_domain := sk_domain k; sk_proto := sk_proto k; sk_localPort := v; sk_sendTo := sk_sendTo k; sk_recvTo := sk_recvTo k;
  sk_dataReady := sk_dataReady k; sk_dataReadyCtx := sk_dataReadyCtx k; sk_open := sk_open k; sk_openCtx := sk_openCtx k;
  sk_closed := sk_closed k; sk_closedCtx := sk_closedCtx k; sk_rest := sk_rest k |}.
(** Store to dataReadyCallback and its context. *)
Definition with_dataReady (k : sock) f c := {| sk_ctx := sk_ctx k; sk_id := sk_id k; sk_state := sk_state k; sk_type := sk_type k;
  sk_domain := sk_domain k; sk_proto := sk_proto k; sk_localPort := sk_localPort k; sk_sendTo := sk_sendTo k; sk_recvTo := sk_recvTo k;
  sk_dataReady := f; sk_dataReadyCtx := c; sk_open := sk_open k; sk_openCtx := sk_openCtx k;
  sk_closed := sk_closed k; sk_closedCtx := sk_closedCtx k; sk_rest := sk_rest k |}.
(** Store to openCallback and its context. *)
Definition with_open (k : sock) f c := {| sk_ctx := sk_ctx k; sk_id := sk_id k; sk_state := sk_state k; sk_type := sk_type k;
  sk_domain := sk_domain k; sk_proto := sk_proto k; sk_localPort := sk_localPort k; sk_sendTo := sk_sendTo k; sk_recvTo := sk_recvTo k;
  sk_dataReady := sk_dataReady k; sk_dataReadyCtx := sk_dataReadyCtx k; sk_open := f; sk_openCtx := c;
  sk_closed := sk_closed k; sk_closedCtx := sk_closedCtx k; sk_rest := sk_rest k |}.
(** Store to closedCallback and its context. *)
Definition with_closed (k : sock) f c := {| sk_ctx := sk_ctx k; sk_id := sk_id k; sk_state := sk_state k; sk_type := sk_type k;
  sk_domain := sk_domain k; sk_proto := sk_proto k; sk_localPort := sk_localPort k; sk_sendTo := sk_sendTo k; sk_recvTo := sk_recvTo k;
  sk_dataReady := sk_dataReady k; sk_dataReadyCtx := sk_dataReadyCtx k; sk_open := sk_open k; sk_openCtx := sk_openCtx k;
  sk_closed := f; sk_closedCtx := c; sk_rest := sk_rest k |}.
(** Store to socketState. *)
Definition with_state (k : sock) v := {| sk_ctx := sk_ctx k; sk_id := sk_id k; sk_state := v; sk_type := sk_type k;
  sk_domain := sk_domain k; sk_proto := sk_proto k; sk_localPort := sk_localPort k; sk_sendTo := sk_sendTo k; sk_recvTo := sk_recvTo k;
  sk_dataReady := sk_dataReady k; sk_dataReadyCtx := sk_dataReadyCtx k; sk_open := sk_open k; sk_openCtx := sk_openCtx k;
  sk_closed := sk_closed k; sk_closedCtx := sk_closedCtx k; sk_rest := sk_rest k |}.

(** socketState == SOCKETSTATE_ALLOCATED *)
Definition is_allocated (k : sock) : bool := match sk_state k with SS_ALLOCATED => true | _ => false end.

(** cellular_common_api.c:64-138 _socketSetSockOptLevelTransport; [v] = the optionValueLength bytes at
    pOptionValue. *)
Definition SetSockOptTransport (opt : sock_opt) (k : sock) (v : list N) : cell_error * sock :=
  match opt with
  | OPT_SEND_TIMEOUT => if (length v =? 4)%nat then (C_SUCCESS, with_sendTo k (le_value v)) else (C_INTERNAL_FAILURE, k)
  | OPT_RECV_TIMEOUT => if (length v =? 4)%nat then (C_SUCCESS, with_recvTo k (le_value v)) else (C_INTERNAL_FAILURE, k)
  | OPT_PDN_CONTEXT_ID => if is_allocated k && (length v =? 1)%nat then (C_SUCCESS, with_ctx k (le_value v)) else (C_INTERNAL_FAILURE, k)
  | OPT_SET_LOCAL_PORT => if is_allocated k && (length v =? 2)%nat then (C_SUCCESS, with_localPort k (le_value v)) else (C_INTERNAL_FAILURE, k)
  | OPT_MAX_IP_PACKET_SIZE => (C_UNSUPPORTED, k)
  end.

(** cellular_common_api.c:446-486 Cellular_CommonSocketSetSockOpt ([h = None] NULL handle, [v = None] NULL
    value).  A non-NULL handle that is not a live object is [UB] once it is dereferenced (transport level). *)
Definition CommonSocketSetSockOpt (lib : option lib_flags) (s : sstate) (h : option nat) (lvl : sock_opt_level)
           (opt : sock_opt) (v : option (list N)) : res (cell_error * sstate) :=
  match CheckLibraryStatus lib with
  | C_SUCCESS =>
      match h with
      | None => Ok (C_INVALID_HANDLE, s)
      | Some a =>
          match v with
          | None | Some [] => Ok (C_BAD_PARAMETER, s)
          | Some bytes =>
              match lvl with
              | LEVEL_IP => Ok (C_UNSUPPORTED, s)
              | LEVEL_TRANSPORT =>
                  match heap s a with
                  | None => UB
                  | Some k => let '(e, k') := SetSockOptTransport opt k bytes in
                              Ok (e, {| tbl := tbl s; heap := hset (heap s) a (Some k') |})
                  end
              end
          end
      end
  | e => Ok (e, s)
  end.

(** cellular_common_api.c:490-576: the three per-socket callback registrations. *)
Inductive sock_cb := CB_DATA_READY | CB_OPEN | CB_CLOSED.
(** cellular_common_api.c:490-576 Cellular_CommonSocketRegisterDataReadyCallback / SocketOpenCallback / ClosedCallback *)
Definition CommonSocketRegisterCallback (lib : option lib_flags) (s : sstate) (h : option nat) (w : sock_cb) (f c : N)
  : res (cell_error * sstate) :=
  match CheckLibraryStatus lib with
  | C_SUCCESS =>
      match h with
      | None => Ok (C_INVALID_HANDLE, s)
      | Some a =>
          match heap s a with
          | None => UB
          | Some k =>
              let k' := match w with
                        | CB_DATA_READY => with_dataReady k f c
                        | CB_OPEN => with_open k f c
                        | CB_CLOSED => with_closed k f c
                        end in
              Ok (C_SUCCESS, {| tbl := tbl s; heap := hset (heap s) a (Some k') |})
          end
      end
  | e => Ok (e, s)
  end.

(** ** Histories *)
Inductive sop :=
| OpCreate (pdn domain type proto : N) (m : option nat)      (* create, with Platform_Malloc's answer *)
| OpRemove (h : nat)
| OpSetOpt (h : nat) (lvl : sock_opt_level) (opt : sock_opt) (v : list N)
| OpRegister (h : nat) (w : sock_cb) (f c : N)
| OpPortState (h : nat) (st : sock_state).                    (* the modem port changes the socket state *)

(** An open library. *)
Definition lib_open : option lib_flags := Some {| bLibOpened := true; bLibShutdown := false; bLibClosing := false |}.

(** One operation of an open library. *)
Definition sstep (s : sstate) (o : sop) : res (cell_error * option nat * sstate) :=
  match o with
  | OpCreate pdn d t p m => Ok (CommonCreateSocket lib_open s pdn d t p true m)
  | OpRemove h => do r <- RemoveSocketData s h; Ok (fst r, None, snd r)
  | OpSetOpt h lvl opt v => do r <- CommonSocketSetSockOpt lib_open s (Some h) lvl opt (Some v); Ok (fst r, None, snd r)
  | OpRegister h w f c => do r <- CommonSocketRegisterCallback lib_open s (Some h) w f c; Ok (fst r, None, snd r)
  | OpPortState h st => match heap s h with
                        | None => UB
                        | Some k => Ok (C_SUCCESS, None, {| tbl := tbl s; heap := hset (heap s) h (Some (with_state k st)) |})
                        end
  end.

(** Platform contract: malloc returns an address at which no live object sits. *)
Definition malloc_ok (s : sstate) (o : sop) : Prop :=
  match o with OpCreate _ _ _ _ (Some a) => heap s a = None | _ => True end.

(** States reachable by any history. *)
Inductive sreach : sstate -> Prop :=
| sreach_init : sreach sinit
| sreach_step s o e h s' : sreach s -> malloc_ok s o -> sstep s o = Ok (e, h, s') -> sreach s'.

(** ** Concurrent creation (no lock protects the table in _Cellular_CreateSocketData) *)

(** Program counter of a thread inside cellular_common.c:533-561: scanning slot [i], about to store into
    slot [i] the object [a] (after malloc and createSocketSetSocketData), finished. *)
Inductive cthread := CScan (i : nat) | CStore (i a : nat) | CDone (a : nat) | CFail.

(** One step of a thread with parameters pdn,domain,type,proto and the answer [m] of malloc. *)
Definition cstep (s : sstate) (t : cthread) (prm : N * N * N * N) (m : option nat) : sstate * cthread :=
  let '(ctx, d, ty, p) := prm in
  match t with
  | CScan i =>
      if (i <? NUM_SOCKET_MAX)%nat then
        match nth i (tbl s) None with
        | Some _ => (s, CScan (S i))
        | None => match m with
                  | None => (s, CFail)
                  | Some a => ({| tbl := tbl s; heap := hset (heap s) a (Some (new_sock ctx (N.of_nat i) d ty p)) |}, CStore i a)
                  end
        end
      else (s, CFail)
  | CStore i a => ({| tbl := tset (tbl s) i (Some a); heap := heap s |}, CDone a)
  | CDone a => (s, CDone a)
  | CFail => (s, CFail)
  end.

(** Two threads; the schedule says who moves ([true] = first). *)
Fixpoint crun (sched : list bool) (s : sstate) (t1 t2 : cthread) (p1 p2 : N * N * N * N) (m1 m2 : option nat)
  : sstate * cthread * cthread :=
  match sched with
  | [] => (s, t1, t2)
  | true :: r => let '(s', t1') := cstep s t1 p1 m1 in crun r s' t1' t2 p1 p2 m1 m2
  | false :: r => let '(s', t2') := cstep s t2 p2 m2 in crun r s' t1 t2' p1 p2 m1 m2
  end.

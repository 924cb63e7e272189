(** Blocking behaviour of the library: its four mutexes, the start and stop hand-shake with the reader thread, and the lifetime of
    the response queue and of the comm interface, for any number of application threads running any API calls concurrently with
    each other, with start-up, with clean-up and with the reader thread and the callbacks it runs.

    What is modelled of each function is the order in which it takes and releases mutexes and the places where it waits, sends, or
    uses the response queue; decisions that depend on data (an argument check, the modem's answer) are non-deterministic [Branch]es.
    What the calls compute is the subject of the other models (Request.v, Lifecycle.v, Pktio.v, G3pp.v).

    Simplifications: waiting for the response queue is one step that always ends (PlatformQueue_Receive with a finite time-out,
    cellular_pkthandler.c:234, 315); platform functions and the comm interface return; mutexes are not recursive (they are created
    with recursive = false, cellular_common.c:275, cellular_3gpp_api.c:2094, cellular_pkthandler.c:857, 871);
    the wrappers cellular_3gpp_api.c:2102-2115 and cellular_pkthandler.c:349-359 are inlined;
    API calls start only once initialisation has returned the handle, and initialisation starts only when no call is in flight. *)
From Coq Require Import List Bool Arith.
Import ListNotations.

(** libAtDataMutex, libStatusMutex, pktRequestMutex, PktRespMutex (source/include/common/cellular_common_internal.h) *)
Inductive lock := DataL | StatusL | RequestL | RespL.

(** One blocking or shared-resource operation.  [Send]: pCommIntf->send; [Recv]: PlatformQueue_Receive; [QSend]: PlatformQueue_Send;
    [Step]: anything else that ends by itself. *)
Inductive act := Acq (l : lock) | Rel (l : lock) | Step | Send | Recv | QSend | MkQueue | DelQueue | Spawn | SetAbort | WaitAborted.

(** A thread's remaining work.  [IfComm p q]: p when hPktioCommIntf is not NULL.  [WaitStart p q]: wait for the event bits STARTED or
    ABORTED (cellular_pktio.c:1268-1277), then q when ABORTED was set. *)
Inductive prog :=
| Ret (ok : bool)
| Do (a : act) (k : prog)
| Branch (p q : prog)
| IfComm (p q : prog)
| WaitStart (p q : prog).

(** PlatformMutex_Lock; (assignments); PlatformMutex_Unlock *)
Definition pair (l : lock) (k : prog) : prog := Do (Acq l) (Do (Rel l) k).

(** _Cellular_CheckLibraryStatus, cellular_common.c:425-459: not opened (442), shut down or closing (455), or fine. *)
Definition check_status (ok bad : prog) : prog := pair StatusL (Branch bad (pair StatusL (Branch bad ok))).

(** _Cellular_PktioSendAtCmd, cellular_pktio.c:1420-1482: no comm interface (1434); command NULL or too long (1439, 1448); under
    PktRespMutex the prefix is stored, which may fail (1455-1468, 1476); then the send (1470). *)
Definition send_at (ok bad : prog) : prog := IfComm (Branch bad (pair RespL (Branch bad (Do Send ok)))) bad.

(** _Cellular_AtcmdRequestTimeoutWithCallbackRaw, cellular_pkthandler.c:200-263. *)
Definition request_raw (ok bad : prog) : prog :=
  Branch bad (pair RespL (send_at (Do Recv (pair RespL (Branch ok bad))) (pair RespL bad))).

(** _Cellular_PktioSendData, cellular_pktio.c:1487-1513, and the comparison of the result with the length
    (cellular_pkthandler.c:293, 305): nothing is sent without interface or data, which is enough for a length of zero. *)
Definition send_data (all short : prog) : prog := IfComm (Branch (Branch all short) (Do Send (Branch all short))) (Branch all short).

(** _Cellular_DataSendWithTimeoutDelayRaw, cellular_pkthandler.c:267-345. *)
Definition data_send_raw (k : prog) : prog :=
  let wait := Do Recv (pair RespL k) in
  Branch k (pair RespL (send_data (Branch wait (send_data wait k)) k)).

(** The request functions of cellular_pkthandler.c: _Cellular_PktHandler_AtcmdRequestWithCallback (562-581); with a temporary table or
    data callback, _Cellular_AtcmdRequestSuccessToken (585-625) and _Cellular_TimeoutAtcmdDataRecvRequestWithCallback (629-664); data
    transmission, _Cellular_AtcmdDataSend (668-717) and _Cellular_TimeoutAtcmdDataSendSuccessToken (732-774). *)
Inductive request_kind := RPlain | RHook | RData.
(** One request under PktRequestMutex, as listed above. *)
Definition request (r : request_kind) (ok bad : prog) : prog :=
  Do (Acq RequestL)
    match r with
    | RPlain => request_raw (Do (Rel RequestL) ok) (Do (Rel RequestL) bad)
    | RHook => pair RespL (request_raw (pair RespL (Do (Rel RequestL) ok)) (pair RespL (Do (Rel RequestL) bad)))
    | RData => pair RespL (request_raw (pair RespL (Do Step (data_send_raw (Do (Rel RequestL) (Branch ok bad)))))
                                       (pair RespL (Do (Rel RequestL) bad)))
    end.

(** The API calls, by their use of mutexes.
    [CRequests rs]: a status check, argument checks, and requests one after the other, possibly stopping early: every
      Cellular_Common* function of cellular_3gpp_api.c except the next one, Cellular_CommonATCommandRaw (cellular_common_api.c:363-404)
      and, with no requests, the socket functions.
    [CServiceStatus]: Cellular_CommonGetServiceStatus (cellular_3gpp_api.c:1837-1886, with atcmdQueryRegStatus 1445-1498): up to three
      registration queries, reads of the registration data under libAtDataMutex (1468, 1486), and the operator query.
    [CGetRat]: _Cellular_GetCurrentRat (cellular_common.c:807-830).
    [CRegister]: the five event registration functions (cellular_common_api.c:228-359).
    [CRegisterRaw]: _Cellular_RegisterUndefinedRespCallback, _Cellular_RegisterInputBufferCallback (cellular_common.c:1094-1159). *)
Inductive call := CRequests (rs : list request_kind) | CServiceStatus | CGetRat | CRegister | CRegisterRaw.

(** Requests one after the other, each possibly not made. *)
Fixpoint requests (rs : list request_kind) (k : prog) : prog :=
  match rs with [] => k | r :: rs => Branch k (request r (requests rs k) (requests rs k)) end.
(** cellular_3gpp_api.c:1837-1886 with 1445-1498. *)
Definition service_status (k : prog) : prog :=
  let cops := request RPlain k k in
  let store := pair DataL cops in
  let eps := pair DataL (Branch (Branch store cops) (request RPlain store cops)) in
  Branch k (request RPlain (request RPlain eps eps) eps).
(** The mutex use of one API call. *)
Definition call_prog (c : call) (k : prog) : prog :=
  match c with
  | CRequests rs => check_status (requests rs k) k
  | CServiceStatus => check_status (service_status k) k
  | CGetRat => check_status (Branch k (pair DataL k)) k
  | CRegister => check_status (pair RespL k) k
  | CRegisterRaw => pair RespL k
  end.
(** Calls one after the other. *)
Definition calls (cs : list call) (k : prog) : prog := fold_right call_prog k cs.

(** What the reader does with received data, in pieces, each with the API calls [cs] made by the callback it runs, if any.
    [PResp]: a critical section of PktRespMutex (cellular_pktio.c:348-411, 457-512, 749-752, 799-802, 978-983).
    [PInput cs]: the input-buffer callback, called with PktRespMutex held (cellular_pktio.c:916-921).
    [PReg cs]: a registration line, from a URC handler (cellular_3gpp_urc_handler.c:854-862, 881-889, 908-916) or an answer to a
      registration query (cellular_3gpp_api.c:826-844); libAtDataMutex is held, also while the network registration callback runs
      (_Cellular_NetworkRegistrationCallback, cellular_common.c:834-843, called at cellular_3gpp_urc_handler.c:663, 667).
    [PCall cs]: any other callback: URC handlers of the module, generic, PDN, signal, modem and undefined-response callbacks, data
      prefix callbacks and the response callback of the request; no mutex is held.
    [PQueue]: the status is put into the response queue without waiting (cellular_pkthandler.c:111). *)
Inductive piece := PResp | PInput (cs : list call) | PReg (cs : list call) | PCall (cs : list call) | PQueue.
(** The mutex use of one piece. *)
Definition piece_prog (p : piece) (k : prog) : prog :=
  match p with
  | PResp => pair RespL k
  | PInput cs => Do (Acq RespL) (calls cs (Do (Rel RespL) k))
  | PReg cs => Do (Acq DataL) (calls cs (Do (Rel DataL) k))
  | PCall cs => Do Step (calls cs k)
  | PQueue => Do QSend k
  end.
(** The mutex use of the processing of received data. *)
Definition event_prog (e : list piece) : prog := fold_right piece_prog (Ret true) e.

(** libOpen, cellular_common.c:178-221, with _Cellular_PktHandlerInit (cellular_pkthandler.c:777-799), _Cellular_PktioInit
    (cellular_pktio.c:1343-1415) and _Cellular_PktHandlerCleanup (cellular_pkthandler.c:504-516).  The status mutex is held throughout. *)
Definition open_prog : prog :=
  let fail := Do (Acq RequestL) (Do DelQueue (Do (Rel RequestL) (Do (Rel StatusL) (Ret false)))) in
  Do (Acq StatusL) (pair DataL
    (Branch (Do (Rel StatusL) (Ret false))
      (Do MkQueue (Branch fail (Do Spawn (WaitStart (Do (Rel StatusL) (Ret true)) fail)))))).

(** libClose, cellular_common.c:225-266, with _Cellular_PktioShutdown (cellular_pktio.c:1517-1541) and _Cellular_PktHandlerCleanup. *)
Definition close_prog : prog :=
  pair StatusL (Do SetAbort (Do WaitAborted (Do (Acq RequestL) (Do DelQueue (Do (Rel RequestL) (pair StatusL (Ret true))))))).

(** The reader thread, _pktioReadThread, cellular_pktio.c:1201-1260. *)
Inductive reader_phase :=
| RNone             (* no thread *)
| RStart            (* opening the comm interface, 1209 *)
| RStarted          (* opened; STARTED to be set, 1213 *)
| RFail             (* open failed; ABORTED to be set, 1253 *)
| RIdle             (* waiting for ABORT or RX_DATA, 1218 *)
| RBusy (p : prog)  (* _handleRxDataEvent, 1235 *)
| RExit1            (* ABORT seen; closing the comm interface, 1244-1245 *)
| RExit2            (* shutdown callback done; ABORTED to be set, 1246-1253 *)
| RDone.            (* ABORTED set *)

(** The thread that opens and closes the library. *)
Inductive life_phase := LClosed | LOpening (p : prog) | LOpen | LClosing (p : prog).
(** The threads. *)
Inductive tid := TApp (i : nat) | TLife | TReader.

(** Mutex owners, event bits, comm interface, queue, and the programs left to run. *)
Record sys := {
  owner : lock -> option tid;
  started : bool; aborted : bool; abort : bool;   (* event bits *)
  comm : bool;                                    (* hPktioCommIntf != NULL *)
  queue : bool;                                   (* pktRespQueue exists *)
  reader : reader_phase;
  life : life_phase;
  apps : list prog }.                             (* one per application thread; Ret: not in a call *)

(** Equality of mutexes. *)
Definition lock_eqb (a b : lock) : bool :=
  match a, b with DataL, DataL | StatusL, StatusL | RequestL, RequestL | RespL, RespL => true | _, _ => false end.
(** Lock or unlock. *)
Definition set_owner l v s := {| owner := fun l' => if lock_eqb l l' then v else owner s l'; started := started s; aborted := aborted s; abort := abort s; comm := comm s; queue := queue s; reader := reader s; life := life s; apps := apps s |}.
(** Event bits. *)
Definition set_bits st ab a s := {| owner := owner s; started := st; aborted := ab; abort := a; comm := comm s; queue := queue s; reader := reader s; life := life s; apps := apps s |}.
(** The comm interface is open or not. *)
Definition set_comm v s := {| owner := owner s; started := started s; aborted := aborted s; abort := abort s; comm := v; queue := queue s; reader := reader s; life := life s; apps := apps s |}.
(** The response queue. *)
Definition set_queue v s := {| owner := owner s; started := started s; aborted := aborted s; abort := abort s; comm := comm s; queue := v; reader := reader s; life := life s; apps := apps s |}.
(** What the reader has left to do. *)
Definition set_reader v s := {| owner := owner s; started := started s; aborted := aborted s; abort := abort s; comm := comm s; queue := queue s; reader := v; life := life s; apps := apps s |}.
(** What the opening / closing thread has left to do. *)
Definition set_life v s := {| owner := owner s; started := started s; aborted := aborted s; abort := abort s; comm := comm s; queue := queue s; reader := reader s; life := v; apps := apps s |}.
(** What the application threads have left to do. *)
Definition set_apps v s := {| owner := owner s; started := started s; aborted := aborted s; abort := abort s; comm := comm s; queue := queue s; reader := reader s; life := life s; apps := v |}.

(** One step of a thread's program: the action performed (if any), the new shared state, the remaining program. *)
Inductive pstep (s : sys) (t : tid) : prog -> option act -> sys -> prog -> Prop :=
| PSAcq l k : owner s l = None -> pstep s t (Do (Acq l) k) (Some (Acq l)) (set_owner l (Some t) s) k
| PSRel l k : pstep s t (Do (Rel l) k) (Some (Rel l)) (set_owner l None s) k
| PSStep k : pstep s t (Do Step k) (Some Step) s k
| PSSend k : pstep s t (Do Send k) (Some Send) s k
| PSRecv k : pstep s t (Do Recv k) (Some Recv) s k
| PSQSend k : pstep s t (Do QSend k) (Some QSend) s k
| PSMkQueue k : pstep s t (Do MkQueue k) (Some MkQueue) (set_queue true s) k
| PSDelQueue k : pstep s t (Do DelQueue k) (Some DelQueue) (set_queue false s) k
| PSSpawn k : pstep s t (Do Spawn k) (Some Spawn) (set_reader RStart s) k
| PSSetAbort k : pstep s t (Do SetAbort k) (Some SetAbort) (set_bits (started s) (aborted s) true s) k
| PSWaitAborted k : aborted s = true -> pstep s t (Do WaitAborted k) (Some WaitAborted) s k
| PSLeft p q : pstep s t (Branch p q) None s p
| PSRight p q : pstep s t (Branch p q) None s q
| PSComm p q : comm s = true -> pstep s t (IfComm p q) None s p
| PSNoComm p q : comm s = false -> pstep s t (IfComm p q) None s q
| PSStartOk p q : started s = true -> aborted s = false -> pstep s t (WaitStart p q) None (set_bits false false (abort s) s) p
| PSStartBad p q : aborted s = true -> pstep s t (WaitStart p q) None (set_bits false false (abort s) s) q.

(** Replace an element. *)
Fixpoint set_nth {A} (i : nat) (v : A) (l : list A) : list A :=
  match l, i with [], _ => [] | _ :: l, 0 => v :: l | x :: l, S i => x :: set_nth i v l end.

(** Steps the library takes by itself, with the thread and the action. *)
Inductive istep (s : sys) : tid -> option act -> sys -> Prop :=
| IApp i p a s' p' : nth_error (apps s) i = Some p -> pstep s (TApp i) p a s' p' -> istep s (TApp i) a (set_apps (set_nth i p' (apps s')) s')
| IOpening p a s' p' : life s = LOpening p -> pstep s TLife p a s' p' -> istep s TLife a (set_life (LOpening p') s')
| IOpened ok : life s = LOpening (Ret ok) -> istep s TLife None (set_life (if ok then LOpen else LClosed) s)
| IClosing p a s' p' : life s = LClosing p -> pstep s TLife p a s' p' -> istep s TLife a (set_life (LClosing p') s')
| IClosed ok : life s = LClosing (Ret ok) -> istep s TLife None (set_life LClosed s)
| IComm : reader s = RStart -> istep s TReader None (set_reader RStarted (set_comm true s))
| ICommFail : reader s = RStart -> istep s TReader None (set_reader RFail s)
| IStarted : reader s = RStarted -> istep s TReader None (set_reader RIdle (set_bits true (aborted s) (abort s) s))
| IFail : reader s = RFail -> istep s TReader None (set_reader RDone (set_bits (started s) true (abort s) s))
| IBusy p a s' p' : reader s = RBusy p -> pstep s TReader p a s' p' -> istep s TReader a (set_reader (RBusy p') s')
| IBusyDone ok : reader s = RBusy (Ret ok) -> istep s TReader None (set_reader RIdle s)
| IAbort : reader s = RIdle -> abort s = true -> istep s TReader None (set_reader RExit1 (set_bits (started s) (aborted s) false s))
| IClose : reader s = RExit1 -> istep s TReader None (set_reader RExit2 (set_comm false s))
| IGone : reader s = RExit2 -> istep s TReader None (set_reader RDone (set_bits (started s) true (abort s) s)).

(** Steps of the application and of the modem: a call (any thread not in a call, once initialisation has returned the handle),
    received data (1218; ABORT is checked first, 1224), more data before the inner loop ends (1233-1236), initialisation, clean-up.
    [cb] says which received data can occur: which API calls the callbacks make. *)
Inductive xstep (cb : list piece -> Prop) (s : sys) : sys -> Prop :=
| XCall i ok c : nth_error (apps s) i = Some (Ret ok) -> (life s = LOpen \/ exists p, life s = LClosing p) ->
    xstep cb s (set_apps (set_nth i (call_prog c (Ret true)) (apps s)) s)
| XRx e : reader s = RIdle -> abort s = false -> cb e -> xstep cb s (set_reader (RBusy (event_prog e)) s)
| XMore e ok : reader s = RBusy (Ret ok) -> cb e -> xstep cb s (set_reader (RBusy (event_prog e)) s)
| XOpen : life s = LClosed -> Forall (fun p => exists ok, p = Ret ok) (apps s) ->
    xstep cb s (set_life (LOpening open_prog) (set_reader RNone (set_bits false false false s)))
| XClose : life s = LOpen -> xstep cb s (set_life (LClosing close_prog) s).

(** Before the library is opened. *)
Definition sys0 (n : nat) : sys := {| owner := fun _ => None; started := false; aborted := false; abort := false; comm := false;
  queue := false; reader := RNone; life := LClosed; apps := repeat (Ret true) n |}.

(** States reachable by any interleaving. *)
Inductive reach (cb : list piece -> Prop) (n : nat) : sys -> Prop :=
| R0 : reach cb n (sys0 n)
| RI s t a s' : reach cb n s -> istep s t a s' -> reach cb n s'
| RX s s' : reach cb n s -> xstep cb s s' -> reach cb n s'.

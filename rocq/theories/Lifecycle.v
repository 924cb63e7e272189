(** Library start and stop: Cellular_CommonInit / Cellular_CommonCleanup, _Cellular_LibInit / _Cellular_LibCleanup, libOpen / libClose,
    _Cellular_PktioInit / _Cellular_PktioShutdown, _Cellular_PktHandlerInit / Cleanup, and the reader thread _pktioReadThread, as
    an interleaving system.

    One label is one platform call (or one access to the shared context) of the application thread doing initialisation and
    clean-up, or of a reader thread.  Outcomes of platform and module functions are chosen by the label.

    Simplifications: the context table has one entry (CELLULAR_CONTEXT_MAX is 1, cellular_common.c:63); one application thread
    calls init and clean-up; requests are not in flight during clean-up (PktHandlerCleanup, cellular_pkthandler.c:504-516, would
    wait for them); mutex operations are not modelled except creation and destruction; the event group's bits are
    STARTED, ABORTED, ABORT; the wrappers cellular_common.c:171-174, 281-285, 416-420, cellular_3gpp_api.c:2080-2084,
    cellular_pkthandler.c:880-895 are inlined; what the reader does with received data is Pktio.v. *)
From Coq Require Import List NArith ZArith Bool Arith.
From Verif Require Import Bytes AtCore Status Pktio PktHandler.
Import ListNotations.

(** Platform resources: the context (Platform_Malloc), the four mutexes (0 libStatusMutex, 1 AT data, 2 pktRequestMutex,
    3 PktRespMutex), the response queue, the event group, the open comm interface, the module context, the socket contexts. *)
Inductive resource := RCtx | RMutex (k : nat) | RQueue | REvent | RComm | RModule | RSocket (k : nat).
(** History of creations and releases. *)
Inductive op := OpCreate (r : resource) | OpDestroy (r : resource).

(** The arguments of Cellular_CommonInit, as far as they can be NULL (false / None: NULL).
    CellularCommInterface_t (cellular_comm_interface.h): its four functions. *)
Record comm_intf := { ci_open : bool; ci_send : bool; ci_recv : bool; ci_close : bool }.
(** CellularTokenTable_t (cellular_types.h): the URC handler table, and the other tables (the extra success table is not checked). *)
Record tokens := { ct_urcs : option (list urc_entry); ct_error : bool; ct_success : bool; ct_wo_prefix : bool }.
(** pCellularHandle, pCommInterface, pTokenTable. *)
Record params := { p_handle : bool; p_intf : option comm_intf; p_tok : option tokens }.
(** pContext->tokenTable.pCellularUrcHandlerTable: cellular_common.c:952 *)
Definition p_urcs (p : params) : option (list urc_entry) := match p_tok p with Some t => ct_urcs t | None => None end.

(** cellular_common.c:380-412 checkInitParameter *)
Definition checkInitParameter (p : params) : cell_error :=
  if negb (p_handle p) then C_INVALID_HANDLE
  else match p_intf p with
       | None => C_BAD_PARAMETER
       | Some i =>
           if negb (ci_open i) || negb (ci_close i) || negb (ci_send i) || negb (ci_recv i) then C_BAD_PARAMETER
           else match p_tok p with
                | None => C_BAD_PARAMETER
                | Some t =>
                    if match ct_urcs t with None => true | Some _ => false end || negb (ct_error t) || negb (ct_success t)
                       || negb (ct_wo_prefix t)
                    then C_BAD_PARAMETER else C_SUCCESS
                end
       end.

(** cellular_common_api.c:149-163, then cellular_common.c:931 *)
Definition check_arguments (p : params) : cell_error :=
  if negb (p_handle p) then C_INVALID_HANDLE
  else match p_intf p with
       | None => C_BAD_PARAMETER
       | Some _ => match p_tok p with None => C_BAD_PARAMETER | Some _ => checkInitParameter p end
       end.

(** Members of CellularContext_t involved (true: pointer not NULL), and the bits of the event group. *)
Record ctx_mem := {
  queue_p : bool; event_p : bool; up : bool; shcb : bool;
  opened : bool; shutdown : bool; closing : bool;
  started : bool; aborted : bool; abort : bool;
  socks : list nat }.
(** memset 0 (cellular_common.c:137) *)
Definition cx0 : ctx_mem := {| queue_p := false; event_p := false; up := false; shcb := false; opened := false; shutdown := false; closing := false;
  started := false; aborted := false; abort := false; socks := [] |}.
(** bLibOpened, bLibShutdown, bLibClosing of the context. *)
Definition flags_of (c : ctx_mem) : lib_flags := {| bLibOpened := opened c; bLibShutdown := shutdown c; bLibClosing := closing c |}.

(** Store to pktRespQueue. *)
Definition set_queue_p v c := {| queue_p := v; event_p := event_p c; up := up c; shcb := shcb c; opened := opened c; shutdown := shutdown c; closing := closing c; started := started c; aborted := aborted c; abort := abort c; socks := socks c |}.
(** Store to pPktioCommEvent. *)
Definition set_event_p v c := {| queue_p := queue_p c; event_p := v; up := up c; shcb := shcb c; opened := opened c; shutdown := shutdown c; closing := closing c; started := started c; aborted := aborted c; abort := abort c; socks := socks c |}.
(** Store to bPktioUp. *)
Definition set_up v c := {| queue_p := queue_p c; event_p := event_p c; up := v; shcb := shcb c; opened := opened c; shutdown := shutdown c; closing := closing c; started := started c; aborted := aborted c; abort := abort c; socks := socks c |}.
(** Store to pPktioShutdownCB. *)
Definition set_shcb v c := {| queue_p := queue_p c; event_p := event_p c; up := up c; shcb := v; opened := opened c; shutdown := shutdown c; closing := closing c; started := started c; aborted := aborted c; abort := abort c; socks := socks c |}.
(** Store to bLibOpened, bLibShutdown, bLibClosing. *)
Definition set_flags o sh cl c := {| queue_p := queue_p c; event_p := event_p c; up := up c; shcb := shcb c; opened := o; shutdown := sh; closing := cl; started := started c; aborted := aborted c; abort := abort c; socks := socks c |}.
(** Event bits PKTIO_EVT_MASK_STARTED, _ABORTED, _ABORT. *)
Definition set_bits st ab a c := {| queue_p := queue_p c; event_p := event_p c; up := up c; shcb := shcb c; opened := opened c; shutdown := shutdown c; closing := closing c; started := st; aborted := ab; abort := a; socks := socks c |}.
(** Store to pSocketData[]. *)
Definition set_socks v c := {| queue_p := queue_p c; event_p := event_p c; up := up c; shcb := shcb c; opened := opened c; shutdown := shutdown c; closing := closing c; started := started c; aborted := aborted c; abort := abort c; socks := v |}.

(** What a clean-up sequence ends with. *)
Inductive ending := EInit (e : cell_error) | ECleanup.

(** The application thread; file cellular_common.c unless noted. *)
Inductive mpc :=
| MIdle
| MParams (p : params)         (* cellular_common_api.c:149-163, 931 *)
| MAlloc (p : params)          (* 939 *)
| MMutex (p : params) (k : nat)  (* 959, 972, 985, 998 *)
| MQueue (p : params)          (* libOpen 187-192; cellular_pkthandler.c:785 *)
| MEvent                       (* cellular_pktio.c:1355-1357 *)
| MThread                      (* cellular_pktio.c:1368-1376 *)
| MWait                        (* cellular_pktio.c:1268-1277 *)
| MEvDel                       (* cellular_pktio.c:1402-1409 *)
| MQDel                        (* 201-202 *)
| MFail (k : nat) (e : cell_error) (* 1017-1040: k mutexes left to destroy, then the context *)
| MOpen                        (* 214-218, 1044 *)
| MMod1 | MMod2 | MMod3        (* cellular_common_api.c:173, 177, 181 *)
| MModClean (r : ending)       (* cellular_common_api.c:189, 219 *)
| MC1 (r : ending)             (* 232-237 *)
| MC2 (r : ending)             (* cellular_pktio.c:1521-1525 *)
| MC3 (r : ending)             (* cellular_pktio.c:1526-1532 *)
| MC4 (r : ending)             (* cellular_pktio.c:1534-1539 *)
| MC5 (r : ending)             (* cellular_pkthandler.c:506-515 *)
| MC6 (r : ending)             (* 246-265 *)
| MC7 (k : nat) (r : ending)   (* 1065-1068: mutexes k..3 left *)
| MC8 (r : ending).            (* 1069 *)

(** The reader thread, cellular_pktio.c. *)
Inductive rpc :=
| R0      (* 1208-1210 comm open *)
| R1      (* 1213 *)
| R2      (* 1218-1242 *)
| R3      (* 1227, 1244 *)
| R4      (* 1245-1246 *)
| RA      (* 1253 *)
| RB      (* 1256 *)
| RC      (* 1258 *)
| REnd.

(** What the two functions returned. *)
Inductive result := RetInit (e : cell_error) | RetCleanup (e : cell_error).

(** The global context pointer, the context, the threads, and ghost history. *)
Record state := {
  slot : bool;                (* cellularContextTable[0] != NULL *)
  cx : ctx_mem;               (* the context's memory (with static allocation it persists) *)
  gen : nat;                  (* ghost: number of contexts allocated so far; the current one is number gen *)
  handle : option nat;        (* the caller's handle variable: number of the context it designates, None: as before *)
  main : mpc;
  cur : option rpc;           (* reader thread of the current context *)
  old : list rpc;             (* ghost: reader threads of released contexts *)
  uaf : bool;                 (* ghost: a reader accessed a context after Platform_Free *)
  tr : list op;               (* ghost: platform calls, newest first *)
  at_call : bool;             (* ghost: was a context there when the last init was called *)
  results : list result       (* newest first *)
}.
(** Program counter of the application. *)
Definition upd_main m s := {| slot := slot s; cx := cx s; gen := gen s; handle := handle s; main := m; cur := cur s; old := old s; uaf := uaf s; tr := tr s; at_call := at_call s; results := results s |}.
(** The context. *)
Definition upd_cx c s := {| slot := slot s; cx := c; gen := gen s; handle := handle s; main := main s; cur := cur s; old := old s; uaf := uaf s; tr := tr s; at_call := at_call s; results := results s |}.
(** Program counter of the reader of the current context. *)
Definition upd_cur r s := {| slot := slot s; cx := cx s; gen := gen s; handle := handle s; main := main s; cur := r; old := old s; uaf := uaf s; tr := tr s; at_call := at_call s; results := results s |}.
(** Readers of released contexts, and whether one touched its context. *)
Definition upd_old o u s := {| slot := slot s; cx := cx s; gen := gen s; handle := handle s; main := main s; cur := cur s; old := o; uaf := u; tr := tr s; at_call := at_call s; results := results s |}.
(** History (ghost). *)
Definition upd_tr o s := {| slot := slot s; cx := cx s; gen := gen s; handle := handle s; main := main s; cur := cur s; old := old s; uaf := uaf s; tr := o :: tr s; at_call := at_call s; results := results s |}.
(** Return to the caller. *)
Definition upd_results r s := {| slot := slot s; cx := cx s; gen := gen s; handle := handle s; main := MIdle; cur := cur s; old := old s; uaf := uaf s; tr := tr s; at_call := at_call s; results := r :: results s |}.
(** The handle given to the caller. *)
Definition upd_handle h s := {| slot := slot s; cx := cx s; gen := gen s; handle := h; main := main s; cur := cur s; old := old s; uaf := uaf s; tr := tr s; at_call := at_call s; results := results s |}.
(** Ghost: was there a context when the call was made. *)
Definition upd_at_call h s := {| slot := slot s; cx := cx s; gen := gen s; handle := handle s; main := main s; cur := cur s; old := old s; uaf := uaf s; tr := tr s; at_call := h; results := results s |}.

(** A successful creation, noted. *)
Definition create (r : resource) (s : state) : state := upd_tr (OpCreate r) s.
(** A release, noted. *)
Definition destroy (r : resource) (s : state) : state := upd_tr (OpDestroy r) s.
(** cellular_common.c:116-145 _Cellular_AllocContext *)
Definition alloc_context (s : state) : state :=
  {| slot := true; cx := cx0; gen := S (gen s); handle := handle s; main := main s; cur := None; old := old s; uaf := uaf s; tr := OpCreate RCtx :: tr s; at_call := at_call s; results := results s |}.
(** cellular_common.c:150-167 _Cellular_FreeContext; the reader of this context becomes a reader of a released context. *)
Definition free_context (s : state) : state :=
  {| slot := false; cx := cx s; gen := gen s; handle := handle s; main := main s; cur := None; old := match cur s with Some r => r :: old s | None => old s end;
     uaf := uaf s; tr := OpDestroy RCtx :: tr s; at_call := at_call s; results := results s |}.
(** Return of the function under way. *)
Definition finish (r : ending) (s : state) : state := upd_results (match r with EInit e => RetInit e | ECleanup => RetCleanup C_SUCCESS end) s.

(** Next action of the application thread; [b]: did the platform call succeed; [e]: what the module function returned. *)
Definition main_step (b : bool) (e : cell_error) (s : state) : option state :=
  match main s with
  | MIdle => None
  | MParams p =>
      match check_arguments p with
      | C_SUCCESS => Some (upd_main (MAlloc p) s)
      | e => Some (upd_results (RetInit e) s)
      end
  | MAlloc p =>
      if slot s then Some (upd_results (RetInit C_NO_MEMORY) s)
      else if b then Some (upd_main (MMutex p 0) (alloc_context s))
      else Some (upd_results (RetInit C_NO_MEMORY) s)
  | MMutex p k =>
      if b then Some (upd_main (if (k =? 3)%nat then MQueue p else MMutex p (S k)) (create (RMutex k) s))
      else Some (upd_main (MFail k C_RESOURCE_CREATION_FAIL) s)
  | MQueue p =>
      (* 187: the result of _Cellular_AtParseInit is not used *)
      let ignored := AtParseInit (p_urcs p) in
      let s1 := upd_cx (set_shcb true (cx s)) s in
      if b then Some (upd_main MEvent (create RQueue (upd_cx (set_queue_p true (cx s1)) s1)))
      else Some (upd_main (MFail 4 (TranslatePktStatus PKT_FAILURE)) s1)
  | MEvent =>
      let s1 := upd_cx (set_up false (cx s)) s in
      if b then Some (upd_main MThread (create REvent (upd_cx (set_bits false false false (set_event_p true (cx s1))) s1)))
      else Some (upd_main MQDel s1)
  | MThread => if b then Some (upd_main MWait (upd_cur (Some R0) s)) else Some (upd_main MEvDel s)
  | MWait =>
      if started (cx s) || aborted (cx s) then
        let s1 := upd_cx (set_bits false false (abort (cx s)) (cx s)) s in
        if aborted (cx s) then Some (upd_main MEvDel s1) else Some (upd_main MOpen (upd_cx (set_up true (cx s1)) s1))
      else None
  | MEvDel => Some (upd_main MQDel (destroy REvent (upd_cx (set_event_p false (cx s)) s)))
  | MQDel => Some (upd_main (MFail 4 C_INTERNAL_FAILURE) (if queue_p (cx s) then destroy RQueue (upd_cx (set_queue_p false (cx s)) s) else s))
  | MFail (S k) err => Some (upd_main (MFail k err) (destroy (RMutex k) s))
  | MFail O err => Some (upd_results (RetInit err) (free_context s))
  | MOpen => Some (upd_main MMod1 (upd_handle (Some (gen s)) (upd_cx (set_flags true false (closing (cx s)) (cx s)) s)))
  | MMod1 => match e with C_SUCCESS => Some (upd_main MMod2 (create RModule s)) | _ => Some (upd_main (MC1 (EInit e)) s) end
  | MMod2 => match e with C_SUCCESS => Some (upd_main MMod3 s) | _ => Some (upd_main (MModClean (EInit e)) s) end
  | MMod3 => match e with C_SUCCESS => Some (upd_results (RetInit C_SUCCESS) s) | _ => Some (upd_main (MModClean (EInit e)) s) end
  | MModClean r => Some (upd_main (MC1 r) (destroy RModule s))
  | MC1 r => Some (upd_main (if opened (cx s) then MC2 r else MC6 r) (upd_cx (set_flags (opened (cx s)) (shutdown (cx s)) true (cx s)) s))
  | MC2 r =>
      if up (cx s) then
        if event_p (cx s) then Some (upd_main (MC3 r) (upd_cx (set_bits (started (cx s)) (aborted (cx s)) true (cx s)) s))
        else Some (upd_main (MC5 r) (upd_cx (set_up false (cx s)) s))
      else Some (upd_main (MC5 r) s)
  | MC3 r => Some (if aborted (cx s) then upd_main (MC4 r) s else s)
  | MC4 r => Some (upd_main (MC5 r) (destroy REvent (upd_cx (set_up false (set_event_p false (cx s))) s)))
  | MC5 r => Some (upd_main (MC6 r) (if queue_p (cx s) then destroy RQueue (upd_cx (set_queue_p false (cx s)) s) else s))
  | MC6 r => Some (upd_main (MC7 0 r) (upd_cx (set_socks [] (set_flags false false false (cx s))) (fold_right (fun k => destroy (RSocket k)) s (socks (cx s)))))
  | MC7 k r => Some (upd_main (if (k =? 3)%nat then MC8 r else MC7 (S k) r) (destroy (RMutex k) s))
  | MC8 r => Some (finish r (free_context s))
  end.

(** Next action of the reader of the current context; [b]: does the comm interface open. *)
Definition reader_step (b : bool) (s : state) : option state :=
  match cur s with
  | None => None
  | Some r =>
      match r with
      | R0 => if b then Some (upd_cur (Some R1) (create RComm s)) else Some (upd_cur (Some RA) s)
      | R1 => Some (upd_cur (Some R2) (upd_cx (set_bits true (aborted (cx s)) (abort (cx s)) (cx s)) s))
      | R2 => if abort (cx s) then Some (upd_cur (Some R3) (upd_cx (set_bits (started (cx s)) (aborted (cx s)) false (cx s)) s)) else None
      | R3 => Some (upd_cur (Some R4) (destroy RComm s))
      | R4 => Some (upd_cur (Some RA) (upd_cx (set_flags (opened (cx s)) true (closing (cx s)) (cx s)) s))
      | RA => Some (upd_cur (Some RB) (upd_cx (set_bits (started (cx s)) true (abort (cx s)) (cx s)) s))
      | RB => Some (upd_cur (Some (if shcb (cx s) then RC else REnd)) s)
      | RC => Some (upd_cur (Some REnd) (upd_cx (set_flags (opened (cx s)) true (closing (cx s)) (cx s)) s))
      | REnd => None
      end
  end.

Section Config.
(** CELLULAR_CONFIG_STATIC_ALLOCATION_CONTEXT: is the context a static object (then its memory persists and is used again). *)
Variable static : bool.

(** A reader of a released context goes on. *)
Fixpoint set_nth (l : list rpc) (i : nat) (x : rpc) : list rpc :=
  match l, i with [], _ => [] | _ :: t, O => x :: t | y :: t, S j => y :: set_nth t j x end.
(** cellular_pktio.c:1253-1258 in a reader whose context was released. *)
Definition old_step (k : nat) (s : state) : option state :=
  match nth_error (old s) k with
  | Some RB => if static then Some (upd_old (set_nth (old s) k (if shcb (cx s) then RC else REnd)) (uaf s) s)
               else Some (upd_old (set_nth (old s) k REnd) true s)
  | Some RC => if static then Some (upd_cx (set_flags (opened (cx s)) true (closing (cx s)) (cx s)) (upd_old (set_nth (old s) k REnd) (uaf s) s))
               else Some (upd_old (set_nth (old s) k REnd) true s)
  | _ => None
  end.

(** Who steps. *)
Inductive label :=
| LInit (p : params)              (* Cellular_CommonInit is called *)
| LCleanup (null : bool)          (* Cellular_CommonCleanup is called, with NULL or with the handle of the current context *)
| LMain (b : bool) (e : cell_error)
| LReader (b : bool)
| LOld (k : nat)
| LSockOpen (k : nat)             (* a socket is created in slot k / removed *)
| LSockClose (k : nat).

(** cellular_common.c:425-459: may API calls proceed *)
Definition api_status (s : state) : cell_error := CheckLibraryStatus (if slot s then Some (flags_of (cx s)) else None).

(** One step: a call, a step of the calling thread (cellular_common.c:178-267, 920-1073), of the reader (cellular_pktio.c:1201-1260), or of a socket function. *)
Definition exec (lb : label) (s : state) : option state :=
  match lb with
  | LInit p => match main s with MIdle => Some (upd_at_call (slot s) (upd_main (MParams p) s)) | _ => None end
  | LCleanup null =>
      match main s with
      | MIdle => if null then Some (upd_results (RetCleanup C_INVALID_HANDLE) s)
                 else if slot s then Some (upd_main (MModClean ECleanup) s) else None
      | _ => None
      end
  | LMain b e => main_step b e s
  | LReader b => reader_step b s
  | LOld k => old_step k s
  | LSockOpen k =>
      match main s with
      | MIdle => if negb (existsb (Nat.eqb k) (socks (cx s))) && (k <? 12)%nat
                 then match api_status s with C_SUCCESS => Some (create (RSocket k) (upd_cx (set_socks (k :: socks (cx s)) (cx s)) s)) | _ => None end
                 else None
      | _ => None
      end
  | LSockClose k =>
      match main s with
      | MIdle => if existsb (Nat.eqb k) (socks (cx s)) && slot s
                 then Some (destroy (RSocket k) (upd_cx (set_socks (filter (fun j => negb (Nat.eqb k j)) (socks (cx s))) (cx s)) s)) else None
      | _ => None
      end
  end.

(** Before the first call. *)
Definition init : state := {| slot := false; cx := cx0; gen := 0; handle := None; main := MIdle; cur := None; old := []; uaf := false; tr := []; at_call := false; results := [] |}.

(** States reachable by any interleaving. *)
Inductive reach : state -> Prop :=
| reach_init : reach init
| reach_step s lb s' : reach s -> exec lb s = Some s' -> reach s'.
End Config.

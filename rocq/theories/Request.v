(** Interleaving model of the request functions of /repo/source/cellular_pkthandler.c, the reader thread of
    /repo/source/cellular_pktio.c (at line level), the modem and time-outs.

    One label is one atomic action: a region protected by PktRespMutex, or a single access to a shared variable outside
    such a region.  Application threads, reader and modem interleave arbitrarily.

    Simplifications: PktRespMutex regions are atomic (they contain no blocking call); sequentially consistent memory; the
    reader works on complete lines (the byte level is Pktio.v; binary payloads count as lines here); prefix-callback effects
    are not modelled (a line stands for its text after the callbacks); logging is ignored (see CmdText.v).
    Inlined: cellular_common.c:1077-1091 _Cellular_AtcmdRequestWithCallback and _Cellular_TimeoutAtcmdRequestWithCallback,
    cellular_pkthandler.c:349-359 (the two wrappers around pktRequestMutex) and 721-728
    _Cellular_TimeoutAtcmdDataSendRequestWithCallback. *)
From Coq Require Import List NArith ZArith Bool Arith.
From Verif Require Import Bytes AtCore Status SpecAt Pktio SpecPktio SpecStream.
Import ListNotations.

(** ** Requests *)
(** /repo/source/include/common/cellular_common.h CellularAtDataReq_t: pData ([None]: pData or pSentDataLength NULL) and pEndPattern. *)
Record data_request := { d_data : option (list N); d_end : option (list N) }.

(** Which request function is called, with what it installs:
    [KPlain] 562-581 AtcmdRequestWithCallback; [KToken] 585-625 AtcmdRequestSuccessToken ([None]: NULL table);
    [KRecv] 629-664 TimeoutAtcmdDataRecvRequestWithCallback; [KSend] 668-717 AtcmdDataSend (and 721-728);
    [KSendToken] 732-774 TimeoutAtcmdDataSendSuccessToken. *)
Inductive kind :=
| KPlain
| KToken (tbl : option (list str))
| KRecv (cb : option nat)
| KSend (cb : option nat) (d : data_request)
| KSendToken (tbl : option (list str)) (d : data_request).

(** CellularAtReq_t: pAtCmd, atCmdType, pAtRspPrefix, and whether there is a respCallback. *)
Record request := {
  rq_kind : kind;
  rq_cmd : option str;
  rq_type : at_type;
  rq_prefix : option str;
  rq_cb : bool }.

(** The temporary token table of a request. *)
Definition hook_extra (k : kind) : option (list str) := match k with KToken t => t | KSendToken t _ => t | _ => None end.
(** The data prefix callback of a request. *)
Definition hook_dcb (k : kind) : option nat := match k with KRecv c => c | _ => None end.
(** The data-send prefix callback of a request. *)
Definition hook_scb (k : kind) : option nat := match k with KSend c _ => c | _ => None end.
(** The data of a request. *)
Definition data_of (k : kind) : option data_request := match k with KSend _ d => Some d | KSendToken _ d => Some d | _ => None end.

(** Ghost: a call of a request function has an identity; a transmission is the command ([false]) or the data ([true]) of a call. *)
Record call := { c_id : nat; c_req : request }.
(** A transaction: a call, and whether it is its data phase. *)
Definition tag : Type := (nat * bool)%type.
(** Equality of tags. *)
Definition tag_eqb (a b : tag) : bool := (fst a =? fst b)%nat && Bool.eqb (snd a) (snd b).
(** What the modem has been asked (ghost). *)
Record transaction := { tr_tag : tag; tr_type : at_type; tr_extra : option (list str) }.

(** A line of the modem; ghost: the transmission it answers ([None]: unsolicited), and whether it is the last line of that answer. *)
Record line := { l_text : str; l_from : option tag; l_last : bool }.

(** An entry of the response queue: the status; ghost: the line that completed the command, whether it meant success, the result of the
    response callback if one was called. *)
Record qitem := { q_st : pkt_status; q_line : line; q_ok : bool; q_cb : option pkt_status }.

(** ** Program counters *)
Inductive tpc :=
| Idle
| Called (c : call)                                    (* waiting for pktRequestMutex *)
| Hook (c : call)                                      (* has it; about to install table / callbacks *)
| Setup (c : call)                                     (* 208-223 *)
| SendA (c : call)                                     (* SendAtCmd, locked part: cellular_pktio.c:1455-1468 *)
| SendB (c : call)                                     (* SendAtCmd, transmission: cellular_pktio.c:1470-1472 *)
| Wait (c : call)                                      (* 234 PlatformQueue_Receive *)
| Reset (c : call) (st : pkt_status) (o : option qitem)   (* 254-258 *)
| Unhook (c : call) (st : pkt_status) (o : option qitem)  (* e.g. 616-619 *)
| Data1 (c : call)                                     (* 276-289 *)
| Data2 (c : call)                                     (* 291-309 *)
| DataWait (c : call)                                  (* 315 *)
| DataReset (c : call) (st : pkt_status) (o : option qitem) (* 337-339 *)
| Release (c : call) (st : pkt_status) (o : option qitem).  (* unlock pktRequestMutex and return *)

(** The reader thread. *)
Inductive rpc :=
| RIdle
| RGot (l : line)                                      (* cellular_pktio.c:1133, about to read pRespPrefix *)
| RPtr (l : line) (u : bool)                           (* about to run _getMsgType *)
| RMsg (l : line) (mt : msg_type)                      (* 719 _handleMsgType *)
| RTyp (l : line) (t : at_type)                        (* 743, PktioAtCmdType read, about to run _Cellular_ProcessLine *)
| RUndef (l : line)                                    (* 783-818 *)
| RDone (ok : bool) (ls : list line) (l : line)        (* 749-752 *)
| RHandle (ok : bool) (ls : list line) (l : line)      (* cellular_pkthandler.c:86-101 *)
| RCall (ls : list line) (l : line)                    (* pktRespCB was not NULL; about to call through it (103) *)
| RInCB (id : nat) (ls : list line) (l : line)         (* the response callback is running *)
| RPost (st : pkt_status) (l : line) (ok : bool) (c : option pkt_status)  (* 110 PlatformQueue_Send *)
| RCrashed.                                            (* called through a NULL pointer *)

(** What the application observes (ghost log). *)
Inductive entry :=
| Returned (c : call) (st : pkt_status) (o : option qitem)   (* the call returned; [o]: the queue entry its status came from *)
| Delivered (id : nat) (ls : list line) (l : line).          (* the response callback of call [id] was called with these lines *)

(** ** State of the system: the members of CellularContext_t involved, threads, modem *)
Record state := {
  mtx : option nat; (* pktRequestMutex: the thread holding it *)
  queue : option qitem; (* pktRespQueue, one entry (cellular_pkthandler.c:785) *)
  typ : at_type; (* PktioAtCmdType *)
  puse : bool; (* pRespPrefix: true = pktRespPrefixBuf, false = NULL *)
  pbuf : str; (* the string in pktRespPrefixBuf (C25: prefixes of at most 31 bytes) *)
  cb : option nat; (* pktRespCB with pPktUsrData; the callback is known by the identity of its request *)
  extra : option (list str); (* tokenTable.pCellularSrcExtraTokenSuccessTable *)
  dcb : option nat; (* pktDataPrefixCB *)
  scb : option nat; (* pktDataSendPrefixCB *)
  ths : list tpc; (* the application threads *)
  rd : rpc; (* the reader thread *)
  resp : option (list line); (* pAtCmdResp: the lines collected so far *)
  wire : list line; (* lines sent by the modem and not yet taken by the reader *)
  pend : list transaction; (* ghost: transmissions the modem has not (completely) answered *)
  next : nat; (* ghost: next request identity *)
  log : list entry (* ghost: what happened, newest first *)
}.
(** Store to pktRequestMutex. *)
Definition set_mtx (v : option nat) (s : state) : state :=
  {| mtx := v; queue := queue s; typ := typ s; puse := puse s; pbuf := pbuf s; cb := cb s; extra := extra s; dcb := dcb s; scb := scb s; ths := ths s; rd := rd s; resp := resp s; wire := wire s; pend := pend s; next := next s; log := log s |}.
(** Store to pktRespQueue. *)
Definition set_queue (v : option qitem) (s : state) : state :=
  {| mtx := mtx s; queue := v; typ := typ s; puse := puse s; pbuf := pbuf s; cb := cb s; extra := extra s; dcb := dcb s; scb := scb s; ths := ths s; rd := rd s; resp := resp s; wire := wire s; pend := pend s; next := next s; log := log s |}.
(** Store to PktioAtCmdType. *)
Definition set_typ (v : at_type) (s : state) : state :=
  {| mtx := mtx s; queue := queue s; typ := v; puse := puse s; pbuf := pbuf s; cb := cb s; extra := extra s; dcb := dcb s; scb := scb s; ths := ths s; rd := rd s; resp := resp s; wire := wire s; pend := pend s; next := next s; log := log s |}.
(** Store to pRespPrefix. *)
Definition set_puse (v : bool) (s : state) : state :=
  {| mtx := mtx s; queue := queue s; typ := typ s; puse := v; pbuf := pbuf s; cb := cb s; extra := extra s; dcb := dcb s; scb := scb s; ths := ths s; rd := rd s; resp := resp s; wire := wire s; pend := pend s; next := next s; log := log s |}.
(** Store to pktRespPrefixBuf. *)
Definition set_pbuf (v : str) (s : state) : state :=
  {| mtx := mtx s; queue := queue s; typ := typ s; puse := puse s; pbuf := v; cb := cb s; extra := extra s; dcb := dcb s; scb := scb s; ths := ths s; rd := rd s; resp := resp s; wire := wire s; pend := pend s; next := next s; log := log s |}.
(** Store to pktRespCB. *)
Definition set_cb (v : option nat) (s : state) : state :=
  {| mtx := mtx s; queue := queue s; typ := typ s; puse := puse s; pbuf := pbuf s; cb := v; extra := extra s; dcb := dcb s; scb := scb s; ths := ths s; rd := rd s; resp := resp s; wire := wire s; pend := pend s; next := next s; log := log s |}.
(** Store to tokenTable.pCellularSrcExtraTokenSuccessTable (cellular_pkthandler.c:609, 618, 753, 762). *)
Definition set_extra (v : option (list str)) (s : state) : state :=
  {| mtx := mtx s; queue := queue s; typ := typ s; puse := puse s; pbuf := pbuf s; cb := cb s; extra := v; dcb := dcb s; scb := scb s; ths := ths s; rd := rd s; resp := resp s; wire := wire s; pend := pend s; next := next s; log := log s |}.
(** Store to pktDataPrefixCB. *)
Definition set_dcb (v : option nat) (s : state) : state :=
  {| mtx := mtx s; queue := queue s; typ := typ s; puse := puse s; pbuf := pbuf s; cb := cb s; extra := extra s; dcb := v; scb := scb s; ths := ths s; rd := rd s; resp := resp s; wire := wire s; pend := pend s; next := next s; log := log s |}.
(** Store to pktDataSendPrefixCB. *)
Definition set_scb (v : option nat) (s : state) : state :=
  {| mtx := mtx s; queue := queue s; typ := typ s; puse := puse s; pbuf := pbuf s; cb := cb s; extra := extra s; dcb := dcb s; scb := v; ths := ths s; rd := rd s; resp := resp s; wire := wire s; pend := pend s; next := next s; log := log s |}.
(** Store to the program counter of an application thread. *)
Definition set_ths (v : list tpc) (s : state) : state :=
  {| mtx := mtx s; queue := queue s; typ := typ s; puse := puse s; pbuf := pbuf s; cb := cb s; extra := extra s; dcb := dcb s; scb := scb s; ths := v; rd := rd s; resp := resp s; wire := wire s; pend := pend s; next := next s; log := log s |}.
(** Store to the program counter of the reader. *)
Definition set_rd (v : rpc) (s : state) : state :=
  {| mtx := mtx s; queue := queue s; typ := typ s; puse := puse s; pbuf := pbuf s; cb := cb s; extra := extra s; dcb := dcb s; scb := scb s; ths := ths s; rd := v; resp := resp s; wire := wire s; pend := pend s; next := next s; log := log s |}.
(** Store to the response being collected. *)
Definition set_resp (v : option (list line)) (s : state) : state :=
  {| mtx := mtx s; queue := queue s; typ := typ s; puse := puse s; pbuf := pbuf s; cb := cb s; extra := extra s; dcb := dcb s; scb := scb s; ths := ths s; rd := rd s; resp := v; wire := wire s; pend := pend s; next := next s; log := log s |}.
(** Store to the lines on the wire (ghost). *)
Definition set_wire (v : list line) (s : state) : state :=
  {| mtx := mtx s; queue := queue s; typ := typ s; puse := puse s; pbuf := pbuf s; cb := cb s; extra := extra s; dcb := dcb s; scb := scb s; ths := ths s; rd := rd s; resp := resp s; wire := v; pend := pend s; next := next s; log := log s |}.
(** Store to the transactions the modem works on (ghost). *)
Definition set_pend (v : list transaction) (s : state) : state :=
  {| mtx := mtx s; queue := queue s; typ := typ s; puse := puse s; pbuf := pbuf s; cb := cb s; extra := extra s; dcb := dcb s; scb := scb s; ths := ths s; rd := rd s; resp := resp s; wire := wire s; pend := v; next := next s; log := log s |}.
(** Store to the number of the next call (ghost). *)
Definition set_next (v : nat) (s : state) : state :=
  {| mtx := mtx s; queue := queue s; typ := typ s; puse := puse s; pbuf := pbuf s; cb := cb s; extra := extra s; dcb := dcb s; scb := scb s; ths := ths s; rd := rd s; resp := resp s; wire := wire s; pend := pend s; next := v; log := log s |}.
(** Store to the history (ghost). *)
Definition set_log (v : list entry) (s : state) : state :=
  {| mtx := mtx s; queue := queue s; typ := typ s; puse := puse s; pbuf := pbuf s; cb := cb s; extra := extra s; dcb := dcb s; scb := scb s; ths := ths s; rd := rd s; resp := resp s; wire := wire s; pend := pend s; next := next s; log := v |}.

(** Replace an element. *)
Fixpoint set_nth {A} (l : list A) (i : nat) (x : A) : list A :=
  match l, i with
  | [], _ => []
  | _ :: t, O => x :: t
  | y :: t, S j => y :: set_nth t j x
  end.

Section System.
(** The token tables registered by the port (the extra success table is the member [extra]). *)
Variable tt : token_table.
(** The token table in force: cellular_common_internal.h tokenTable, with the temporary table if one is set. *)
Definition tokens_now (e : option (list str)) : token_table :=
  {| tk_error := tk_error tt; tk_success := tk_success tt; tk_urc_wo_prefix := tk_urc_wo_prefix tt; tk_extra_success := e |}.

(** cellular_pktio.c:1446-1459, what _Cellular_PktioSendAtCmd decides: [inl st] = rejected, [inr e] = accepted with pRespPrefix := e
    (SendCmd.v has the memory-level model, Properties_Request.v the agreement). *)
Definition send_check (c : str) (t : at_type) (p : option str) : pkt_status + option str :=
  if (200 <? N.of_nat (length c))%N then inl PKT_BAD_PARAM
  else match t with
       | T_NO_RESULT | T_WO_PREFIX | T_WO_PREFIX_NO_RESULT_CODE => inr None
       | T_WITH_PREFIX | T_MULTI_WITH_PREFIX | T_WITH_PREFIX_NO_RESULT_CODE => match p with Some _ => inr p | None => inl PKT_BAD_PARAM end
       | T_MULTI_WO_PREFIX | T_MULTI_DATA_WO_PREFIX => inr p
       | T_NO_COMMAND => inl PKT_BAD_PARAM
       end.

(** Program counter of thread [i]. *)
Definition goto (i : nat) (p : tpc) (s : state) : state := set_ths (set_nth (ths s) i p) s.
(** Add to the history. *)
Definition record (e : entry) (s : state) : state := set_log (e :: log s) s.

(** After the command phase (e.g. cellular_pkthandler.c:702, 765): go on with the data or return. *)
Definition after_command (c : call) (st : pkt_status) (o : option qitem) : tpc :=
  match data_of (rq_kind (c_req c)), st with
  | Some _, PKT_OK => Data1 c
  | _, _ => Release c st o
  end.

(** The next action of application thread [i] (time-outs and short transmissions are separate labels). *)
Definition thread_step (i : nat) (s : state) : option state :=
  match nth_error (ths s) i with
  | None | Some Idle => None
  | Some (Called c) =>
      match mtx s with
      | None => Some (goto i (Hook c) (set_mtx (Some i) s))
      | Some _ => None
      end
  | Some (Hook c) =>
      (* each function installs only its own hook; the others are NULL at this point or left alone *)
      let k := rq_kind (c_req c) in
      Some (goto i (Setup c)
        (match k with
         | KPlain => s
         | KToken t => set_extra t s
         | KRecv b => set_dcb b s
         | KSend b _ => set_scb b s
         | KSendToken t _ => set_extra t s
         end))
  | Some (Setup c) =>
      match rq_cmd (c_req c) with
      | None => Some (goto i (Unhook c PKT_BAD_REQUEST None) s)
      | Some _ => Some (goto i (SendA c) (set_cb (if rq_cb (c_req c) then Some (c_id c) else None) s))
      end
  | Some (SendA c) =>
      match rq_cmd (c_req c) with
      | None => None
      | Some cmd =>
          match send_check cmd (rq_type (c_req c)) (rq_prefix (c_req c)) with
          | inl st => Some (goto i (Reset c st None) s)
          | inr e =>
              let s1 := match e with Some p => set_puse true (set_pbuf p s) | None => set_puse false s end in
              Some (goto i (SendB c) (set_typ (rq_type (c_req c)) s1))
          end
      end
  | Some (SendB c) =>
      Some (goto i (Wait c)
        (set_pend ({| tr_tag := (c_id c, false); tr_type := rq_type (c_req c); tr_extra := hook_extra (rq_kind (c_req c)) |} :: pend s) s))
  | Some (Wait c) =>
      match queue s with
      | Some q => Some (goto i (Reset c (q_st q) (Some q)) (set_queue None s))
      | None => None
      end
  | Some (Reset c st o) => Some (goto i (Unhook c st o) (set_typ T_NO_COMMAND (set_cb None s)))
  | Some (Unhook c st o) =>
      Some (goto i (after_command c st o)
        (match rq_kind (c_req c) with
         | KPlain => s
         | KToken _ | KSendToken _ _ => set_extra None s
         | KRecv _ => set_dcb None s
         | KSend _ _ => set_scb None s
         end))
  | Some (Data1 c) =>
      match data_of (rq_kind (c_req c)) with
      | Some d => match d_data d with
                  | None => Some (goto i (Release c PKT_BAD_REQUEST None) s)
                  | Some _ => Some (goto i (Data2 c) (set_typ T_NO_RESULT s))
                  end
      | None => None
      end
  | Some (Data2 c) =>
      Some (goto i (DataWait c)
        (set_pend ({| tr_tag := (c_id c, true); tr_type := T_NO_RESULT; tr_extra := None |} :: pend s) s))
  | Some (DataWait c) =>
      match queue s with
      | Some q => Some (goto i (DataReset c (q_st q) (Some q)) (set_queue None s))
      | None => None
      end
  | Some (DataReset c st o) => Some (goto i (Release c st o) (set_typ T_NO_COMMAND s))
  | Some (Release c st o) => Some (record (Returned c st o) (goto i Idle (set_mtx None s)))
  end.

(** Items only matter by their number to _Cellular_ProcessLine. *)
Definition dummy_response (ls : list line) : response :=
  {| r_status := false; r_items := map (fun _ => {| it_ptr := 0; it_raw := None |}) ls |}.

(** cellular_pktio.c:732-776 together with _Cellular_ProcessLine (329-414). *)
Definition reader_process (s : state) (l : line) (t : at_type) : option state :=
  let ls := match resp s with Some x => x | None => [] end in
  match ProcessLine (tokens_now (extra s)) 0 (l_text l) (dummy_response ls) t with
  | Ok (st, r) =>
      let ls' := if (length (r_items r) =? length ls)%nat then ls else ls ++ [l] in
      match st with
      | PKT_OK => Some (set_rd (RDone (r_status r) ls' l) (set_resp (Some ls') s))
      | PKT_PENDING_BUFFER | PKT_PENDING_DATA => Some (set_rd RIdle (set_resp (Some ls') s))
      | _ => Some (set_rd (RUndef l) (set_resp (Some ls') s))
      end
  | _ => None
  end.

(** The next action of the reader thread (results of callbacks are separate labels). *)
Definition reader_step (s : state) : option state :=
  match rd s with
  | RIdle => match wire s with
             | [] => None
             | l :: w => Some (set_rd (RGot l) (set_wire w s))
             end
  | RGot l => Some (set_rd (RPtr l (puse s)) s)
  | RPtr l u => Some (set_rd (RMsg l (getMsgType tt (typ s) (l_text l) (if u then Some (pbuf s) else None))) s)
  | RMsg l AT_UNSOLICITED => Some (set_rd RIdle s)
  | RMsg l AT_SOLICITED => Some (set_rd (RTyp l (typ s)) s)
  | RMsg l AT_UNDEFINED => Some (set_rd (RUndef l) s)
  | RTyp l t => reader_process s l t
  | RUndef _ => None
  | RDone ok ls l => Some (set_rd (RHandle ok ls l) (set_typ T_NO_COMMAND (set_puse false s)))
  | RHandle ok ls l =>
      if ok then match cb s with
                 | None => Some (set_rd (RPost PKT_OK l ok None) s)
                 | Some _ => Some (set_rd (RCall ls l) s)
                 end
      else Some (set_rd (RPost PKT_FAILURE l ok None) s)
  | RCall ls l =>
      match cb s with
      | None => Some (set_rd RCrashed s)
      | Some id => Some (record (Delivered id ls l) (set_rd (RInCB id ls l) s))
      end
  | RInCB _ _ _ => None
  | RPost st l ok c =>
      let s1 := set_rd RIdle (set_resp None s) in
      match queue s with
      | None => Some (set_queue (Some {| q_st := st; q_line := l; q_ok := ok; q_cb := c |}) s1)
      | Some _ => Some s1
      end
  | RCrashed => None
  end.

(** ** Labels *)
Inductive label :=
| LCall (i : nat) (r : request)       (* thread i calls a request function *)
| LThread (i : nat)                   (* next action of thread i *)
| LTimeout (i : nat)                  (* PlatformQueue_Receive of thread i times out *)
| LSendLost (i : nat)                 (* the comm interface does not transmit the command completely (result ignored, 1470) *)
| LDataShort (i : nat)                (* the data or end pattern is not transmitted completely *)
| LReader                             (* next action of the reader *)
| LCbReturns (st : pkt_status)        (* the response callback returns *)
| LUndef (accepted : bool) (k : nat)  (* the undefined-message handler returns; if it refuses, the rest of the buffered input,
                                         k lines, is dropped *)
| LEmit (l : line)                    (* the modem sends a line *)
| LGiveUp (g : tag).                  (* the modem will not answer this transmission any more *)

(** The modem is done with a transaction. *)
Definition drop_tag (g : tag) (p : list transaction) : list transaction := filter (fun t => negb (tag_eqb (tr_tag t) g)) p.

(** One step of the system. *)
Definition exec (lb : label) (s : state) : option state :=
  match lb with
  | LCall i r =>
      match nth_error (ths s) i with
      | Some Idle =>
          let s1 := set_next (S (next s)) s in
          match rq_kind r with
          | KToken None => Some (record (Returned {| c_id := next s; c_req := r |} PKT_BAD_PARAM None) s1)     (* 598-602 *)
          | _ => Some (goto i (Called {| c_id := next s; c_req := r |}) s1)
          end
      | _ => None
      end
  | LThread i => thread_step i s
  | LTimeout i =>
      match nth_error (ths s) i with
      | Some (Wait c) => Some (goto i (Reset c PKT_TIMED_OUT None) s)
      | Some (DataWait c) => Some (goto i (DataReset c PKT_TIMED_OUT None) s)
      | _ => None
      end
  | LSendLost i =>
      match nth_error (ths s) i with
      | Some (SendB c) => Some (goto i (Wait c) s)
      | _ => None
      end
  | LDataShort i =>
      match nth_error (ths s) i with
      | Some (Data2 c) => Some (goto i (Release c PKT_SEND_ERROR None) s)
      | _ => None
      end
  | LReader => reader_step s
  | LCbReturns st =>
      match rd s with
      | RInCB id ls l => Some (set_rd (RPost st l true (Some st)) s)
      | _ => None
      end
  | LUndef a k =>
      match rd s with
      | RUndef l =>
          if a then Some (set_rd RIdle s)
          else Some (set_rd RIdle (set_wire (skipn k (wire s)) (set_resp None (set_typ T_NO_COMMAND (set_puse false s)))))
      | _ => None
      end
  | LEmit l =>
      let p := match l_from l with Some g => if l_last l then drop_tag g (pend s) else pend s | None => pend s end in
      Some (set_wire (wire s ++ [l]) (set_pend p s))
  | LGiveUp g => Some (set_pend (drop_tag g (pend s)) s)
  end.

(** Initial state with [n] application threads (after library initialisation). *)
Definition init (n : nat) : state :=
  {| mtx := None; queue := None; typ := T_NO_COMMAND; puse := false; pbuf := []; cb := None; extra := None; dcb := None; scb := None;
     ths := repeat Idle n; rd := RIdle; resp := None; wire := []; pend := []; next := 0; log := [] |}.

(** Runs whose labels all satisfy [ok] in the state they happen in. *)
Inductive run (ok : state -> label -> Prop) : state -> list label -> state -> Prop :=
| run_nil s : run ok s [] s
| run_step s lbs s1 lb s2 : run ok s lbs s1 -> ok s1 lb -> exec lb s1 = Some s2 -> run ok s (lbs ++ [lb]) s2.
End System.

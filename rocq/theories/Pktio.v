(** Model of the receive path of /repo/source/cellular_pktio.c: line classification, response assembly and the
    receive buffer machine run by the reader thread.
    Inlined: cellular_pktio.c:133-139 _convertCharPtrDistance (a difference of addresses in the buffer, below 2^31) and
    cellular_pkthandler.c:520-558 _Cellular_HandlePacket (the context and the text are never NULL here, and the type is one of the
    three it knows). *)
From Coq Require Import List NArith ZArith Bool Arith.
From Verif Require Import Bytes AtCore Status.
Import ListNotations.

(** /repo/source/include/cellular_types.h:357-370 CellularATCommandType_t *)
Inductive at_type :=
| T_NO_RESULT | T_WO_PREFIX | T_WITH_PREFIX | T_MULTI_WITH_PREFIX | T_MULTI_WO_PREFIX
| T_MULTI_DATA_WO_PREFIX | T_WO_PREFIX_NO_RESULT_CODE | T_WITH_PREFIX_NO_RESULT_CODE | T_NO_COMMAND.

(** PktioAtCmdType == CELLULAR_AT_NO_COMMAND *)
Definition is_no_command (t : at_type) : bool := match t with T_NO_COMMAND => true | _ => false end.

(** /repo/source/include/private/cellular_pktio_internal.h _atRespType_t *)
Inductive msg_type := AT_SOLICITED | AT_UNSOLICITED | AT_UNDEFINED.

(** /repo/source/include/common/cellular_common.h:155-176 CellularTokenTable_t, the members used by the receive
    path; [None] = NULL table pointer.  Table sizes are the list lengths. *)
Record token_table := {
  tk_error : option (list str);
  tk_success : option (list str);
  tk_urc_wo_prefix : option (list str);
  tk_extra_success : option (list str) }.

(** cellular_pktio.c:418-443 _checkUrcTokenWoPrefix *)
Fixpoint urc_token_loop (line : str) (tbl : list str) : bool :=
  match tbl with
  | [] => false
  | k :: t => if str_eqb line k then true else urc_token_loop line t
  end.
(** cellular_pktio.c:418-443 _checkUrcTokenWoPrefix *)
Definition checkUrcTokenWoPrefix (tt : token_table) (line : str) : bool :=
  match tk_urc_wo_prefix tt with None => false | Some t => urc_token_loop line t end.

(** cellular_pktio.c:447-515 _getMsgType.  [cmd] is PktioAtCmdType, [prefix] is pRespPrefix as read by the caller. *)
Definition getMsgType (tt : token_table) (cmd : at_type) (line : str) (prefix : option str) : msg_type :=
  if checkUrcTokenWoPrefix tt line then AT_UNSOLICITED
  else
    let inputWithPrefix := match snd (ATIsPrefixPresent (Some line) (Some false)) with Some b => b | None => false end in
    let '(atStatus, src) :=
      if inputWithPrefix then
        match prefix with
        | Some _ => ATStrStartWith (Some line) prefix (Some false)
        | None => (AT_SUCCESS, Some false)
        end
      else (AT_SUCCESS, Some false) in
    let inputWithSrcPrefix := match src with Some b => b | None => false end in
    match atStatus with
    | AT_SUCCESS =>
        if inputWithPrefix then
          if negb (is_no_command cmd) && inputWithSrcPrefix then AT_SOLICITED else AT_UNSOLICITED
        else if negb (is_no_command cmd) then AT_SOLICITED else AT_UNDEFINED
    | _ => AT_UNDEFINED
    end.

(** /repo/source/include/cellular_types.h CellularATCommandLine_t: pLine only.  An item is a pointer into the read
    buffer; [it_raw] is a ghost field: [Some n] when the item was stored by _saveRawData with dataLen = n (the C
    code discards that length at line 149), used only to say what the consumer can read through the pointer. *)
Record item := { it_ptr : nat; it_raw : option nat }.

(** /repo/source/include/cellular_types.h CellularATCommandResponse_t: status and the list pItm. *)
Record response := { r_status : bool; r_items : list item }.

(** cellular_pktio.c:285-295 _Cellular_AtResponseNew (memset 0; the allocation is asserted to succeed). *)
Definition AtResponseNew : response := {| r_status := false; r_items := [] |}.

(** cellular_pktio.c:143-194 _saveData / _saveRawData / _saveATData: append to the list (allocation asserted). *)
Definition saveData (r : response) (i : item) : response :=
  {| r_status := r_status r; r_items := r_items r ++ [i] |}.
(** cellular_pktio.c:189-194 _saveATData *)
Definition saveATData (r : response) (p : nat) : response := saveData r {| it_ptr := p; it_raw := None |}.
(** cellular_pktio.c:179-185 _saveRawData *)
Definition saveRawData (r : response) (p len : nat) : response := saveData r {| it_ptr := p; it_raw := Some len |}.

(** cellular_pktio.c:198-281 _processIntermediateResponse *)
Definition processIntermediateResponse (p : nat) (r : response) (t : at_type) : pkt_status * response :=
  match t with
  | T_WO_PREFIX | T_WITH_PREFIX =>
      match r_items r with
      | [] => (PKT_PENDING_DATA, saveATData r p)
      | _ => (PKT_INVALID_DATA, r)
      end
  | T_MULTI_WITH_PREFIX | T_MULTI_WO_PREFIX => (PKT_PENDING_DATA, saveATData r p)
  | T_MULTI_DATA_WO_PREFIX => (PKT_PENDING_BUFFER, saveATData r p)
  | T_WO_PREFIX_NO_RESULT_CODE | T_WITH_PREFIX_NO_RESULT_CODE =>
      (PKT_OK, {| r_status := true; r_items := r_items (saveATData r p) |})
  | T_NO_RESULT | T_NO_COMMAND => (PKT_INVALID_DATA, r)
  end.

(** Cellular_ATcheckErrorCode with the outcome flag only; 257 iterations are enough for every table on which the
    loop of the code ends (C11). *)
Definition check_tokens (line : str) (tbl : option (list str)) : res bool :=
  do r <- ATcheckErrorCode 257 (Some line) tbl (Some false);
  Ok (match snd r with Some b => b | None => false end).

(** cellular_pktio.c:329-414 _Cellular_ProcessLine.  [line] is the content of the line at pointer [p]. *)
Definition ProcessLine (tt : token_table) (p : nat) (line : str) (r : response) (t : at_type)
  : res (pkt_status * response) :=
  match tk_error tt, tk_success tt with
  | Some _, Some _ =>
      do x <- check_tokens line (tk_extra_success tt);
      do ok <- (if x then Ok true else check_tokens line (tk_success tt));
      if ok then Ok (PKT_OK, {| r_status := true; r_items := r_items r |})
      else
        do er <- check_tokens line (tk_error tt);
        if er then Ok (PKT_OK, {| r_status := false; r_items := r_items r |})
        else Ok (processIntermediateResponse p r t)
  | _, _ => Ok (PKT_FAILURE, r)
  end.

(** Observable effects of the reader.
    [EvUrc]/[EvUndef]: pPktioHandlepktCB called with AT_UNSOLICITED / AT_UNDEFINED and the line;
    [EvResp]: called with AT_SOLICITED: status and what each item pointer shows at that moment;
    [EvDrop]: the buffered input is discarded after an unaccepted undefined line (lines 792-812), which also ends
    the command in flight. *)
Inductive event :=
| EvUrc (line : str)
| EvResp (ok : bool) (items : list (list N))
| EvUndef (line : str)
| EvDrop.

(** What the reader sees of the shared context during one pass of its loop (one line).  Other threads may change
    all of it between passes (and between the two command-type reads), so a pass takes it as an input.
    Callbacks are given by their effect on the bytes they are handed:
    - [v_inbuf] inputBufferCallback: status, *pBufferLengthHandled, the bytes afterwards;
    - [v_send] pktDataSendPrefixCB: status, the bytes afterwards (their number is *pBytesRead afterwards);
    - [v_data] pktDataPrefixCB: status, *ppStartOfData relative to the line if written, *pDataLength if written,
      the bytes afterwards. *)
Record view := {
  v_inbuf : option (str -> pkt_status * nat * str);
  v_send : option (str -> pkt_status * str);
  v_data : option (str -> pkt_status * option nat * option nat * str);
  v_tokens : token_table;
  v_cmd : at_type;              (* PktioAtCmdType under the lock of _getMsgType *)
  v_prefix : option str;        (* pRespPrefix *)
  v_cmd2 : at_type;             (* PktioAtCmdType read at line 743 *)
  v_handler : bool;             (* pPktioHandlepktCB != NULL *)
  v_undef : str -> pkt_status   (* its result for AT_UNDEFINED *)
}.

(** ** The receive buffer *)
Section Machine.
(** PKTIO_READ_BUFFER_SIZE, /repo/source/include/private/cellular_common_internal.h (1600); the array has one byte
    more (pktioReadBuf[PKTIO_READ_BUFFER_SIZE + 1]). *)
Variable cap : nat.

(** The members of CellularContext_t only the reader uses. *)
Record rx := {
  rx_buf : list N;             (* pktioReadBuf *)
  rx_ptr : option nat;         (* pPktioReadPtr, as an offset; None = NULL *)
  rx_partial : nat;            (* partialDataRcvdLen *)
  rx_dlen : nat;               (* dataLength *)
  rx_resp : option response    (* pAtCmdResp *)
}.

(** After _Cellular_PktioInit (cellular_pktio.c:1343-1415). *)
Definition rx0 : rx := {| rx_buf := repeat 0%N (S cap); rx_ptr := None; rx_partial := 0; rx_dlen := 0; rx_resp := None |}.

(** Bounds-checked access to [n] bytes of an object. *)
Definition rd (m : list N) (p n : nat) : res (list N) :=
  if (p + n <=? length m)%nat then Ok (firstn n (skipn p m)) else UB.
(** A block write: outside the block it is UB. *)
Definition wr (m : list N) (p : nat) (bs : list N) : res (list N) :=
  if (p + length bs <=? length m)%nat then Ok (firstn p m ++ bs ++ skipn (p + length bs) m) else UB.

(** cellular_pktio.c: NUL, CR or LF. *)
Definition is_eol (c : N) : bool := (c =? 0)%N || (c =? 13)%N || (c =? 10)%N.

(** What a consumer reads through an item. *)
Definition item_content (m : list N) (i : item) : res (list N) :=
  match it_raw i with
  | None => match cstr_get m (it_ptr i) with Some s => Ok s | None => UB end
  | Some n => rd m (it_ptr i) n
  end.
(** What a response callback reads through the list of items. *)
Fixpoint deliver (m : list N) (l : list item) : res (list (list N)) :=
  match l with
  | [] => Ok []
  | i :: t => do c <- item_content m i; do cs <- deliver m t; Ok (c :: cs)
  end.

(** The discard sequence of lines 805-807, 888-890 and 934-936. *)
Definition reset_buf (s : rx) : rx :=
  {| rx_buf := repeat 0%N (S cap); rx_ptr := None; rx_partial := 0; rx_dlen := rx_dlen s; rx_resp := rx_resp s |}.
(** Store to pPktioReadPtr and partialDataRcvdLen. *)
Definition set_left (s : rx) (p : option nat) (n : nat) : rx :=
  {| rx_buf := rx_buf s; rx_ptr := p; rx_partial := n; rx_dlen := rx_dlen s; rx_resp := rx_resp s |}.
(** Store to pktioReadBuf. *)
Definition set_buf (s : rx) (m : list N) : rx :=
  {| rx_buf := m; rx_ptr := rx_ptr s; rx_partial := rx_partial s; rx_dlen := rx_dlen s; rx_resp := rx_resp s |}.
(** Store to dataLength. *)
Definition set_dlen (s : rx) (d : nat) : rx :=
  {| rx_buf := rx_buf s; rx_ptr := rx_ptr s; rx_partial := rx_partial s; rx_dlen := d; rx_resp := rx_resp s |}.
(** Store to the pending response. *)
Definition set_resp (s : rx) (r : option response) : rx :=
  {| rx_buf := rx_buf s; rx_ptr := rx_ptr s; rx_partial := rx_partial s; rx_dlen := rx_dlen s; rx_resp := r |}.

(** cellular_pktio.c:585-661 _Cellular_ReadLine (with _handleLeftoverBuffer, 561-579).  [recv space] is what the
    comm interface puts into the buffer when asked for at most [space] bytes.  Results: the returned pointer
    (None = NULL), *pBytesRead, new state. *)
Definition ReadLine (s : rx) (recv : nat -> str) : res (option nat * nat * rx) :=
  let off := match rx_ptr s with Some p => p | None => 0%nat end in
  let compact := match rx_ptr s with Some (S _) => true | _ => false end
                 && negb (rx_partial s =? 0)%nat
                 && match rx_resp s with None => true | _ => false end in
  do s1 <- (if compact then
              do d <- rd (rx_buf s) off (rx_partial s);
              do m <- wr (rx_buf s) 0 d;
              do m' <- st m (rx_partial s) 0%N;
              Ok (set_left (set_buf s m') (Some 0%nat) (rx_partial s))
            else Ok s);
  let base := if compact then 0%nat else off in
  (* int32 arithmetic of lines 607-624; a negative space is "no space" like 0 *)
  let space := (cap - rx_partial s1 - base)%nat in
  if (0 <? space)%nat then
    let bs := recv space in
    do m <- wr (rx_buf s1) (base + rx_partial s1) bs;
    if (0 <? length bs)%nat then
      do m' <- st m (base + rx_partial s1 + length bs) 0%N;
      Ok (Some base, (length bs + rx_partial s1)%nat, set_left (set_buf s1 m') (rx_ptr s1) 0)
    else Ok (None, 0%nat, set_buf s1 m)
  else Ok (Some base, 0%nat, set_left s1 None 0).

(** cellular_pktio.c:665-715 _handleData.  Arguments: pStartOfData, state, *ppLine, bytesRead; results: new *ppLine,
    *pBytesLeft, state.  uint32 wrap-around of 673/679 and a NULL response (in _saveData) are [UB]. *)
Definition handleData (sod : option nat) (s : rx) (line n : nat) : res (nat * nat * rx) :=
  match sod with
  | None => UB
  | Some p =>
      if (p <? line)%nat || (line + n <? p)%nat then UB
      else
        let avail := (n - (p - line))%nat in
        if (rx_dlen s <=? avail)%nat then
          match rx_resp s with
          | None => UB
          | Some r =>
              let s1 := set_resp s (Some (saveRawData r p (rx_dlen s))) in
              let line' := (p + rx_dlen s)%nat in
              let lft := (avail - rx_dlen s)%nat in
              Ok (line', lft, set_left (set_dlen s1 0) (Some line') lft)
          end
        else Ok (line, 0%nat, set_left s (Some p) avail)
  end.

(** cellular_pktio.c:1107-1111, the skipping loop. *)
Fixpoint skip_eol (m : list N) (p n : nat) : res (nat * nat) :=
  match n with
  | O => Ok (p, O)
  | S k => do c <- ld m p; if is_eol c then skip_eol m (S p) k else Ok (p, n)
  end.

(** cellular_pktio.c:834-840, the search loop of _findLineInStream: index of the first end-of-line byte. *)
Fixpoint find_eol (m : list N) (p n : nat) : res (option nat) :=
  match n with
  | O => Ok None
  | S k => do c <- ld m p;
           if is_eol c then Ok (Some 0%nat)
           else do r <- find_eol m (S p) k; Ok (match r with Some i => Some (S i) | None => None end)
  end.

(** cellular_pktio.c:861-901 _handleCallbackResult: [None] = keep processing, [Some s] = stop. *)
Definition handleCallbackResult (s : rx) (st : pkt_status) (line n : nat) : option rx :=
  match st with
  | PKT_PREFIX_MISMATCH | PKT_OK => None
  | PKT_SIZE_MISMATCH => Some (set_left s (Some line) n)
  | _ => Some (reset_buf s)
  end.

(** Outcome of one pass of the loop of _handleAllReceived. *)
Inductive pass_result :=
| Stop (s : rx)
| Next (s : rx) (line n : nat).

(** cellular_pktio.c:905-959 _preprocessInputBuffer *)
Definition preprocessInputBuffer (v : view) (s : rx) (line n : nat) : res pass_result :=
  match v_inbuf v with
  | None => Ok (Next s line n)
  | Some f =>
      do bs <- rd (rx_buf s) line n;
      let '(st, len, bs') := f bs in
      do m <- wr (rx_buf s) line bs';
      let s1 := set_buf s m in
      match st with
      | PKT_OK => if (n <? len)%nat then Ok (Stop (reset_buf s1))
                  else Ok (Next (set_left s1 (Some (line + len)%nat) (rx_partial s1)) (line + len) (n - len))
      | _ => match handleCallbackResult s1 st line n with
             | Some s2 => Ok (Stop s2)
             | None => Ok (Next s1 line n)
             end
      end
  end.

(** cellular_pktio.c:963-1027 _preprocessLine; [sod] is pStartOfData of the caller. *)
Definition preprocessLine (v : view) (s : rx) (line n : nat) (sod : option nat) : res (pass_result * option nat) :=
  if (n =? 0)%nat then Ok (Stop (set_left s (Some line) 0), sod)
  else
    match v_send v, v_data v with
    | Some f, _ =>
        do bs <- rd (rx_buf s) line n;
        let '(st, bs') := f bs in
        do m <- wr (rx_buf s) line bs';
        let s1 := set_buf s m in
        match handleCallbackResult s1 st line (length bs') with
        | Some s2 => Ok (Stop s2, sod)
        | None => Ok (Next s1 line (length bs'), sod)
        end
    | None, Some f =>
        do bs <- rd (rx_buf s) line n;
        let '(st, start, len, bs') := f bs in
        do m <- wr (rx_buf s) line bs';
        let s1 := set_buf s m in
        let s2 := match len with Some d => set_dlen s1 d | None => s1 end in
        let sod' := match start with Some o => Some (line + o)%nat | None => sod end in
        match handleCallbackResult s2 st line n with
        | Some s3 => Ok (Stop s3, sod')
        | None => Ok (Next s2 line n, sod')
        end
    | None, None => Ok (Next s line n, sod)
    end.

(** cellular_pktio.c:719-820 _handleMsgType.  Results: status, recvdMsgType afterwards, events, state. *)
Definition handleMsgType (v : view) (mt : msg_type) (s : rx) (line : nat) (txt : str)
  : res (pkt_status * msg_type * list event * rx) :=
  do r <- match mt with
          | AT_UNSOLICITED => Ok (PKT_OK, mt, if v_handler v then [EvUrc txt] else [], s)
          | AT_SOLICITED =>
              let resp := match rx_resp s with Some r => r | None => AtResponseNew end in
              do x <- ProcessLine (v_tokens v) line txt resp (v_cmd2 v);
              let '(st, resp') := x in
              match st with
              | PKT_OK =>
                  do cs <- (if v_handler v then deliver (rx_buf s) (r_items resp') else Ok []);
                  Ok (PKT_OK, mt, if v_handler v then [EvResp (r_status resp') cs] else [], set_resp s None)
              | PKT_PENDING_BUFFER | PKT_PENDING_DATA => Ok (st, mt, [], set_resp s (Some resp'))
              | _ => Ok (st, AT_UNDEFINED, [], set_resp s (Some resp'))
              end
          | AT_UNDEFINED => Ok (PKT_OK, mt, [], s)
          end;
  let '(st, mt', ev, s1) := r in
  match mt' with
  | AT_UNDEFINED =>
      let st' := if v_handler v then v_undef v txt else st in
      let ev' := if v_handler v then ev ++ [EvUndef txt] else ev in
      match st' with
      | PKT_OK => Ok (PKT_OK, mt', ev', s1)
      | _ => Ok (PKT_INVALID_DATA, mt', ev' ++ [EvDrop], set_resp (reset_buf s1) None)
      end
  | _ => Ok (st, mt', ev, s1)
  end.

(** cellular_pktio.c:1060-1085 _getNextLine *)
Definition getNextLine (s : rx) (line n len : nat) (st : pkt_status) (mt : msg_type) : res pass_result :=
  if (n <? len + 1)%nat then UB      (* uint32 wrap-around *)
  else
    let line' := (line + (len + 1))%nat in
    let n' := (n - (len + 1))%nat in
    match st, mt with
    | PKT_OK, AT_SOLICITED =>
        do d <- rd (rx_buf s) line' n';
        do m <- wr (rx_buf s) 0 d;
        Ok (Next (set_left (set_buf s m) (Some 0%nat) n') 0 n')
    | _, _ => Ok (Next (set_left s (Some line') n') line' n')
    end.

(** cellular_pktio.c:1101-1161, one pass of the loop of _handleAllReceived (with _handleDataResult, 1031-1056, and
    _findLineInStream, 824-857).  Results: events, outcome, pStartOfData. *)
Definition pass (v : view) (s : rx) (line0 n0 : nat) (sod : option nat)
  : res (list event * pass_result * option nat) :=
  do k <- skip_eol (rx_buf s) line0 n0;
  let '(line1, n1) := k in
  do r1 <- preprocessInputBuffer v s line1 n1;
  match r1 with
  | Stop s1 => Ok ([], Stop s1, sod)
  | Next s1 line2 n2 =>
      do r2 <- preprocessLine v s1 line2 n2 sod;
      match r2 with
      | (Stop s2, sod2) => Ok ([], Stop s2, sod2)
      | (Next s2 line n, sod2) =>
          do f <- find_eol (rx_buf s2) line n;
          match f with
          | None => Ok ([], Stop (set_left s2 (Some line) n), sod2)
          | Some i =>
              do m <- st (rx_buf s2) (line + i) 0%N;
              let s3 := set_buf s2 m in
              do txt <- (match cstr_get m line with Some t => Ok t | None => UB end);
              let mt := getMsgType (v_tokens v) (v_cmd v) txt (v_prefix v) in
              do h <- handleMsgType v mt s3 line txt;
              let '(st, mt', ev, s4) := h in
              match st with
              | PKT_PENDING_BUFFER =>
                  if negb (rx_dlen s4 =? 0)%nat then
                    do d <- handleData sod2 s4 line n;
                    let '(line', lft, s5) := d in
                    if (lft =? 0)%nat then Ok (ev, Stop s5, sod2) else Ok (ev, Next s5 line' lft, sod2)
                  else do x <- getNextLine s4 line n i st mt'; Ok (ev, x, sod2)
              | PKT_OK | PKT_PENDING_DATA => do x <- getNextLine s4 line n i st mt'; Ok (ev, x, sod2)
              | _ => Ok (ev, Stop s4, sod2)
              end
          end
      end
  end.

(** The environment: what each pass sees may depend on time (the number [t] of passes done so far) and on
    everything dispatched so far ([h], oldest first). *)
Definition environment := nat -> list event -> view.

(** cellular_pktio.c:1090-1162 _handleAllReceived: the loop.  Results: passes done, history, state. *)
Fixpoint handleAllReceived (fuel : nat) (env : environment) (t : nat) (h : list event) (s : rx) (line n : nat)
         (sod : option nat) : res (nat * list event * rx) :=
  match fuel with
  | O => Diverge
  | S f =>
      do r <- pass (env t h) s line n sod;
      let '(ev, out, sod') := r in
      match out with
      | Stop s' => Ok (S t, h ++ ev, s')
      | Next s' line' n' => handleAllReceived f env (S t) (h ++ ev) s' line' n' sod'
      end
  end.

(** cellular_pktio.c:1166-1198 _handleRxDataEvent.  Results: the returned byte count, passes, history, state.
    [fuel] bounds the passes of one call. *)
Definition handleRxDataEvent (fuel : nat) (env : environment) (t : nat) (h : list event) (s : rx) (recv : nat -> str)
  : res (nat * nat * list event * rx) :=
  do r <- ReadLine s recv;
  let '(pl, bytes, s1) := r in
  if (0 <? bytes)%nat then
    match pl with
    | None => UB
    | Some line =>
        do d <- (if negb (rx_dlen s1 =? 0)%nat then handleData (Some line) s1 line bytes else Ok (line, bytes, s1));
        let '(line', lft, s2) := d in
        if (0 <? lft)%nat then
          do m <- st (rx_buf s2) (line' + lft) 0%N;
          do q <- handleAllReceived fuel env t h (set_buf s2 m) line' lft None;
          let '(t', h', s3) := q in Ok (bytes, t', h', s3)
        else Ok (bytes, t, h, s2)
    end
  else Ok (0%nat, t, h, s1).

(** The reader's life: a sequence of calls of _handleRxDataEvent (line 1233-1236), each receiving what the comm
    interface then delivers.  The list gives, per call, the result of recv as a function of the space offered. *)
Fixpoint reader (fuel : nat) (env : environment) (t : nat) (h : list event) (s : rx) (inp : list (nat -> str))
  : res (nat * list event * rx) :=
  match inp with
  | [] => Ok (t, h, s)
  | r :: rest =>
      do x <- handleRxDataEvent fuel env t h s r;
      let '(_, t', h', s') := x in reader fuel env t' h' s' rest
  end.
End Machine.

(** Model of the transmit path of /repo/source/cellular_pktio.c: storing the expected response prefix and sending
    a command or raw data through the comm interface. *)
From Coq Require Import List NArith ZArith Bool Arith.
From Verif Require Import Bytes AtCore Status Pktio.
Import ListNotations.

(** /repo/source/include/cellular_config_defaults.h CELLULAR_AT_CMD_MAX_SIZE (200) =
    PKTIO_WRITE_BUFFER_SIZE (cellular_common_internal.h:52) and CELLULAR_CONFIG_MAX_PREFIX_STRING_LENGTH (32). *)
Definition WRITE_BUFFER_SIZE : N := 200.
(** cellular_config_defaults.h:401 CELLULAR_CONFIG_MAX_PREFIX_STRING_LENGTH *)
Definition MAX_PREFIX_STRING_LENGTH : N := 32.

(** The members of CellularContext_t the transmit path writes (cellular_common_internal.h:139-150). *)
Record tx := {
  tx_sendbuf : list N;         (* pktioSendBuf[PKTIO_WRITE_BUFFER_SIZE + 1] *)
  tx_prefixbuf : list N;       (* pktRespPrefixBuf[CELLULAR_CONFIG_MAX_PREFIX_STRING_LENGTH] *)
  tx_use_prefix : bool;        (* pRespPrefix: true = pktRespPrefixBuf, false = NULL (the only values it takes) *)
  tx_type : at_type            (* PktioAtCmdType *)
}.

(** strncpy(dst, src, n) (ISO C 7.24.2.4): copies at most n characters of the string, pads with NUL up to n; writes
    exactly n bytes. *)
Definition strncpy_bytes (src : str) (n : nat) : list N := firstn n src ++ repeat 0%N (n - length src).
(** C library strncpy into a block. *)
Definition strncpy_m (dst : list N) (src : str) (n : nat) : res (list N) := wr dst 0 (strncpy_bytes src n).

(** cellular_pktio.c:1282-1339 _setPrefixByAtCommandType *)
Definition setPrefixByAtCommandType (s : tx) (t : at_type) (prefix : option str) : res (pkt_status * tx) :=
  let none := {| tx_sendbuf := tx_sendbuf s; tx_prefixbuf := tx_prefixbuf s; tx_use_prefix := false; tx_type := tx_type s |} in
  let store p := do b <- strncpy_m (tx_prefixbuf s) p (N.to_nat MAX_PREFIX_STRING_LENGTH);
                 Ok (PKT_OK, {| tx_sendbuf := tx_sendbuf s; tx_prefixbuf := b; tx_use_prefix := true; tx_type := tx_type s |}) in
  match t with
  | T_NO_RESULT | T_WO_PREFIX | T_WO_PREFIX_NO_RESULT_CODE => Ok (PKT_OK, none)
  | T_WITH_PREFIX | T_MULTI_WITH_PREFIX | T_WITH_PREFIX_NO_RESULT_CODE =>
      match prefix with Some p => store p | None => Ok (PKT_BAD_PARAM, s) end
  | T_MULTI_WO_PREFIX | T_MULTI_DATA_WO_PREFIX =>
      match prefix with Some p => store p | None => Ok (PKT_OK, none) end
  | T_NO_COMMAND => Ok (PKT_BAD_PARAM, s)
  end.

(** The comm interface's send: given the bytes, the value it leaves in *pSentLen.  (Its status is ignored by the
    code, lines 1470 and 1507.)  The bytes that reached the modem are the first that many. *)
Definition sender := list N -> nat.

(** cellular_pktio.c:1420-1483 _Cellular_PktioSendAtCmd.  [ctx] = None: pContext NULL; [comm] = None: no comm
    interface or handle; results: status, the list of byte blocks handed to send, state. *)
Definition PktioSendAtCmd (ctx : option tx) (comm : option sender) (cmd : option str) (t : at_type) (prefix : option str)
  : res (pkt_status * list (list N) * option tx) :=
  match ctx, comm with
  | None, _ => Ok (PKT_INVALID_HANDLE, [], ctx)
  | _, None => Ok (PKT_INVALID_HANDLE, [], ctx)
  | Some s, Some _ =>
      match cmd with
      | None => Ok (PKT_BAD_PARAM, [], ctx)
      | Some c =>
          let cmdLen := length c in
          if (WRITE_BUFFER_SIZE <? N.of_nat cmdLen)%N then Ok (PKT_BAD_PARAM, [], ctx)
          else
            do r <- setPrefixByAtCommandType s t prefix;
            let '(st, s1) := r in
            match st with
            | PKT_OK =>
                do b <- strncpy_m (tx_sendbuf s1) c cmdLen;
                do b' <- Bytes.st b cmdLen 13%N;
                do block <- rd b' 0 (cmdLen + 1);
                Ok (PKT_OK, [block], Some {| tx_sendbuf := b'; tx_prefixbuf := tx_prefixbuf s1; tx_use_prefix := tx_use_prefix s1; tx_type := t |})
            | _ => Ok (st, [], Some s1)
            end
      end
  end.

(** What the modem received of the blocks handed to [send]. *)
Definition on_the_wire (send : sender) (blocks : list (list N)) : list N :=
  concat (map (fun b => firstn (send b) b) blocks).

(** cellular_pktio.c:1487-1513 _Cellular_PktioSendData: returned length and blocks handed to send. *)
Definition PktioSendData (ctx : option tx) (comm : option sender) (data : option (list N)) : nat * list (list N) :=
  match ctx, comm, data with
  | Some _, Some send, Some d => (send d, [d])
  | _, _, _ => (0%nat, [])
  end.

(** /repo/source/cellular_pkthandler.c:287-309, the sending part of _Cellular_DataSendWithTimeoutDelayRaw: data, then
    the end pattern if there is one.  Results: status, *pSentDataLength, blocks handed to send. *)
Definition DataSend_transmit (ctx : option tx) (comm : option sender) (data : list N) (endp : option (list N))
  : pkt_status * nat * list (list N) :=
  let '(n, b1) := PktioSendData ctx comm (Some data) in
  if negb (n =? length data)%nat then (PKT_SEND_ERROR, n, b1)
  else match endp with
       | None => (PKT_OK, n, b1)
       | Some e =>
           let '(m, b2) := PktioSendData ctx comm (Some e) in
           if negb (m =? length e)%nat then (PKT_SEND_ERROR, n, b1 ++ b2) else (PKT_OK, n, b1 ++ b2)
       end.

(** The prefix the reader compares lines with (cellular_pktio.c:1133, 471): the C string at pRespPrefix; reading it
    beyond the array is [UB]. *)
Definition resp_prefix (s : tx) : res (option str) :=
  if tx_use_prefix s then match cstr_get (tx_prefixbuf s) 0 with Some p => Ok (Some p) | None => UB end
  else Ok None.

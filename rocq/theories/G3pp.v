(** Model of the 3GPP API layer: /repo/source/cellular_3gpp_api.c (all functions except the AT-data mutex wrappers;
    the registration answer parser it shares with the URC handler is in RegStatus.v).

    Level of detail.  A response callback is modelled on the content of the response lines it is given, with the
    content-level AT utilities of AtCore.v; every fixed-size output array is a byte list written through bounds-checked
    stores, so an overrun is [UB].  A request/response exchange (cellular_pkthandler.c, modelled step by step in
    Request.v and Pktio.v) is one atomic step here: the environment answers a request in one of three ways. *)
From Coq Require Import String List NArith ZArith Bool Decimal.
From Verif Require Import Bytes AtCore Status Pktio SendCmd Socket RegStatus.
Import ListNotations.
Local Open Scope Z_scope.

(** CellularAtReq_t (cellular_types.h), without the callback and its data. *)
Record req := { rq_cmd : str; rq_type : at_type; rq_prefix : option str }.

(** How a request can end as seen by _Cellular_AtcmdRequestWithCallback (cellular_pkthandler.c:585-626):
    without a final result code in time ([NoAnswer true]) or because it could not be sent ([NoAnswer false]; the
    various non-OK statuses are represented by PKT_FAILURE, which _Cellular_TranslatePktStatus treats alike);
    with an error result code; or with a success result code after the given response lines. *)
Inductive answer := NoAnswer (timeout : bool) | Refused | Answered (lines : list str).

(** The modem and the rest of the system: answer to the last request of a sequence of requests. *)
Definition modem := list req -> answer.

(** cellular_pkthandler.c:585-626 with :86-120 _convertAndQueueRespPacket: the callback runs only after a success
    result code.  [h]: requests sent before. *)
Definition request {A} (m : modem) (h : list req) (r : req) (cb : list str -> A -> res (pkt_status * A)) (a : A)
  : res (pkt_status * A * list req) :=
  let h' := h ++ [r] in
  match m h' with
  | NoAnswer t => Ok (if t then PKT_TIMED_OUT else PKT_FAILURE, a, h')
  | Refused => Ok (PKT_FAILURE, a, h')
  | Answered ls => do x <- cb ls a; let '(st, a') := x in Ok (st, a', h')
  end.
(** respCallback == NULL: cellular_pkthandler.c:101-110. *)
Definition no_callback {A} (ls : list str) (a : A) : res (pkt_status * A) := Ok (PKT_OK, a).

(** The requests an API call sends, its return value, and the caller's output object afterwards. *)
Record result (A : Type) := { sent : list req; ret : cell_error; out : A }.
Arguments sent {A} _. Arguments ret {A} _. Arguments out {A} _.
(** Return before any request was sent. *)
Definition rejected {A} (e : cell_error) (a : A) : res (result A) := Ok {| sent := []; ret := e; out := a |}.

(** "if( pktStatus != OK ) cellularStatus = _Cellular_TranslatePktStatus( pktStatus )" at the end of the API functions. *)
Definition finish {A B} (x : res (pkt_status * A * list req)) (f : A -> B) : res (result B) :=
  do y <- x; let '(st, a, h) := y in Ok {| sent := h; ret := TranslatePktStatus st; out := f a |}.

(** ** Formatting (C library) *)

(** "%d" of a non-negative int. *)
Fixpoint uint_bytes (u : Decimal.uint) : str :=
  match u with
  | Nil => []
  | D0 v => 48 :: uint_bytes v | D1 v => 49 :: uint_bytes v | D2 v => 50 :: uint_bytes v | D3 v => 51 :: uint_bytes v
  | D4 v => 52 :: uint_bytes v | D5 v => 53 :: uint_bytes v | D6 v => 54 :: uint_bytes v | D7 v => 55 :: uint_bytes v
  | D8 v => 56 :: uint_bytes v | D9 v => 57 :: uint_bytes v
  end%N.
(** "%d" / "%u" of a number. *)
Definition dec (n : N) : str := uint_bytes (N.to_uint n).

(** Content of the string in [buf] after snprintf(buf, size, ...) of [text]: truncated to size-1 characters, and ended
    by the first NUL character of the text, if any ("%c" of '\0'). *)
Fixpoint cut_nul (s : str) : str :=
  match s with [] => [] | c :: t => if (c =? 0)%N then [] else c :: cut_nul t end.
(** C library snprintf. *)
Definition snprintf (size : nat) (text : str) : str := cut_nul (firstn (size - 1) text).

(** /repo/source/include/cellular_config_defaults.h:73-243 (defaults) and cellular_3gpp_api.c:56 *)
Definition MCC_MAX_SIZE : nat := 3.
(** cellular_config_defaults.h, CELLULAR_MNC_MAX_SIZE *)
Definition MNC_MAX_SIZE : nat := 3.
(** cellular_config_defaults.h, CELLULAR_ICCID_MAX_SIZE *)
Definition ICCID_MAX_SIZE : nat := 20.
(** cellular_config_defaults.h, CELLULAR_IMSI_MAX_SIZE *)
Definition IMSI_MAX_SIZE : nat := 15.
(** cellular_config_defaults.h, CELLULAR_FW_VERSION_MAX_SIZE *)
Definition FW_VERSION_MAX_SIZE : nat := 32.
(** cellular_config_defaults.h, CELLULAR_IMEI_MAX_SIZE *)
Definition IMEI_MAX_SIZE : nat := 15.
(** cellular_config_defaults.h, CELLULAR_NETWORK_NAME_MAX_SIZE *)
Definition NETWORK_NAME_MAX_SIZE : nat := 32.
(** cellular_config_defaults.h, CELLULAR_AT_CMD_MAX_SIZE *)
Definition AT_CMD_MAX_SIZE : nat := 200.
(** cellular_config_defaults.h, CELLULAR_AT_CMD_TYPICAL_MAX_SIZE *)
Definition AT_CMD_TYPICAL_MAX_SIZE : nat := 32.
(** cellular_config_defaults.h, CELLULAR_MANUFACTURE_ID_MAX_SIZE *)
Definition MANUFACTURE_ID_MAX_SIZE : nat := 20.
(** cellular_config_defaults.h, CELLULAR_MODEL_ID_MAX_SIZE *)
Definition MODEL_ID_MAX_SIZE : nat := 10.
(** cellular_config_defaults.h, CELLULAR_EDRX_LIST_MAX_SIZE *)
Definition EDRX_LIST_MAX_SIZE : nat := 4.

(** Common first lines of the response callbacks, e.g. cellular_3gpp_api.c:524-533: a response without a line gives [bad]; otherwise only the first line is used. *)
Definition cb_first {A} (bad : pkt_status) (lines : list str) (a : A) (k : str -> res (pkt_status * A)) : res (pkt_status * A) :=
  match lines with [] => Ok (bad, a) | l :: _ => k l end.

Section G3pp.
Variable bits : Z.   (* width of long *)

(** ** Network time *)

(** cellular_types.h CellularTime_t *)
Record ctime := { t_tz : Z; t_year : Z; t_month : Z; t_day : Z; t_hour : Z; t_minute : Z; t_second : Z }.
(** cellular_3gpp_api.c:459 memset of a CellularTime_t to 0. *)
Definition ctime0 := {| t_tz := 0; t_year := 0; t_month := 0; t_day := 0; t_hour := 0; t_minute := 0; t_second := 0 |}.
(** Store to timeZone. *)
Definition set_tz t v := {| t_tz := v; t_year := t_year t; t_month := t_month t; t_day := t_day t; t_hour := t_hour t; t_minute := t_minute t; t_second := t_second t |}.
(** Store to year. *)
Definition set_year t v := {| t_tz := t_tz t; t_year := v; t_month := t_month t; t_day := t_day t; t_hour := t_hour t; t_minute := t_minute t; t_second := t_second t |}.
(** Store to month. *)
Definition set_month t v := {| t_tz := t_tz t; t_year := t_year t; t_month := v; t_day := t_day t; t_hour := t_hour t; t_minute := t_minute t; t_second := t_second t |}.
(** Store to day. *)
Definition set_day t v := {| t_tz := t_tz t; t_year := t_year t; t_month := t_month t; t_day := v; t_hour := t_hour t; t_minute := t_minute t; t_second := t_second t |}.
(** Store to hour. *)
Definition set_hour t v := {| t_tz := t_tz t; t_year := t_year t; t_month := t_month t; t_day := t_day t; t_hour := v; t_minute := t_minute t; t_second := t_second t |}.
(** Store to minute. *)
Definition set_minute t v := {| t_tz := t_tz t; t_year := t_year t; t_month := t_month t; t_day := t_day t; t_hour := t_hour t; t_minute := v; t_second := t_second t |}.
(** Store to second. *)
Definition set_second t v := {| t_tz := t_tz t; t_year := t_year t; t_month := t_month t; t_day := t_day t; t_hour := t_hour t; t_minute := t_minute t; t_second := v |}.

(** ( tempValue >= 0 ) && ( tempValue <= ( int32_t ) UINT16_MAX ), cellular_3gpp_api.c:297-298 *)
Definition uint16_ok (v : Z) : bool := (0 <=? v) && (v <=? 65535).
(** No range test. *)
Definition any_int (v : Z) : bool := true.

(** cellular_3gpp_api.c:241-281 _parseTimeZoneInCCLKResponse: status, sign flag, time. *)
Definition parseTimeZoneInCCLKResponse (s : str) (t : ctime) : pkt_status * bool * ctime :=
  let conv (tok : str) (neg : bool) :=
    match get_int bits tok 10 any_int with
    | (AT_SUCCESS, v) => (PKT_OK, neg, set_tz t v)
    | (e, _) => (TranslateAtCoreStatus e, neg, t)
    end in
  match strstr s [chPLUS] with
  | Some tok => conv tok false
  | None => match strstr s [chMINUS] with
            | Some tok => conv tok true
            | None => (TranslateAtCoreStatus AT_ERROR, false, t)
            end
  end.

(** The repeated block "Cellular_ATGetSpecificNextTok(ppTimeZoneResp, d, ppToken); Cellular_ATStrtoi; range test"
    (311-331, 336-355, 390-409, 415-441): status, rest of the string, value. *)
Definition tok_int (rest : option str) (d : N) (ok : Z -> bool) : at_status * option str * Z :=
  match ATGetSpecificNextTok rest d with
  | (AT_SUCCESS, rest', Some tok) => let '(e, v) := get_int bits tok 10 ok in (e, rest', v)
  | (e, rest', _) => (e, rest', 0)
  end.

(** cellular_3gpp_api.c:285-359 _parseYearMonthDayInCCLKResponse ([tok]: the year token). *)
Definition parseYearMonthDay (tok : str) (rest : option str) (t : ctime) : pkt_status * option str * ctime :=
  match get_int bits tok 10 uint16_ok with
  | (AT_SUCCESS, y) =>
      let t1 := set_year t y in
      match tok_int rest 47 uint8_ok with
      | (AT_SUCCESS, rest1, mo) =>
          let t2 := set_month t1 mo in
          match tok_int rest1 chCOMMA uint8_ok with
          | (AT_SUCCESS, rest2, d) => (PKT_OK, rest2, set_day t2 d)
          | (e, rest2, _) => (TranslateAtCoreStatus e, rest2, t2)
          end
      | (e, rest1, _) => (TranslateAtCoreStatus e, rest1, t1)
      end
  | (e, _) => (TranslateAtCoreStatus e, rest, t)
  end.

(** cellular_3gpp_api.c:363-445 _parseTimeInCCLKResponse ([tok]: the hour token). *)
Definition parseTimeInCCLKResponse (tok : str) (neg : bool) (rest : option str) (t : ctime) : pkt_status * ctime :=
  match get_int bits tok 10 uint8_ok with
  | (AT_SUCCESS, h) =>
      let t1 := set_hour t h in
      match tok_int rest chCOLON uint8_ok with
      | (AT_SUCCESS, rest1, mi) =>
          let t2 := set_minute t1 mi in
          match tok_int rest1 (if neg then chMINUS else chPLUS) uint8_ok with
          | (AT_SUCCESS, _, s) => (PKT_OK, set_second t2 s)
          | (e, _, _) => (TranslateAtCoreStatus e, t2)
          end
      | (e, _, _) => (TranslateAtCoreStatus e, t1)
      end
  | (e, _) => (TranslateAtCoreStatus e, t)
  end.

(** cellular_3gpp_api.c:449-506 _parseTimeZoneInfo.  A failure of Cellular_ATGetSpecificNextTok at 471 or 483 changes only atCoreStatus:
    the functions after it are skipped and pktStatus, which is OK, is returned. *)
Definition parseTimeZoneInfo (s0 : option str) : pkt_status * ctime :=
  match ATRemoveOutermostDoubleQuote s0 with
  | (AT_SUCCESS, Some s) =>
      match parseTimeZoneInCCLKResponse s ctime0 with
      | (PKT_OK, neg, t1) =>
          match ATGetSpecificNextTok (Some s) 47 with
          | (AT_SUCCESS, rest, Some tok) =>
              match parseYearMonthDay tok rest t1 with
              | (PKT_OK, rest1, t2) =>
                  match ATGetSpecificNextTok rest1 chCOLON with
                  | (AT_SUCCESS, rest2, Some tok2) => parseTimeInCCLKResponse tok2 neg rest2 t2
                  | _ => (PKT_OK, t2)
                  end
              | (e, _, t2) => (e, t2)
              end
          | _ => (PKT_OK, t1)
          end
      | (e, _, t1) => (e, t1)
      end
  | _ => (PKT_FAILURE, ctime0)
  end.

(** cellular_3gpp_api.c:510-555 _Cellular_RecvFuncGetNetworkTime *)
Definition RecvFuncGetNetworkTime (lines : list str) (t : ctime) : res (pkt_status * ctime) :=
  cb_first PKT_BAD_PARAM lines t (fun l =>
    match ATRemovePrefix (Some l) with
    | (AT_SUCCESS, s1) =>
        match ATRemoveAllWhiteSpaces s1 with
        | (AT_SUCCESS, s2) => Ok (parseTimeZoneInfo s2)
        | (e, _) => Ok (TranslateAtCoreStatus e, t)
        end
    | (e, _) => Ok (TranslateAtCoreStatus e, t)
    end).

(** cellular_3gpp_api.c:1890-1928 Cellular_CommonGetNetworkTime *)
Definition GetNetworkTime (lib : option lib_flags) (m : modem) (p : option ctime) : res (result (option ctime)) :=
  match CheckLibraryStatus lib with
  | C_SUCCESS =>
      match p with
      | None => rejected C_BAD_PARAMETER p
      | Some t => finish (request m [] {| rq_cmd := s2b "AT+CCLK?"; rq_type := T_WITH_PREFIX; rq_prefix := Some (s2b "+CCLK") |}
                            RecvFuncGetNetworkTime t) Some
      end
  | e => rejected e p
  end.

(** ** Modem identity *)

(** cellular_3gpp_api.c:559-602, 653-696, 700-743 _Cellular_RecvFuncGetFirmwareVersion / ModelId / ManufactureId ([n]: maximum size; the
    destination has n+1 bytes). *)
Definition RecvFuncText (n : nat) (lines : list str) (buf : list N) : res (pkt_status * list N) :=
  cb_first PKT_BAD_PARAM lines buf (fun l =>
    match ATRemoveLeadingWhiteSpaces (Some l) with
    | (AT_SUCCESS, s1) =>
        match ATRemoveTrailingWhiteSpaces s1 with
        | (AT_SUCCESS, Some s2) => do b <- strncpy_m buf s2 n; Ok (PKT_OK, b)
        | (e, _) => Ok (TranslateAtCoreStatus e, buf)
        end
    | (e, _) => Ok (TranslateAtCoreStatus e, buf)
    end).

(** cellular_3gpp_api.c:606-649 _Cellular_RecvFuncGetImei *)
Definition RecvFuncGetImei (lines : list str) (buf : list N) : res (pkt_status * list N) :=
  cb_first PKT_BAD_PARAM lines buf (fun l =>
    match ATRemoveLeadingWhiteSpaces (Some l) with
    | (AT_SUCCESS, s1) =>
        match ATRemoveAllWhiteSpaces s1 with
        | (AT_SUCCESS, Some s2) => do b <- strncpy_m buf s2 IMEI_MAX_SIZE; Ok (PKT_OK, b)
        | (e, _) => Ok (TranslateAtCoreStatus e, buf)
        end
    | (e, _) => Ok (TranslateAtCoreStatus e, buf)
    end).

(** cellular_types.h CellularModemInfo_t: the four members written here (hardware version and serial number stay 0). *)
Record modem_info := { mi_fw : list N; mi_imei : list N; mi_model : list N; mi_manuf : list N }.
(** cellular_3gpp_api.c:1985 memset of a CellularModemInfo_t to 0. *)
Definition modem_info0 := {| mi_fw := repeat 0%N (S FW_VERSION_MAX_SIZE); mi_imei := repeat 0%N (S IMEI_MAX_SIZE);
                             mi_model := repeat 0%N (S MODEL_ID_MAX_SIZE); mi_manuf := repeat 0%N (S MANUFACTURE_ID_MAX_SIZE) |}.

(** A request without prefix. *)
Definition plain (cmd : string) (t : at_type) : req := {| rq_cmd := s2b cmd; rq_type := t; rq_prefix := None |}.

(** cellular_3gpp_api.c:1932-2016 Cellular_CommonGetModemInfo (lines 1947-1968 compute member addresses of a possibly NULL pModemInfo;
    nothing is accessed through them before the NULL check, 1978). *)
Definition GetModemInfo (lib : option lib_flags) (m : modem) (p : option modem_info) : res (result (option modem_info)) :=
  match CheckLibraryStatus lib with
  | C_SUCCESS =>
      match p with
      | None => rejected C_BAD_PARAMETER p
      | Some _ =>
          let i0 := modem_info0 in
          do x1 <- request m [] (plain "AT+CGMR" T_WO_PREFIX) (RecvFuncText FW_VERSION_MAX_SIZE) (mi_fw i0);
          let '(s1, b1, h1) := x1 in
          let i1 := {| mi_fw := b1; mi_imei := mi_imei i0; mi_model := mi_model i0; mi_manuf := mi_manuf i0 |} in
          match s1 with
          | PKT_OK =>
              do x2 <- request m h1 (plain "AT+CGSN" T_WO_PREFIX) RecvFuncGetImei (mi_imei i1);
              let '(s2, b2, h2) := x2 in
              let i2 := {| mi_fw := mi_fw i1; mi_imei := b2; mi_model := mi_model i1; mi_manuf := mi_manuf i1 |} in
              match s2 with
              | PKT_OK =>
                  do x3 <- request m h2 (plain "AT+CGMM" T_WO_PREFIX) (RecvFuncText MODEL_ID_MAX_SIZE) (mi_model i2);
                  let '(s3, b3, h3) := x3 in
                  let i3 := {| mi_fw := mi_fw i2; mi_imei := mi_imei i2; mi_model := b3; mi_manuf := mi_manuf i2 |} in
                  match s3 with
                  | PKT_OK =>
                      do x4 <- request m h3 (plain "AT+CGMI" T_WO_PREFIX) (RecvFuncText MANUFACTURE_ID_MAX_SIZE) (mi_manuf i3);
                      let '(s4, b4, h4) := x4 in
                      Ok {| sent := h4; ret := TranslatePktStatus s4;
                            out := Some {| mi_fw := mi_fw i3; mi_imei := mi_imei i3; mi_model := mi_model i3; mi_manuf := b4 |} |}
                  | e => Ok {| sent := h3; ret := TranslatePktStatus e; out := Some i3 |}
                  end
              | e => Ok {| sent := h2; ret := TranslatePktStatus e; out := Some i2 |}
              end
          | e => Ok {| sent := h1; ret := TranslatePktStatus e; out := Some i1 |}
          end
      end
  | e => rejected e p
  end.

(** ** Operator information *)

(** cellular_3gpp_api.c:112-119 cellularOperatorInfo_t *)
Record op_info := { o_mcc : list N; o_mnc : list N; o_rat : Z; o_mode : Z; o_fmt : Z; o_name : list N }.
(** cellular_3gpp_api.c:1811, 1844 memset of a cellularOperatorInfo_t to 0. *)
Definition op_info0 := {| o_mcc := repeat 0%N (S MCC_MAX_SIZE); o_mnc := repeat 0%N (S MNC_MAX_SIZE); o_rat := 0; o_mode := 0;
                          o_fmt := 0; o_name := repeat 0%N (S NETWORK_NAME_MAX_SIZE) |}.
(** Store to plmnInfo. *)
Definition set_plmn o a b := {| o_mcc := a; o_mnc := b; o_rat := o_rat o; o_mode := o_mode o; o_fmt := o_fmt o; o_name := o_name o |}.
(** Store to rat. *)
Definition set_orat o v := {| o_mcc := o_mcc o; o_mnc := o_mnc o; o_rat := v; o_mode := o_mode o; o_fmt := o_fmt o; o_name := o_name o |}.
(** Store to networkRegMode. *)
Definition set_omode o v := {| o_mcc := o_mcc o; o_mnc := o_mnc o; o_rat := o_rat o; o_mode := v; o_fmt := o_fmt o; o_name := o_name o |}.
(** Store to operatorNameFormat. *)
Definition set_ofmt o v := {| o_mcc := o_mcc o; o_mnc := o_mnc o; o_rat := o_rat o; o_mode := o_mode o; o_fmt := v; o_name := o_name o |}.
(** Store to operatorName. *)
Definition set_oname o v := {| o_mcc := o_mcc o; o_mnc := o_mnc o; o_rat := o_rat o; o_mode := o_mode o; o_fmt := o_fmt o; o_name := v |}.

(** cellular_types.h:170-178, 201-208 *)
Definition REG_MODE_MAX : Z := 5.
(** cellular_types.h:204 OPERATOR_NAME_FORMAT_MAX *)
Definition NAME_FORMAT_MAX : Z := 10.

(** cellular_3gpp_api.c:882-916, 920-955, 1008-1042 _parseCopsRegModeToken / NetworkNameFormatToken / RatToken: a number out of range is
    rejected, a token without a number is accepted and the member left alone. *)
Definition parseCopsNumber (tok : str) (max : Z) (set : Z -> op_info) (o : op_info) : bool * op_info :=
  match ATStrtoi bits (Some tok) 10 (Some 0) with
  | (AT_SUCCESS, Some v) => if (0 <=? v) && (v <? max) then (true, set v) else (false, o)
  | _ => (true, o)
  end.

(** cellular_3gpp_api.c:959-1004 _parseCopsNetworkNameToken *)
Definition parseCopsNetworkNameToken (tok : str) (o : op_info) : res (bool * op_info) :=
  if (o_fmt o =? 0) || (o_fmt o =? 1) then
    do b <- strncpy_m (o_name o) tok NETWORK_NAME_MAX_SIZE; Ok (true, set_oname o b)
  else if o_fmt o =? 2 then
    let n := length tok in
    if (Nat.eqb n (MCC_MAX_SIZE + MNC_MAX_SIZE)) || (Nat.eqb n (MCC_MAX_SIZE + MNC_MAX_SIZE - 1)) then
      do a <- strncpy_m (o_mcc o) tok MCC_MAX_SIZE;
      do a' <- st a MCC_MAX_SIZE 0%N;
      do b <- strncpy_m (o_mnc o) (skipn MCC_MAX_SIZE tok) (n - MCC_MAX_SIZE + 1);
      do b' <- st b MNC_MAX_SIZE 0%N;
      Ok (true, set_plmn o a' b')
    else Ok (false, o)
  else Ok (false, o).

(** cellular_3gpp_api.c:1046-1113 _parseCops *)
Definition parseCops (s0 : option str) (o0 : op_info) : res (at_status * op_info) :=
  match ATGetNextTok s0 with
  | (AT_SUCCESS, s1, Some t1) =>
      let '(ok1, o1) := parseCopsNumber t1 REG_MODE_MAX (set_omode o0) o0 in
      if ok1 then
        match ATGetNextTok s1 with
        | (AT_SUCCESS, s2, Some t2) =>
            let '(ok2, o2) := parseCopsNumber t2 NAME_FORMAT_MAX (set_ofmt o1) o1 in
            if ok2 then
              match ATGetNextTok s2 with
              | (AT_SUCCESS, s3, Some t3) =>
                  do x <- parseCopsNetworkNameToken t3 o2;
                  let '(ok3, o3) := x in
                  if ok3 then
                    match ATGetNextTok s3 with
                    | (AT_SUCCESS, _, Some t4) =>
                        let '(ok4, o4) := parseCopsNumber t4 RATN_MAX (set_orat o3) o3 in
                        Ok (if ok4 then AT_SUCCESS else AT_ERROR, o4)
                    | (e, _, _) => Ok (e, o3)
                    end
                  else Ok (AT_ERROR, o3)
              | (e, _, _) => Ok (e, o2)
              end
            else Ok (AT_ERROR, o2)
        | (e, _, _) => Ok (e, o1)
        end
      else Ok (AT_ERROR, o1)
  | (e, _, _) => Ok (e, o0)
  end.

(** cellular_3gpp_api.c:1117-1175 _Cellular_RecvFuncUpdateMccMnc: only AT_ERROR is turned into a failure (1167). *)
Definition RecvFuncUpdateMccMnc (lines : list str) (o : op_info) : res (pkt_status * op_info) :=
  cb_first PKT_FAILURE lines o (fun l =>
    do x <- match ATRemovePrefix (Some l) with
            | (AT_SUCCESS, s1) =>
                match ATRemoveAllDoubleQuote s1 with
                | (AT_SUCCESS, s2) =>
                    match ATRemoveAllWhiteSpaces s2 with
                    | (AT_SUCCESS, s3) => parseCops s3 o
                    | (e, _) => Ok (e, o)
                    end
                | (e, _) => Ok (e, o)
                end
            | (e, _) => Ok (e, o)
            end;
    let '(e, o') := x in
    Ok (match e with AT_ERROR => TranslateAtCoreStatus e | _ => PKT_OK end, o')).

(** cellular_3gpp_api.c:1414-1441 atcmdUpdateMccMnc *)
Definition UpdateMccMnc (m : modem) (h : list req) (o : op_info) : res (pkt_status * op_info * list req) :=
  do x <- request m h (plain "AT+COPS=3,2" T_NO_RESULT) no_callback o;
  let '(s1, o1, h1) := x in
  match s1 with
  | PKT_OK => request m h1 {| rq_cmd := s2b "AT+COPS?"; rq_type := T_WITH_PREFIX; rq_prefix := Some (s2b "+COPS") |}
                RecvFuncUpdateMccMnc o1
  | e => Ok (e, o1, h1)
  end.

(** cellular_types.h CellularPlmnInfo_t *)
Record plmn := { p_mcc : list N; p_mnc : list N }.

(** cellular_3gpp_api.c:1785-1833 Cellular_CommonGetRegisteredNetwork ([mem]: Platform_Malloc succeeded). *)
Definition GetRegisteredNetwork (lib : option lib_flags) (m : modem) (mem : bool) (p : option plmn) : res (result (option plmn)) :=
  match CheckLibraryStatus lib with
  | C_SUCCESS =>
      match p with
      | None => rejected C_BAD_PARAMETER p
      | Some pl =>
          if mem then
            do x <- UpdateMccMnc m [] op_info0;
            let '(s, o, h) := x in
            match TranslatePktStatus s with
            | C_SUCCESS =>
                if o_rat o =? RATN_INVALID then Ok {| sent := h; ret := C_UNKNOWN; out := p |}
                else
                  do a <- rd (o_mcc o) 0 MCC_MAX_SIZE;
                  do a1 <- wr (p_mcc pl) 0 a;
                  do a2 <- st a1 MCC_MAX_SIZE 0%N;
                  do b <- rd (o_mnc o) 0 MNC_MAX_SIZE;
                  do b1 <- wr (p_mnc pl) 0 b;
                  do b2 <- st b1 MNC_MAX_SIZE 0%N;
                  Ok {| sent := h; ret := C_SUCCESS; out := Some {| p_mcc := a2; p_mnc := b2 |} |}
            | e => Ok {| sent := h; ret := e; out := p |}
            end
          else rejected C_NO_MEMORY p
      end
  | e => rejected e p
  end.

(** ** Service status *)

(** cellular_types.h CellularServiceStatus_t *)
Record service := { sv_rat : Z; sv_mode : Z; sv_cs : Z; sv_ps : Z; sv_mcc : list N; sv_mnc : list N; sv_name : list N;
                    sv_fmt : Z; sv_csRejType : Z; sv_csRejCause : Z; sv_psRejType : Z; sv_psRejCause : Z }.

(** cellular_3gpp_api.c:856-878 queryNetworkStatus, acting on the library's registration data (the events the parser generates are in
    RegStatus.v and not repeated here). *)
Definition queryNetworkStatus (m : modem) (h : list req) (cmd prefix : string) (rt : reg_type) (d : at_data)
  : res (cell_error * at_data * list req) :=
  do x <- request m h {| rq_cmd := s2b cmd; rq_type := T_MULTI_WITH_PREFIX; rq_prefix := Some (s2b prefix) |}
            (fun ls d => cb_first PKT_BAD_PARAM ls d (fun _ =>
               do y <- RecvFuncGetNetworkReg bits false ls rt d; let '(s, d', _) := y in Ok (s, d'))) d;
  let '(s, d', h') := x in Ok (TranslatePktStatus s, d', h').

(** cellular_3gpp_api.c:1445-1498 atcmdQueryRegStatus (neither CELLULAR_MODEM_NO_GSM_NETWORK nor CELLULAR_MODEM_NO_EPS_NETWORK defined).
    [env]: what registration URCs handled meanwhile by the reader thread do to the registration data; applied after
    each request, with the requests sent so far. *)
Definition QueryRegStatus (m : modem) (env : list req -> at_data -> at_data) (d0 : at_data) (s : service)
  : res (cell_error * service * at_data * list req) :=
  do x1 <- queryNetworkStatus m [] "AT+CREG?" "+CREG" REG_CREG d0;
  let '(e1, d1, h1) := x1 in
  let d1 := env h1 d1 in
  do x2 <- match e1 with
           | C_SUCCESS => do y <- queryNetworkStatus m h1 "AT+CGREG?" "+CGREG" REG_CGREG d1;
                          let '(_, d, h) := y in Ok (env h d, h)
           | _ => Ok (d1, h1)
           end;
  let '(d2, h2) := x2 in
  do x3 <- match e1 with
           | C_SUCCESS =>
               if negb (d_ps d2 =? 1) && negb (d_ps d2 =? 5)
               then do y <- queryNetworkStatus m h2 "AT+CEREG?" "+CEREG" REG_CEREG d2;
                    let '(e, d, h) := y in Ok (e, env h d, h)
               else Ok (C_SUCCESS, d2, h2)
           | e => Ok (e, d2, h2)
           end;
  let '(e3, d3, h3) := x3 in
  Ok (e3,
      match e3 with
      | C_SUCCESS => {| sv_rat := d_rat d3; sv_mode := sv_mode s; sv_cs := d_cs d3; sv_ps := d_ps d3; sv_mcc := sv_mcc s; sv_mnc := sv_mnc s;
                        sv_name := sv_name s; sv_fmt := sv_fmt s; sv_csRejType := d_csRejType d3; sv_csRejCause := d_csRejCause d3;
                        sv_psRejType := d_psRejType d3; sv_psRejCause := d_psRejCause d3 |}
      | _ => s
      end, d3, h3).

(** The C string stored in an array. *)
Definition array_str (b : list N) : res str := match cstr_list b with Some s => Ok s | None => UB end.

(** cellular_3gpp_api.c:1837-1886 Cellular_CommonGetServiceStatus: the results of both request groups are ignored (1861, 1862). *)
Definition GetServiceStatus (lib : option lib_flags) (m : modem) (env : list req -> at_data -> at_data) (d0 : at_data)
  (p : option service) : res (result (option service) * at_data) :=
  match CheckLibraryStatus lib with
  | C_SUCCESS =>
      match p with
      | None => Ok ({| sent := []; ret := C_BAD_PARAMETER; out := p |}, d0)
      | Some s0 =>
          do x <- QueryRegStatus m env d0 s0;
          let '(_, s1, d1, h1) := x in
          do y <- UpdateMccMnc m h1 op_info0;
          let '(_, o, h2) := y in
          do nm <- array_str (o_name o);
          do b <- strncpy_m (sv_name s1) nm NETWORK_NAME_MAX_SIZE;
          Ok ({| sent := h2; ret := C_SUCCESS;
                 out := Some {| sv_rat := sv_rat s1; sv_mode := o_mode o; sv_cs := sv_cs s1; sv_ps := sv_ps s1; sv_mcc := o_mcc o;
                                sv_mnc := o_mnc o; sv_name := b; sv_fmt := o_fmt o; sv_csRejType := sv_csRejType s1;
                                sv_csRejCause := sv_csRejCause s1; sv_psRejType := sv_psRejType s1; sv_psRejCause := sv_psRejCause s1 |} |}, d1)
      end
  | e => Ok ({| sent := []; ret := e; out := p |}, d0)
  end.

(** ** IP address *)

(** cellular_3gpp_api.c:1179-1232 _Cellular_RecvFuncIpAddress ([dataLen]: uint16_t) *)
Definition RecvFuncIpAddress (dataLen : N) (lines : list str) (buf : list N) : res (pkt_status * list N) :=
  cb_first PKT_FAILURE lines buf (fun l =>
    if (dataLen =? 0)%N then Ok (PKT_BAD_PARAM, buf)
    else
      match ATRemovePrefix (Some l) with
      | (AT_SUCCESS, s1) =>
          match ATGetNextTok s1 with
          | (AT_SUCCESS, Some rest, _) =>
              do b <- match rest with
                      | _ :: _ => strncpy_m buf rest (N.to_nat dataLen)
                      | [] => wr buf 0 (repeat 0%N (N.to_nat dataLen))
                      end;
              Ok (PKT_OK, b)
          | (e, _, _) => Ok (TranslateAtCoreStatus e, buf)
          end
      | (e, _) => Ok (TranslateAtCoreStatus e, buf)
      end).

(** cellular_3gpp_api.c:2020-2075 Cellular_CommonGetIPAddress ([buf = None]: pBuffer NULL; [bufferLength]: uint32_t). *)
Definition GetIPAddress (lib : option lib_flags) (m : modem) (contextId : N) (buf : option (list N)) (bufferLength : N)
  : res (result (option (list N))) :=
  match CheckLibraryStatus lib with
  | C_SUCCESS =>
      match buf with
      | None => rejected C_BAD_PARAMETER buf
      | Some b =>
          if (bufferLength =? 0)%N then rejected C_BAD_PARAMETER buf
          else match IsValidPdn contextId with
               | C_SUCCESS =>
                   finish (request m [] {| rq_cmd := snprintf AT_CMD_TYPICAL_MAX_SIZE (s2b "AT+CGPADDR=" ++ dec contextId);
                                           rq_type := T_WITH_PREFIX; rq_prefix := Some (s2b "+CGPADDR") |}
                             (RecvFuncIpAddress (bufferLength mod 65536)) b) Some
               | e => rejected e buf
               end
      end
  | e => rejected e buf
  end.

(** ** eDRX *)

(** cellular_types.h CellularEidrxSettingsList_t: the members rat and requestedEdrxValue of each entry (the others stay
    0), and count. *)
Record edrx := { e_list : list (Z * Z); e_count : N }.
(** cellular_3gpp_api.c:1658 memset of a CellularEidrxSettingsList_t to 0. *)
Definition edrx0 := {| e_list := repeat (0, 0) EDRX_LIST_MAX_SIZE; e_count := 0 |}.
(** Store to a member of eidrxList[ i ]: outside the array it is UB. *)
Fixpoint set_entry (l : list (Z * Z)) (i : nat) (f : Z * Z -> Z * Z) : res (list (Z * Z)) :=
  match l, i with
  | [], _ => UB
  | x :: t, O => Ok (f x :: t)
  | x :: t, S j => do t' <- set_entry t j f; Ok (x :: t')
  end.

(** cellular_3gpp_api.c:1236-1291 parseEidrxToken *)
Definition parseEidrxToken (tok : str) (idx count : N) (l : list (Z * Z)) : res (at_status * list (Z * Z)) :=
  if (idx =? 0)%N then
    match get_int bits tok 10 uint8_ok with
    | (AT_SUCCESS, v) => do l' <- set_entry l (N.to_nat count) (fun e => (v, snd e)); Ok (AT_SUCCESS, l')
    | (e, _) => Ok (e, l)
    end
  else if (idx =? 1)%N then
    match get_int bits tok 2 uint8_ok with
    | (AT_SUCCESS, v) => do l' <- set_entry l (N.to_nat count) (fun e => (fst e, v)); Ok (AT_SUCCESS, l')
    | (e, _) => Ok (e, l)
    end
  else Ok (AT_ERROR, l).

(** cellular_3gpp_api.c:1320-1333: the while loop over the tokens (its control flow does not depend on the parse results, which are
    only logged). *)
Fixpoint eidrx_loop (toks : list str) (idx count : N) (l : list (Z * Z)) : res (list (Z * Z)) :=
  match toks with
  | [] => Ok l
  | t :: ts => do x <- parseEidrxToken t idx count l; eidrx_loop ts ((idx + 1) mod 256)%N count (snd x)
  end.
(* Enough: Cellular_ATGetNextTok rejects strings longer than CELLULAR_AT_MAX_STRING_SIZE (256), and every token uses up
   at least one character. *)
Definition TOK_FUEL : nat := 300.

(** cellular_3gpp_api.c:1295-1348 parseEidrxLine *)
Definition parseEidrxLine (line : str) (count : N) (l : list (Z * Z)) : res (at_status * list (Z * Z)) :=
  match ATRemovePrefix (Some line) with
  | (AT_SUCCESS, s1) =>
      match ATRemoveAllDoubleQuote s1 with
      | (AT_SUCCESS, s2) =>
          match ATGetNextTok s2 with
          | (AT_SUCCESS, rest, Some tok) =>
              do l' <- eidrx_loop (tok :: tokens TOK_FUEL rest) 0 count l; Ok (AT_SUCCESS, l')
          | (e, _, _) => Ok (e, l)
          end
      | (e, _) => Ok (e, l)
      end
  | (e, _) => Ok (e, l)
  end.

(** cellular_3gpp_api.c:1384-1406: the loop over the response lines ([count]: uint8_t). *)
Fixpoint eidrx_lines (lines : list str) (count : N) (e : edrx) : res (pkt_status * edrx) :=
  match lines with
  | [] => Ok (PKT_OK, e)
  | l :: ls =>
      if str_eqb (s2b "+CEDRXS: 0") l || str_eqb (s2b "+CEDRXS:") l
      then eidrx_lines ls count {| e_list := e_list e; e_count := count |}
      else
        do x <- parseEidrxLine l count (e_list e);
        let '(at_st, l') := x in
        match TranslateAtCoreStatus at_st with
        | PKT_OK => let c := ((count + 1) mod 256)%N in eidrx_lines ls c {| e_list := l'; e_count := c |}
        | p => Ok (p, {| e_list := l'; e_count := count |})
        end
  end.

(** cellular_3gpp_api.c:1352-1410 _Cellular_RecvFuncGetEidrxSettings *)
Definition RecvFuncGetEidrxSettings (lines : list str) (e : edrx) : res (pkt_status * edrx) :=
  cb_first PKT_BAD_PARAM lines e (fun _ => eidrx_lines lines 0 e).

(** cellular_3gpp_api.c:1630-1670 Cellular_CommonGetEidrxSettings *)
Definition GetEidrxSettings (lib : option lib_flags) (m : modem) (p : option edrx) : res (result (option edrx)) :=
  match CheckLibraryStatus lib with
  | C_SUCCESS =>
      match p with
      | None => rejected C_BAD_PARAMETER p
      | Some _ => finish (request m [] {| rq_cmd := s2b "AT+CEDRXS?"; rq_type := T_MULTI_WITH_PREFIX; rq_prefix := Some (s2b "+CEDRXS") |}
                            RecvFuncGetEidrxSettings edrx0) Some
      end
  | e => rejected e p
  end.

(** cellular_3gpp_api.c:65-75: "%c%c%c%c" with ( ( ( i ) & 0x08U ) != 0U ) ? '1' : '0' etc.: bit k of the value as a character. *)
Definition bit_char (v : N) (k : N) : N := if N.testbit v k then 49%N else 48%N.
(** cellular_3gpp_api.c:65-70 *)
Definition bin4 (v : N) : str := [bit_char v 3; bit_char v 2; bit_char v 1; bit_char v 0].
(** cellular_3gpp_api.c:72-75 *)
Definition bin8 (v : N) : str := bin4 (N.shiftr v 4) ++ bin4 v.

(** CellularEidrxSettings_t (mode, rat, requestedEdrxValue: uint8_t); 1674-1725 Cellular_CommonSetEidrxSettings *)
Record edrx_set := { es_mode : N; es_rat : N; es_value : N }.
(** cellular_3gpp_api.c:1674-1725 Cellular_CommonSetEidrxSettings *)
Definition SetEidrxSettings (lib : option lib_flags) (m : modem) (p : option edrx_set) : res (result unit) :=
  match CheckLibraryStatus lib with
  | C_SUCCESS =>
      match p with
      | None => rejected C_BAD_PARAMETER tt
      | Some e =>
          let cmd := snprintf AT_CMD_MAX_SIZE (s2b "AT+CEDRXS=" ++ dec (es_mode e) ++ [chCOMMA] ++ dec (es_rat e) ++ [chCOMMA; chDQ]
                                               ++ bin4 (es_value e) ++ [chDQ]) in
          finish (request m [] {| rq_cmd := cmd; rq_type := T_NO_RESULT; rq_prefix := None |} no_callback tt) (fun x => x)
      end
  | e => rejected e tt
  end.

(** ** Radio on / off *)

(** cellular_3gpp_api.c:1729-1753, 1757-1781 Cellular_CommonRfOn / Cellular_CommonRfOff *)
Definition RfCommand (cmd : string) (lib : option lib_flags) (m : modem) : res (result unit) :=
  match CheckLibraryStatus lib with
  | C_SUCCESS => finish (request m [] (plain cmd T_NO_RESULT) no_callback tt) (fun x => x)
  | e => rejected e tt
  end.
(** cellular_3gpp_api.c:1729-1753 *)
Definition RfOn := RfCommand "AT+CFUN=1".
(** cellular_3gpp_api.c:1757-1781 *)
Definition RfOff := RfCommand "AT+CFUN=4".

(** ** PDN configuration *)

(** CellularPdnConfig_t: pdnContextType (any int) and the string in apnName[CELLULAR_APN_MAX_SIZE + 1]; the other
    members are not used. *)
Record pdn_config := { pc_type : Z; pc_apn : str }.

(** cellular_3gpp_api.c:2145-2225 Cellular_CommonSetPdnConfig *)
Definition SetPdnConfig (lib : option lib_flags) (m : modem) (contextId : N) (p : option pdn_config) : res (result unit) :=
  match p with
  | None => rejected C_BAD_PARAMETER tt
  | Some c =>
      let ty := if pc_type c =? 1 then Some "IP"%string else if pc_type c =? 2 then Some "IPV6"%string
                else if pc_type c =? 3 then Some "IPV4V6"%string else None in
      match ty with
      | None => rejected C_BAD_PARAMETER tt
      | Some t =>
          match IsValidPdn contextId with
          | C_SUCCESS =>
              match CheckLibraryStatus lib with
              | C_SUCCESS =>
                  let cmd := snprintf AT_CMD_MAX_SIZE (s2b "AT+CGDCONT=" ++ dec contextId ++ [chCOMMA; chDQ] ++ s2b t ++ [chDQ; chCOMMA; chDQ]
                                                       ++ pc_apn c ++ [chDQ]) in
                  finish (request m [] {| rq_cmd := cmd; rq_type := T_NO_RESULT; rq_prefix := None |} no_callback tt) (fun x => x)
              | e => rejected e tt
              end
          | e => rejected e tt
          end
      end
  end.

(** ** SIM lock state *)

(** cellular_types.h:141-161 CellularSimCardLockState_t *)
Inductive sim_lock :=
| SIM_READY | SIM_PIN | SIM_PUK | SIM_PIN2 | SIM_PUK2 | SIM_PH_NET_PIN | SIM_PH_NET_PUK | SIM_PH_NETSUB_PIN | SIM_PH_NETSUB_PUK
| SIM_SP_PIN | SIM_SP_PUK | SIM_CORP_PIN | SIM_CORP_PUK | SIM_IMSI_PIN | SIM_IMSI_PUK | SIM_INVALID | SIM_LOCK_UNKNOWN.

(** cellular_3gpp_api.c:2229-2294 _getSimLockState *)
Definition getSimLockState (tok : str) : sim_lock :=
  if str_eqb tok (s2b "READY") then SIM_READY
  else if str_eqb tok (s2b "SIM PIN") then SIM_PIN
  else if str_eqb tok (s2b "SIM PUK") then SIM_PUK
  else if str_eqb tok (s2b "SIM PIN2") then SIM_PIN2
  else if str_eqb tok (s2b "SIM PUK2") then SIM_PUK2
  else if str_eqb tok (s2b "PH-NET PIN") then SIM_PH_NET_PIN
  else if str_eqb tok (s2b "PH-NET PUK") then SIM_PH_NET_PUK
  else if str_eqb tok (s2b "PH-NETSUB PIN") then SIM_PH_NETSUB_PIN
  else if str_eqb tok (s2b "PH-NETSUB PUK") then SIM_PH_NETSUB_PUK
  else if str_eqb tok (s2b "PH-SP PIN") then SIM_SP_PIN
  else if str_eqb tok (s2b "PH-SP PUK") then SIM_SP_PUK
  else if str_eqb tok (s2b "PH-CORP PIN") then SIM_CORP_PIN
  else if str_eqb tok (s2b "PH-CORP PUK") then SIM_CORP_PUK
  else SIM_LOCK_UNKNOWN.

(** cellular_3gpp_api.c:2298-2356 _Cellular_RecvFuncGetSimLockStatus *)
Definition RecvFuncGetSimLockStatus (lines : list str) (s : sim_lock) : res (pkt_status * sim_lock) :=
  cb_first PKT_BAD_PARAM lines s (fun l =>
    match ATRemoveAllWhiteSpaces (Some l) with
    | (AT_SUCCESS, s1) =>
        match ATRemovePrefix s1 with
        | (AT_SUCCESS, s2) =>
            match ATGetNextTok s2 with
            | (AT_SUCCESS, _, Some tok) => Ok (PKT_OK, getSimLockState tok)
            | (e, _, _) => Ok (TranslateAtCoreStatus e, s)
            end
        | (e, _) => Ok (TranslateAtCoreStatus e, s)
        end
    | (e, _) => Ok (TranslateAtCoreStatus e, s)
    end).

(** cellular_3gpp_api.c:2664-2704 Cellular_CommonGetSimCardLockStatus (output: the member simCardLockState) *)
Definition GetSimCardLockStatus (lib : option lib_flags) (m : modem) (p : option sim_lock) : res (result (option sim_lock)) :=
  match CheckLibraryStatus lib with
  | C_SUCCESS =>
      match p with
      | None => rejected C_BAD_PARAMETER p
      | Some _ => finish (request m [] {| rq_cmd := s2b "AT+CPIN?"; rq_type := T_WITH_PREFIX; rq_prefix := Some (s2b "+CPIN") |}
                            RecvFuncGetSimLockStatus SIM_LOCK_UNKNOWN) Some
      end
  | e => rejected e p
  end.

(** ** SIM card information *)

(** cellular_3gpp_api.c:2386-2410 _checkCrsmReadStatus, 2360-2382 _checkCrsmMemoryStatus *)
Definition checkCrsmReadStatus (tok : str) : bool :=
  str_eqb tok (s2b "144") || str_eqb tok (s2b "145") || str_eqb tok (s2b "146").
(** cellular_3gpp_api.c:2360-2382 _checkCrsmMemoryStatus *)
Definition checkCrsmMemoryStatus (tok : str) : bool := negb (str_eqb tok (s2b "64")).

(** cellular_3gpp_api.c:2414-2454 _parseHplmn *)
Definition CRSM_HPLMN_RAT_LENGTH : nat := 9.
(** cellular_3gpp_api.c:2414-2454 _parseHplmn *)
Definition parseHplmn (tok : str) (p : plmn) : res (bool * plmn) :=
  if (Nat.ltb (length tok) CRSM_HPLMN_RAT_LENGTH) || has_prefix (s2b "FFFFFF") tok then Ok (false, p)
  else
    do t0 <- ld tok 0; do t1 <- ld tok 1; do t2 <- ld tok 2; do t3 <- ld tok 3; do t4 <- ld tok 4; do t5 <- ld tok 5;
    do a <- st (p_mcc p) 0 t1; do a <- st a 1 t0; do a <- st a 2 t3;
    do b <- st (p_mnc p) 0 t5; do b <- st b 1 t4;
    do b <- (if negb (t2 =? 70)%N then do b <- st b 2 t2; st b 3 0%N else st b 2 0%N);
    Ok (true, {| p_mcc := a; p_mnc := b |}).

(** cellular_3gpp_api.c:2458-2550 _Cellular_RecvFuncGetHplmn *)
Definition RecvFuncGetHplmn (lines : list str) (p : plmn) : res (pkt_status * plmn) :=
  cb_first PKT_BAD_PARAM lines p (fun l =>
    match ATRemoveAllWhiteSpaces (Some l) with
    | (AT_SUCCESS, s1) =>
        match ATRemovePrefix s1 with
        | (AT_SUCCESS, s2) =>
            match ATRemoveAllDoubleQuote s2 with
            | (AT_SUCCESS, s3) =>
                match ATGetNextTok s3 with
                | (AT_SUCCESS, s4, Some sw1) =>
                    if checkCrsmReadStatus sw1 then
                      match ATGetNextTok s4 with
                      | (AT_SUCCESS, s5, Some sw2) =>
                          if checkCrsmMemoryStatus sw2 then
                            match ATGetNextTok s5 with
                            | (AT_SUCCESS, _, Some tok) =>
                                do x <- parseHplmn tok p;
                                let '(ok, p') := x in Ok (TranslateAtCoreStatus (if ok then AT_SUCCESS else AT_ERROR), p')
                            | (e, _, _) => Ok (TranslateAtCoreStatus e, p)
                            end
                          else Ok (TranslateAtCoreStatus AT_ERROR, p)
                      | (e, _, _) => Ok (TranslateAtCoreStatus e, p)
                      end
                    else Ok (TranslateAtCoreStatus AT_ERROR, p)
                | (e, _, _) => Ok (TranslateAtCoreStatus e, p)
                end
            | (e, _) => Ok (TranslateAtCoreStatus e, p)
            end
        | (e, _) => Ok (TranslateAtCoreStatus e, p)
        end
    | (e, _) => Ok (TranslateAtCoreStatus e, p)
    end).

(** cellular_3gpp_api.c:2555-2608 _Cellular_RecvFuncGetIccid *)
Definition RecvFuncGetIccid (lines : list str) (buf : list N) : res (pkt_status * list N) :=
  cb_first PKT_BAD_PARAM lines buf (fun l =>
    match ATRemoveAllWhiteSpaces (Some l) with
    | (AT_SUCCESS, s1) =>
        match ATRemovePrefix s1 with
        | (AT_SUCCESS, Some s2) =>
            if Nat.ltb (length s2) (S ICCID_MAX_SIZE)
            then do b <- strncpy_m buf s2 (S ICCID_MAX_SIZE); Ok (PKT_OK, b)
            else Ok (TranslateAtCoreStatus AT_BAD_PARAMETER, buf)
        | (e, _) => Ok (TranslateAtCoreStatus e, buf)
        end
    | (e, _) => Ok (TranslateAtCoreStatus e, buf)
    end).

(** cellular_3gpp_api.c:2613-2660 _Cellular_RecvFuncGetImsi *)
Definition RecvFuncGetImsi (lines : list str) (buf : list N) : res (pkt_status * list N) :=
  cb_first PKT_BAD_PARAM lines buf (fun l =>
    match ATRemoveAllWhiteSpaces (Some l) with
    | (AT_SUCCESS, Some s1) =>
        if Nat.ltb (length s1) (S IMSI_MAX_SIZE)
        then do b <- strncpy_m buf s1 (S IMSI_MAX_SIZE); Ok (PKT_OK, b)
        else Ok (TranslateAtCoreStatus AT_ERROR, buf)
    | (e, _) => Ok (TranslateAtCoreStatus e, buf)
    end).

(** cellular_types.h CellularSimCardInfo_t *)
Record sim_info := { s_iccid : list N; s_imsi : list N; s_plmn : plmn }.
(** cellular_3gpp_api.c:2757 memset of a CellularSimCardInfo_t to 0. *)
Definition sim_info0 := {| s_iccid := repeat 0%N (S ICCID_MAX_SIZE); s_imsi := repeat 0%N (S IMSI_MAX_SIZE);
                           s_plmn := {| p_mcc := repeat 0%N (S MCC_MAX_SIZE); p_mnc := repeat 0%N (S MNC_MAX_SIZE) |} |}.

(** cellular_3gpp_api.c:2708-2785 Cellular_CommonGetSimCardInfo (CELLULAR_CONFIG_USE_CCID_COMMAND 1, the default) *)
Definition GetSimCardInfo (lib : option lib_flags) (m : modem) (p : option sim_info) : res (result (option sim_info)) :=
  match CheckLibraryStatus lib with
  | C_SUCCESS =>
      match p with
      | None => rejected C_BAD_PARAMETER p
      | Some _ =>
          do x1 <- request m [] (plain "AT+CIMI" T_WO_PREFIX) RecvFuncGetImsi (s_imsi sim_info0);
          let '(s1, b1, h1) := x1 in
          let i1 := {| s_iccid := s_iccid sim_info0; s_imsi := b1; s_plmn := s_plmn sim_info0 |} in
          match s1 with
          | PKT_OK =>
              do x2 <- request m h1 {| rq_cmd := s2b "AT+CRSM=176,28514,0,0,0"; rq_type := T_WITH_PREFIX; rq_prefix := Some (s2b "+CRSM") |}
                         RecvFuncGetHplmn (s_plmn i1);
              let '(s2, b2, h2) := x2 in
              let i2 := {| s_iccid := s_iccid i1; s_imsi := s_imsi i1; s_plmn := b2 |} in
              match s2 with
              | PKT_OK =>
                  do x3 <- request m h2 {| rq_cmd := s2b "AT+CCID"; rq_type := T_WITH_PREFIX; rq_prefix := Some (s2b "+CCID") |}
                             RecvFuncGetIccid (s_iccid i2);
                  let '(s3, b3, h3) := x3 in
                  Ok {| sent := h3; ret := TranslatePktStatus s3;
                        out := Some {| s_iccid := b3; s_imsi := s_imsi i2; s_plmn := s_plmn i2 |} |}
              | e => Ok {| sent := h2; ret := TranslatePktStatus e; out := Some i2 |}
              end
          | e => Ok {| sent := h1; ret := TranslatePktStatus e; out := Some i1 |}
          end
      end
  | e => rejected e p
  end.

(** ** Power saving mode *)

(** CellularPsmSettings_t (mode: uint8_t; the timers: uint32_t) *)
Record psm := { ps_mode : N; ps_rau : N; ps_rdy : N; ps_tau : N; ps_act : N }.

(** cellular_3gpp_api.c:2789-2815 appendBinaryPattern: the string left in the [len] bytes at cmdBuf. *)
Definition appendBinaryPattern (len : nat) (value : N) (endOfString : bool) : str :=
  let e := if endOfString then 0%N else chCOMMA in
  if negb (value =? 0)%N then snprintf len ([chDQ] ++ bin8 value ++ [chDQ; e]) else snprintf len [e].

(** cellular_3gpp_api.c:2854-2863 of Cellular_CommonSetPsmSettings: the command text. *)
Definition psm_command (s : psm) : str :=
  let c0 := snprintf AT_CMD_MAX_SIZE (s2b "AT+CPSMS=" ++ dec (ps_mode s) ++ [chCOMMA]) in
  let c1 := c0 ++ appendBinaryPattern (AT_CMD_MAX_SIZE - length c0) (ps_rau s) false in
  let c2 := c1 ++ appendBinaryPattern (AT_CMD_MAX_SIZE - length c1) (ps_rdy s) false in
  let c3 := c2 ++ appendBinaryPattern (AT_CMD_MAX_SIZE - length c2) (ps_tau s) false in
  c3 ++ appendBinaryPattern (AT_CMD_MAX_SIZE - length c3) (ps_act s) true.

(** cellular_3gpp_api.c:2819-2878 Cellular_CommonSetPsmSettings *)
Definition SetPsmSettings (lib : option lib_flags) (m : modem) (p : option psm) : res (result unit) :=
  match CheckLibraryStatus lib with
  | C_SUCCESS =>
      match p with
      | None => rejected C_BAD_PARAMETER tt
      | Some s => finish (request m [] {| rq_cmd := psm_command s; rq_type := T_NO_RESULT; rq_prefix := None |} no_callback tt) (fun x => x)
      end
  | e => rejected e tt
  end.

(** cellular_3gpp_api.c:83-102 T3324_TIMER_UNIT / VALUE, T3412_TIMER_UNIT / VALUE *)
Definition timer_unit (x : N) : N := N.shiftr (N.land x 224) 5.
(** cellular_3gpp_api.c:84, 93 *)
Definition timer_value (x : N) : N := N.land x 31.
(** cellular_3gpp_api.c:85, 94 *)
Definition TIMER_DEACTIVATED : N := 4294967295.

(** cellular_3gpp_api.c:1502-1568 parseT3412TimerValue ([old]: previous value of the output) *)
Definition parseT3412TimerValue (tok : str) (old : N) : at_status * N :=
  match get_int bits tok 2 (fun v => negb (v <? 0)) with
  | (AT_SUCCESS, v) =>
      let x := Z.to_N v in
      let value := timer_value x in
      match timer_unit x with
      | 0%N => (AT_SUCCESS, value * (10 * 60))
      | 1%N => (AT_SUCCESS, value * (1 * 60 * 60))
      | 2%N => (AT_SUCCESS, value * (10 * 60 * 60))
      | 3%N => (AT_SUCCESS, value * 2)
      | 4%N => (AT_SUCCESS, value * 30)
      | 5%N => (AT_SUCCESS, value * 60)
      | 7%N => (AT_SUCCESS, TIMER_DEACTIVATED)
      | _ => (AT_ERROR, old)
      end%N
  | (e, _) => (e, old)
  end.

(** cellular_3gpp_api.c:1572-1626 parseT3324TimerValue *)
Definition parseT3324TimerValue (tok : str) (old : N) : at_status * N :=
  match get_int bits tok 2 (fun v => negb (v <? 0)) with
  | (AT_SUCCESS, v) =>
      let x := Z.to_N v in
      let value := timer_value x in
      match timer_unit x with
      | 0%N => (AT_SUCCESS, value * 2)
      | 1%N => (AT_SUCCESS, value * 60)
      | 2%N => (AT_SUCCESS, value * (6 * 60))
      | 7%N => (AT_SUCCESS, TIMER_DEACTIVATED)
      | _ => (AT_ERROR, old)
      end%N
  | (e, _) => (e, old)
  end.

(** cellular_3gpp_api.c:2882-2902 parseCpsmsMode *)
Definition parseCpsmsMode (tok : str) (old : N) : at_status * N :=
  match get_int bits tok 2 uint8_ok with
  | (AT_SUCCESS, v) => (AT_SUCCESS, Z.to_N v)
  | (e, _) => (e, old)
  end.

(** cellular_3gpp_api.c:2906-2941 parseGetPsmToken *)
Definition parseGetPsmToken (tok : str) (idx : N) (s : psm) : at_status * psm :=
  match idx with
  | 0%N => let '(e, v) := parseCpsmsMode tok (ps_mode s) in (e, {| ps_mode := v; ps_rau := ps_rau s; ps_rdy := ps_rdy s; ps_tau := ps_tau s; ps_act := ps_act s |})
  | 1%N => let '(e, v) := parseT3412TimerValue tok (ps_rau s) in (e, {| ps_mode := ps_mode s; ps_rau := v; ps_rdy := ps_rdy s; ps_tau := ps_tau s; ps_act := ps_act s |})
  | 2%N => let '(e, v) := parseT3324TimerValue tok (ps_rdy s) in (e, {| ps_mode := ps_mode s; ps_rau := ps_rau s; ps_rdy := v; ps_tau := ps_tau s; ps_act := ps_act s |})
  | 3%N => let '(e, v) := parseT3412TimerValue tok (ps_tau s) in (e, {| ps_mode := ps_mode s; ps_rau := ps_rau s; ps_rdy := ps_rdy s; ps_tau := v; ps_act := ps_act s |})
  | 4%N => let '(e, v) := parseT3324TimerValue tok (ps_act s) in (e, {| ps_mode := ps_mode s; ps_rau := ps_rau s; ps_rdy := ps_rdy s; ps_tau := ps_tau s; ps_act := v |})
  | _ => (AT_ERROR, s)
  end.

(** cellular_3gpp_api.c:2991-3006: the while loop; the status of the last token is the one that remains. *)
Fixpoint psm_loop (toks : list str) (idx : N) (e : at_status) (s : psm) : at_status * psm :=
  match toks with
  | [] => (e, s)
  | t :: ts => let '(e', s') := parseGetPsmToken t idx s in psm_loop ts ((idx + 1) mod 256)%N e' s'
  end.

(** cellular_3gpp_api.c:2945-3013 _Cellular_RecvFuncGetPsmSettings *)
Definition RecvFuncGetPsmSettings (lines : list str) (s : psm) : res (pkt_status * psm) :=
  cb_first PKT_BAD_PARAM lines s (fun l =>
    match ATRemovePrefix (Some l) with
    | (AT_SUCCESS, s1) =>
        match ATRemoveAllDoubleQuote s1 with
        | (AT_SUCCESS, s2) =>
            match ATGetNextTok s2 with
            | (AT_SUCCESS, rest, Some tok) =>
                let '(e, s') := psm_loop (tok :: tokens TOK_FUEL rest) 0 AT_SUCCESS s in Ok (TranslateAtCoreStatus e, s')
            | (e, _, _) => Ok (TranslateAtCoreStatus e, s)
            end
        | (e, _) => Ok (TranslateAtCoreStatus e, s)
        end
    | (e, _) => Ok (TranslateAtCoreStatus e, s)
    end).

(** cellular_3gpp_api.c:3017-3060 Cellular_CommonGetPsmSettings *)
Definition psm0 := {| ps_mode := 255; ps_rau := 0; ps_rdy := 0; ps_tau := 0; ps_act := 0 |}.
(** cellular_3gpp_api.c:3017-3060 Cellular_CommonGetPsmSettings *)
Definition GetPsmSettings (lib : option lib_flags) (m : modem) (p : option psm) : res (result (option psm)) :=
  match CheckLibraryStatus lib with
  | C_SUCCESS =>
      match p with
      | None => rejected C_BAD_PARAMETER p
      | Some _ => finish (request m [] {| rq_cmd := s2b "AT+CPSMS?"; rq_type := T_WITH_PREFIX; rq_prefix := Some (s2b "+CPSMS") |}
                            RecvFuncGetPsmSettings psm0) Some
      end
  | e => rejected e p
  end.
End G3pp.

(** Network registration parsing: /repo/source/cellular_3gpp_urc_handler.c (whole file) and
    _Cellular_InitAtData, regResponseIsUrc, _Cellular_RecvFuncGetNetworkReg of
    /repo/source/cellular_3gpp_api.c. *)
From Coq Require Import List NArith ZArith Bool.
From Verif Require Import Bytes AtCore Status.
Import ListNotations.
Local Open Scope Z_scope.

(** /repo/source/include/private/cellular_common_internal.h:91-104 cellularAtData_t.  Enumerations and
    unsigned fields as numbers. *)
Record at_data := {
  d_rat : Z; d_cs : Z; d_ps : Z; d_csRejType : Z; d_csRejCause : Z; d_psRejType : Z; d_psRejCause : Z;
  d_cellId : Z; d_lac : Z; d_rac : Z; d_tac : Z }.

(** cellular_3gpp_urc_handler.c (CellularNetworkRegType_t, cellular_common_internal.h) *)
Inductive reg_type := REG_CREG | REG_CGREG | REG_CEREG | REG_UNKNOWN.

(** /repo/source/include/cellular_types.h:180-192, 110-123 *)
Definition REG_STATUS_MAX : Z := 9.
(** cellular_types.h:185 *)
Definition REG_DENIED : Z := 3.
(** cellular_types.h:121 *)
Definition RATN_MAX : Z := 10.
(** cellular_types.h:122 *)
Definition RATN_INVALID : Z := 255.

(** Store to the member csRegStatus. *)
Definition set_cs d v := {| d_rat := d_rat d; d_cs := v; d_ps := d_ps d; d_csRejType := d_csRejType d; d_csRejCause := d_csRejCause d;
  d_psRejType := d_psRejType d; d_psRejCause := d_psRejCause d; d_cellId := d_cellId d; d_lac := d_lac d; d_rac := d_rac d; d_tac := d_tac d |}.
(** Store to the member psRegStatus. *)
Definition set_ps d v := {| d_rat := d_rat d; d_cs := d_cs d; d_ps := v; d_csRejType := d_csRejType d; d_csRejCause := d_csRejCause d;
  d_psRejType := d_psRejType d; d_psRejCause := d_psRejCause d; d_cellId := d_cellId d; d_lac := d_lac d; d_rac := d_rac d; d_tac := d_tac d |}.
(** Store to the member rat. *)
Definition set_rat d v := {| d_rat := v; d_cs := d_cs d; d_ps := d_ps d; d_csRejType := d_csRejType d; d_csRejCause := d_csRejCause d;
  d_psRejType := d_psRejType d; d_psRejCause := d_psRejCause d; d_cellId := d_cellId d; d_lac := d_lac d; d_rac := d_rac d; d_tac := d_tac d |}.
(** Store to the member csRejectType. *)
Definition set_csRejType d v := {| d_rat := d_rat d; d_cs := d_cs d; d_ps := d_ps d; d_csRejType := v; d_csRejCause := d_csRejCause d;
  d_psRejType := d_psRejType d; d_psRejCause := d_psRejCause d; d_cellId := d_cellId d; d_lac := d_lac d; d_rac := d_rac d; d_tac := d_tac d |}.
(** Store to the member csRejectCause. *)
Definition set_csRejCause d v := {| d_rat := d_rat d; d_cs := d_cs d; d_ps := d_ps d; d_csRejType := d_csRejType d; d_csRejCause := v;
  d_psRejType := d_psRejType d; d_psRejCause := d_psRejCause d; d_cellId := d_cellId d; d_lac := d_lac d; d_rac := d_rac d; d_tac := d_tac d |}.
(** Store to the member psRejectType. *)
Definition set_psRejType d v := {| d_rat := d_rat d; d_cs := d_cs d; d_ps := d_ps d; d_csRejType := d_csRejType d; d_csRejCause := d_csRejCause d;
  d_psRejType := v; d_psRejCause := d_psRejCause d; d_cellId := d_cellId d; d_lac := d_lac d; d_rac := d_rac d; d_tac := d_tac d |}.
(** Store to the member psRejectCause. *)
Definition set_psRejCause d v := {| d_rat := d_rat d; d_cs := d_cs d; d_ps := d_ps d; d_csRejType := d_csRejType d; d_csRejCause := d_csRejCause d;
  d_psRejType := d_psRejType d; d_psRejCause := v; d_cellId := d_cellId d; d_lac := d_lac d; d_rac := d_rac d; d_tac := d_tac d |}.
(** Store to the member cellId. *)
Definition set_cellId d v := {| d_rat := d_rat d; d_cs := d_cs d; d_ps := d_ps d; d_csRejType := d_csRejType d; d_csRejCause := d_csRejCause d;
  d_psRejType := d_psRejType d; d_psRejCause := d_psRejCause d; d_cellId := v; d_lac := d_lac d; d_rac := d_rac d; d_tac := d_tac d |}.
(** Store to the member lac. *)
Definition set_lac d v := {| d_rat := d_rat d; d_cs := d_cs d; d_ps := d_ps d; d_csRejType := d_csRejType d; d_csRejCause := d_csRejCause d;
  d_psRejType := d_psRejType d; d_psRejCause := d_psRejCause d; d_cellId := d_cellId d; d_lac := v; d_rac := d_rac d; d_tac := d_tac d |}.
(** Store to the member rac. *)
Definition set_rac d v := {| d_rat := d_rat d; d_cs := d_cs d; d_ps := d_ps d; d_csRejType := d_csRejType d; d_csRejCause := d_csRejCause d;
  d_psRejType := d_psRejType d; d_psRejCause := d_psRejCause d; d_cellId := d_cellId d; d_lac := d_lac d; d_rac := v; d_tac := d_tac d |}.
(** Store to the member tac. *)
Definition set_tac d v := {| d_rat := d_rat d; d_cs := d_cs d; d_ps := d_ps d; d_csRejType := d_csRejType d; d_csRejCause := d_csRejCause d;
  d_psRejType := d_psRejType d; d_psRejCause := d_psRejCause d; d_cellId := d_cellId d; d_lac := d_lac d; d_rac := d_rac d; d_tac := v |}.

(** cellular_3gpp_api.c:2119-2141 _Cellular_InitAtData, mode 1 (mode 0: [at_data0]). *)
Definition InitAtData1 (d : at_data) : at_data :=
  set_rac (set_rat (set_cellId (set_lac d 65535) 4294967295) RATN_INVALID) 255.
(** cellular_3gpp_api.c:2121-2141 _Cellular_InitAtData, mode 0. *)
Definition at_data0 : at_data :=
  InitAtData1 {| d_rat := 0; d_cs := 2; d_ps := 2; d_csRejType := 0; d_csRejCause := 0; d_psRejType := 0; d_psRejCause := 0;
                 d_cellId := 0; d_lac := 0; d_rac := 0; d_tac := 0 |}.

Section Parse.
Variable bits : Z.   (* width of long *)

(** The pattern shared by all field parsers: Cellular_ATStrtoi then a range test. *)
Definition get_int (tok : str) (base : N) (ok : Z -> bool) : at_status * Z :=
  match ATStrtoi bits (Some tok) base (Some 0) with
  | (AT_SUCCESS, Some v) => if ok v then (AT_SUCCESS, v) else (AT_ERROR, v)
  | (e, _) => (e, 0)
  end.

(** cellular_3gpp_urc_handler.c:119-182 _parseRegStatusInRegStatusParsing *)
Definition parseStat (rt : reg_type) (tok : str) (d : at_data) : pkt_status * at_data :=
  match get_int tok 10 (fun v => (0 <=? v) && (v <? REG_STATUS_MAX)) with
  | (AT_SUCCESS, v) =>
      let d1 := match rt with REG_CREG => set_cs d v | _ => set_ps d v end in
      let d2 := if v =? 1 then d1 else if v =? 5 then d1 else InitAtData1 d1 in
      (PKT_OK, d2)
  | (e, _) => (TranslateAtCoreStatus e, d)
  end.

(** cellular_3gpp_urc_handler.c:186-227 _parseLacTacInRegStatus *)
Definition parseLacTac (rt : reg_type) (tok : str) (d : at_data) : pkt_status * at_data :=
  match get_int tok 16 (fun v => (0 <=? v) && (v <=? 65535)) with
  | (AT_SUCCESS, v) => (PKT_OK, match rt with REG_CREG | REG_CGREG => set_lac d v | _ => set_tac d v end)
  | (e, _) => (TranslateAtCoreStatus e, d)
  end.

(** cellular_3gpp_urc_handler.c:231-255 _parseCellIdInRegStatus *)
Definition parseCellId (tok : str) (d : at_data) : pkt_status * at_data :=
  match get_int tok 16 (fun v => 0 <=? v) with
  | (AT_SUCCESS, v) => (PKT_OK, set_cellId d v)
  | (e, _) => (TranslateAtCoreStatus e, d)
  end.

(** cellular_3gpp_urc_handler.c:259-296 _parseRatInfoInRegStatus *)
Definition parseRat (tok : str) (d : at_data) : pkt_status * at_data :=
  match get_int tok 10 (fun v => negb ((RATN_MAX <=? v) || (v <? 0))) with
  | (AT_SUCCESS, v) =>
      (PKT_OK, set_rat d (if (v =? 0) || (v =? 3) || (v =? 8) || (v =? 9) then v
                          else if v =? 7 then 7 else RATN_INVALID))
  | (e, _) => (TranslateAtCoreStatus e, d)
  end.

(** ( var >= 0 ) && ( var <= ( int32_t ) UINT8_MAX ) *)
Definition uint8_ok (v : Z) : bool := (0 <=? v) && (v <=? 255).

(** cellular_3gpp_urc_handler.c:300-347 _parseRejectTypeInRegStatus *)
Definition parseRejType (rt : reg_type) (tok : str) (d : at_data) : pkt_status * at_data :=
  match get_int tok 10 uint8_ok with
  | (AT_SUCCESS, v) =>
      (PKT_OK, match rt with
               | REG_CGREG | REG_CEREG => if d_ps d =? REG_DENIED then set_psRejType d v else d
               | _ => if d_cs d =? REG_DENIED then set_csRejType d v else d
               end)
  | (e, _) => (TranslateAtCoreStatus e, d)
  end.

(** cellular_3gpp_urc_handler.c:351-398 _parseRejectCauseInRegStatus *)
Definition parseRejCause (rt : reg_type) (tok : str) (d : at_data) : pkt_status * at_data :=
  match get_int tok 10 uint8_ok with
  | (AT_SUCCESS, v) =>
      (PKT_OK, match rt with
               | REG_CGREG | REG_CEREG => if d_ps d =? REG_DENIED then set_psRejCause d v else d
               | _ => if d_cs d =? REG_DENIED then set_csRejCause d v else d
               end)
  | (e, _) => (TranslateAtCoreStatus e, d)
  end.

(** cellular_3gpp_urc_handler.c:402-431 _parseRoutingAreaCodeInRegStatus *)
Definition parseRac (tok : str) (d : at_data) : pkt_status * at_data :=
  match get_int tok 16 uint8_ok with
  | (AT_SUCCESS, v) => (PKT_OK, set_rac d v)
  | (e, _) => (TranslateAtCoreStatus e, d)
  end.

(** cellular_3gpp_urc_handler.c:52-60: field positions *)
Inductive reg_pos := POS_NONE | POS_NET_REG | POS_STAT | POS_LAC_TAC | POS_CELL_ID | POS_RAT | POS_REJ_TYPE | POS_REJ_CAUSE | POS_RAC.

(** cellular_3gpp_urc_handler.c:435-486 _regStatusSwitchParsingFunc *)
Definition switchParsing (p : reg_pos) (rt : reg_type) (tok : str) (d : at_data) : pkt_status * at_data :=
  match p with
  | POS_STAT => parseStat rt tok d
  | POS_LAC_TAC => parseLacTac rt tok d
  | POS_CELL_ID => parseCellId tok d
  | POS_RAT => parseRat tok d
  | POS_REJ_TYPE => parseRejType rt tok d
  | POS_REJ_CAUSE => parseRejCause rt tok d
  | POS_RAC => parseRac tok d
  | POS_NET_REG | POS_NONE => (PKT_OK, d)
  end.

(** The three parsingTable[] constants: 496-506, 533-544, 576-586. *)
Definition parsingTable (rt : reg_type) : list reg_pos :=
  match rt with
  | REG_CGREG => [POS_NONE; POS_NET_REG; POS_STAT; POS_LAC_TAC; POS_CELL_ID; POS_RAT; POS_RAC; POS_REJ_TYPE; POS_REJ_CAUSE]
  | _ => [POS_NONE; POS_NET_REG; POS_STAT; POS_LAC_TAC; POS_CELL_ID; POS_RAT; POS_REJ_TYPE; POS_REJ_CAUSE]
  end.

(** cellular_3gpp_urc_handler.c:490-608 _regStatusSwitchParsingFuncCreg / Cgreg / Cereg: index beyond the table is ignored. *)
Definition parseAt (rt : reg_type) (i : N) (tok : str) (d : at_data) : pkt_status * at_data :=
  match nth_error (parsingTable rt) (N.to_nat i) with
  | None => (PKT_OK, d)
  | Some p => switchParsing p rt tok d
  end.

(** cellular_3gpp_urc_handler.c:806-823: the while loop ([i] is a uint8_t, incremented before use; [tok] the current token, [rest] the
    rest of the string).  [fuel] bounds the iterations; [None] = fuel exhausted. *)
Fixpoint reg_loop (fuel : nat) (rt : reg_type) (i : N) (tok : str) (rest : option str) (d : at_data)
  : option (pkt_status * at_data) :=
  match fuel with
  | O => None
  | S f =>
      let i' := ((i + 1) mod 256)%N in
      match parseAt rt i' tok d with
      | (PKT_OK, d') =>
          match ATGetNextTok rest with
          | (AT_SUCCESS, rest', Some tok') => reg_loop f rt i' tok' rest' d'
          | _ => Some (PKT_OK, d')
          end
      | (e, d') => Some (e, d')
      end
  end.

(** What the network registration callback is given (637-669 _regStatusGenerateEvent; the PLMN, operator and mode
    fields are constants there and left out). *)
Inductive reg_event_kind := EV_CS | EV_PS.
(** What the network registration callback is given. *)
Record reg_event := { ev_kind : reg_event_kind; ev_rat : Z; ev_cs : Z; ev_ps : Z; ev_csRejCause : Z; ev_csRejType : Z;
                      ev_psRejCause : Z; ev_psRejType : Z }.
(** cellular_3gpp_urc_handler.c:637-670 _regStatusGenerateEvent *)
Definition generateEvent (rt : reg_type) (cb : bool) (d : at_data) : list reg_event :=
  if cb then [{| ev_kind := match rt with REG_CREG => EV_CS | _ => EV_PS end; ev_rat := d_rat d; ev_cs := d_cs d; ev_ps := d_ps d;
                 ev_csRejCause := d_csRejCause d; ev_csRejType := d_csRejType d; ev_psRejCause := d_psRejCause d;
                 ev_psRejType := d_psRejType d |}]
  else [].

(** cellular_3gpp_urc_handler.c:675-709 _Cellular_RegEventStatus *)
Definition RegEventStatus (d : at_data) (rt : reg_type) (prevCs prevPs : Z) : bool :=
  match rt with
  | REG_CREG => negb (d_cs d =? prevCs)
  | REG_CGREG | REG_CEREG => negb (d_ps d =? prevPs)
  | REG_UNKNOWN => false
  end.

(** cellular_3gpp_urc_handler.c:713-843 _Cellular_ParseRegStatus (non-NULL context; [cb]: a registration callback is registered).
    257 iterations always suffice: every token but the last consumes a character of a string of at most 256. *)
Definition REG_FUEL : nat := 300.
(** cellular_3gpp_urc_handler.c:713-843 _Cellular_ParseRegStatus *)
Definition ParseRegStatus (cb : bool) (payload : option str) (isUrc : bool) (rt : reg_type) (d : at_data)
  : res (pkt_status * at_data * list reg_event) :=
  match payload with
  | None => Ok (PKT_BAD_PARAM, d, [])
  | Some s0 =>
      match rt with
      | REG_UNKNOWN => Ok (TranslateAtCoreStatus AT_BAD_PARAMETER, d, [])
      | _ =>
          match ATRemoveAllDoubleQuote (Some s0) with
          | (AT_SUCCESS, s1) =>
              match ATRemoveAllWhiteSpaces s1 with
              | (AT_SUCCESS, s2) =>
                  match ATGetNextTok s2 with
                  | (AT_SUCCESS, rest, Some tok) =>
                      match reg_loop REG_FUEL rt (if isUrc then 1 else 0)%N tok rest d with
                      | None => Diverge
                      | Some (st, d') =>
                          Ok (st, d', if RegEventStatus d' rt (d_cs d) (d_ps d) then generateEvent rt cb d' else [])
                      end
                  | (e, _, _) => Ok (TranslateAtCoreStatus e, d, [])
                  end
              | (e, _) => Ok (TranslateAtCoreStatus e, d, [])
              end
          | (e, _) => Ok (TranslateAtCoreStatus e, d, [])
          end
      end
  end.

(** cellular_3gpp_urc_handler.c:847-924 Cellular_CommonUrcProcessCreg / Cgreg / Cereg, non-NULL context. *)
Definition UrcProcessReg (cb : bool) (rt : reg_type) (payload : option str) (d : at_data) :=
  ParseRegStatus cb payload true rt d.

(** cellular_3gpp_api.c:748-787 regResponseIsUrc *)
Definition regResponseIsUrc (line : str) : bool :=
  match strchr line chCOMMA with
  | None => true
  | Some n => (nth (S n) line 0 =? chDQ)%N
  end.

(** cellular_3gpp_api.c:791-852 _Cellular_RecvFuncGetNetworkReg, the while loop over the response lines.
    Note that the read-response branch passes the line with its prefix. *)
Fixpoint RecvFuncGetNetworkReg (cb : bool) (lines : list str) (rt : reg_type) (d : at_data)
  : res (pkt_status * at_data * list reg_event) :=
  match lines with
  | [] => Ok (PKT_OK, d, [])
  | l :: t =>
      do r <- (if regResponseIsUrc l then
                 match ATRemovePrefix (Some l) with
                 | (AT_SUCCESS, l') => ParseRegStatus cb l' true rt d
                 | (e, _) => Ok (TranslateAtCoreStatus e, d, [])
                 end
               else ParseRegStatus cb (Some l) false rt d);
      let '(st, d', ev) := r in
      match st with
      | PKT_OK => do r2 <- RecvFuncGetNetworkReg cb t rt d'; let '(st2, d2, ev2) := r2 in Ok (st2, d2, ev ++ ev2)
      | _ => Ok (st, d', ev)
      end
  end.
End Parse.

(** Pointer-level model of the response callbacks and registration parsers of /repo/source/cellular_3gpp_api.c and
    /repo/source/cellular_3gpp_urc_handler.c.

    [m] is the object in which the response lines live (the receive buffer, or the heap copy of a URC), a [char *] into it is an
    offset or NULL.  The AT utilities are the bounds-checked ones of AtMem.v; they change [m] in place.  The caller's output is a
    separate object, as in G3pp.v.  C library functions that only read a string (strtol, strcmp, strncmp, strstr, strlen, the source
    of strncpy) are modelled as reading it up to its terminating NUL: at least what the C functions read.
    The NULL checks of the callbacks on pContext, pAtResp, pData and the length arguments are those of G3pp.v and not repeated. *)
From Coq Require Import String List NArith ZArith Bool.
From Verif Require Import Bytes AtCore AtMem Status Pktio SendCmd Socket RegStatus G3pp.
Import ListNotations.
Local Open Scope Z_scope.

(** A char * : NULL or an address in the receive buffer. *)
Definition ptr := option nat.

(** ** The AT utilities applied to a pointer that may be NULL (the NULL checks at the top of each function of cellular_at_core.c:
    230, 270, 310, 363, 416, 468, 534) *)
Definition pRemovePrefix (m : list N) (p : ptr) : res (at_status * ptr) :=
  match p with None => Ok (AT_BAD_PARAMETER, None) | Some a => ATRemovePrefix_m m a end.
(** Cellular_ATRemoveLeadingWhiteSpaces (cellular_at_core.c), on a pointer that may be NULL. *)
Definition pLead (m : list N) (p : ptr) : res (at_status * ptr) :=
  match p with None => Ok (AT_BAD_PARAMETER, None) | Some a => do r <- ATRemoveLeadingWhiteSpaces_m m a; Ok (fst r, Some (snd r)) end.
(** Cellular_ATRemoveTrailingWhiteSpaces (cellular_at_core.c). *)
Definition pTrail (m : list N) (p : ptr) : res (at_status * list N) :=
  match p with None => Ok (AT_BAD_PARAMETER, m) | Some a => ATRemoveTrailingWhiteSpaces_m m a end.
(** Cellular_ATRemoveAllWhiteSpaces (cellular_at_core.c). *)
Definition pAllWs (m : list N) (p : ptr) : res (at_status * list N) :=
  match p with None => Ok (AT_BAD_PARAMETER, m) | Some a => ATRemoveAllWhiteSpaces_m m a end.
(** Cellular_ATRemoveAllDoubleQuote (cellular_at_core.c). *)
Definition pAllDq (m : list N) (p : ptr) : res (at_status * list N) :=
  match p with None => Ok (AT_BAD_PARAMETER, m) | Some a => ATRemoveAllDoubleQuote_m m a end.
(** Cellular_ATRemoveOutermostDoubleQuote (cellular_at_core.c). *)
Definition pOuter (m : list N) (p : ptr) : res (at_status * ptr * list N) :=
  match p with None => Ok (AT_BAD_PARAMETER, None, m)
             | Some a => do r <- ATRemoveOutermostDoubleQuote_m m a; let '(e, q, m') := r in Ok (e, Some q, m') end.
(** Results: status, memory, *ppString, *ppTokOutput ([None]: not written). *)
Definition pTok (m : list N) (p : ptr) (d : N) : res (at_status * list N * ptr * ptr) :=
  match p with None => Ok (AT_BAD_PARAMETER, m, None, None)
             | Some a => do r <- ATGetSpecificNextTok_m m a [d]; let '(e, m', q, t) := r in Ok (e, m', Some q, t) end.
(** Cellular_ATGetNextTok (cellular_at_core.c). *)
Definition pNextTok m p := pTok m p chCOMMA.
(** Reading the string at a pointer; NULL or running out of the object is [UB]. *)
Fixpoint read_m (fuel : nat) (m : list N) (p : nat) : res str :=
  match fuel with
  | O => Diverge
  | S f => do c <- ld m p; if (c =? 0)%N then Ok [] else do t <- read_m f m (S p); Ok (c :: t)
  end.
(** A read of the C string at a pointer: NULL is UB. *)
Definition pRead (m : list N) (p : ptr) : res str := match p with None => UB | Some a => read_m (S (length m)) m a end.

(** Result of a callback: packet status, output, memory of the lines. *)
Definition cres (A : Type) := res (pkt_status * A * list N).
(** As [cb_first] of G3pp.v, on the address of the first line. *)
Definition cb_first_m {A} (bad : pkt_status) (lines : list nat) (m : list N) (a : A) (k : nat -> cres A) : cres A :=
  match lines with [] => Ok (bad, a, m) | l :: _ => k l end.

Section G3ppMem.
Variable bits : Z.

(** ** Network time *)

(** cellular_3gpp_api.c:241-281 _parseTimeZoneInCCLKResponse *)
Definition parseTimeZoneInCCLKResponse_m (m : list N) (p : ptr) (t : ctime) : res (pkt_status * bool * ctime) :=
  do s <- pRead m p; Ok (parseTimeZoneInCCLKResponse bits s t).

(** Cellular_ATGetSpecificNextTok, Cellular_ATStrtoi, range test (311-331, 336-355, 390-409, 415-441). *)
Definition tok_int_m (m : list N) (p : ptr) (d : N) (ok : Z -> bool) : res (at_status * list N * ptr * Z) :=
  do r <- pTok m p d;
  match r with
  | (AT_SUCCESS, m1, p1, t) => do s <- pRead m1 t; let '(e, v) := get_int bits s 10 ok in Ok (e, m1, p1, v)
  | (e, m1, p1, _) => Ok (e, m1, p1, 0)
  end.

(** cellular_3gpp_api.c:285-359 _parseYearMonthDayInCCLKResponse *)
Definition parseYearMonthDay_m (m : list N) (tok p : ptr) (t : ctime) : res (pkt_status * list N * ptr * ctime) :=
  do s <- pRead m tok;
  match get_int bits s 10 uint16_ok with
  | (AT_SUCCESS, y) =>
      let t1 := set_year t y in
      do r1 <- tok_int_m m p 47 uint8_ok;
      match r1 with
      | (AT_SUCCESS, m1, p1, mo) =>
          let t2 := set_month t1 mo in
          do r2 <- tok_int_m m1 p1 chCOMMA uint8_ok;
          match r2 with
          | (AT_SUCCESS, m2, p2, d) => Ok (PKT_OK, m2, p2, set_day t2 d)
          | (e, m2, p2, _) => Ok (TranslateAtCoreStatus e, m2, p2, t2)
          end
      | (e, m1, p1, _) => Ok (TranslateAtCoreStatus e, m1, p1, t1)
      end
  | (e, _) => Ok (TranslateAtCoreStatus e, m, p, t)
  end.

(** cellular_3gpp_api.c:363-445 _parseTimeInCCLKResponse *)
Definition parseTimeInCCLKResponse_m (m : list N) (tok : ptr) (neg : bool) (p : ptr) (t : ctime) : cres ctime :=
  do s <- pRead m tok;
  match get_int bits s 10 uint8_ok with
  | (AT_SUCCESS, h) =>
      let t1 := set_hour t h in
      do r1 <- tok_int_m m p chCOLON uint8_ok;
      match r1 with
      | (AT_SUCCESS, m1, p1, mi) =>
          let t2 := set_minute t1 mi in
          do r2 <- tok_int_m m1 p1 (if neg then chMINUS else chPLUS) uint8_ok;
          match r2 with
          | (AT_SUCCESS, m2, _, s) => Ok (PKT_OK, set_second t2 s, m2)
          | (e, m2, _, _) => Ok (TranslateAtCoreStatus e, t2, m2)
          end
      | (e, m1, _, _) => Ok (TranslateAtCoreStatus e, t1, m1)
      end
  | (e, _) => Ok (TranslateAtCoreStatus e, t, m)
  end.

(** cellular_3gpp_api.c:449-506 _parseTimeZoneInfo.  When the tokenizer fails at 471 it is called again at 483, on the same string. *)
Definition parseTimeZoneInfo_m (m : list N) (p0 : ptr) : cres ctime :=
  do r0 <- pOuter m p0;
  match r0 with
  | (AT_SUCCESS, p, m0) =>
      do z <- parseTimeZoneInCCLKResponse_m m0 p ctime0;
      match z with
      | (PKT_OK, neg, t1) =>
          do r1 <- pTok m0 p 47;
          match r1 with
          | (AT_SUCCESS, m1, p1, tok) =>
              do y <- parseYearMonthDay_m m1 tok p1 t1;
              match y with
              | (PKT_OK, m2, p2, t2) =>
                  do r2 <- pTok m2 p2 chCOLON;
                  match r2 with
                  | (AT_SUCCESS, m3, p3, tok2) => parseTimeInCCLKResponse_m m3 tok2 neg p3 t2
                  | (_, m3, _, _) => Ok (PKT_OK, t2, m3)
                  end
              | (e, m2, _, t2) => Ok (e, t2, m2)
              end
          | (_, m1, p1, tok) =>
              do r2 <- pTok m1 p1 chCOLON;
              match r2 with
              | (AT_SUCCESS, m3, p3, tok2) => parseTimeInCCLKResponse_m m3 tok2 neg p3 t1
              | (_, m3, _, _) => Ok (PKT_OK, t1, m3)
              end
          end
      | (e, _, t1) => Ok (e, t1, m0)
      end
  | (_, _, m0) => Ok (PKT_FAILURE, ctime0, m0)
  end.

(** cellular_3gpp_api.c:510-555 _Cellular_RecvFuncGetNetworkTime *)
Definition RecvFuncGetNetworkTime_m (m : list N) (lines : list nat) (t : ctime) : cres ctime :=
  cb_first_m PKT_BAD_PARAM lines m t (fun l =>
    do r1 <- pRemovePrefix m (Some l);
    match r1 with
    | (AT_SUCCESS, p1) =>
        do r2 <- pAllWs m p1;
        match r2 with
        | (AT_SUCCESS, m2) => parseTimeZoneInfo_m m2 p1
        | (e, m2) => Ok (TranslateAtCoreStatus e, t, m2)
        end
    | (e, _) => Ok (TranslateAtCoreStatus e, t, m)
    end).

(** ** Modem identity *)

(** cellular_3gpp_api.c:559-602, 653-696, 700-743 _Cellular_RecvFuncGetFirmwareVersion / ModelId / ManufactureId *)
Definition RecvFuncText_m (n : nat) (m : list N) (lines : list nat) (buf : list N) : cres (list N) :=
  cb_first_m PKT_BAD_PARAM lines m buf (fun l =>
    do r1 <- pLead m (Some l);
    match r1 with
    | (AT_SUCCESS, p1) =>
        do r2 <- pTrail m p1;
        match r2 with
        | (AT_SUCCESS, m2) => do s <- pRead m2 p1; do b <- strncpy_m buf s n; Ok (PKT_OK, b, m2)
        | (e, m2) => Ok (TranslateAtCoreStatus e, buf, m2)
        end
    | (e, _) => Ok (TranslateAtCoreStatus e, buf, m)
    end).

(** cellular_3gpp_api.c:606-649 _Cellular_RecvFuncGetImei *)
Definition RecvFuncGetImei_m (m : list N) (lines : list nat) (buf : list N) : cres (list N) :=
  cb_first_m PKT_BAD_PARAM lines m buf (fun l =>
    do r1 <- pLead m (Some l);
    match r1 with
    | (AT_SUCCESS, p1) =>
        do r2 <- pAllWs m p1;
        match r2 with
        | (AT_SUCCESS, m2) => do s <- pRead m2 p1; do b <- strncpy_m buf s IMEI_MAX_SIZE; Ok (PKT_OK, b, m2)
        | (e, m2) => Ok (TranslateAtCoreStatus e, buf, m2)
        end
    | (e, _) => Ok (TranslateAtCoreStatus e, buf, m)
    end).

(** ** Operator information *)

(** cellular_3gpp_api.c:882-916, 920-955, 1008-1042 *)
Definition parseCopsNumber_m (m : list N) (tok : ptr) (max : Z) (set : Z -> op_info) (o : op_info) : res (bool * op_info) :=
  do s <- pRead m tok; Ok (parseCopsNumber bits s max set o).

(** cellular_3gpp_api.c:959-1004 _parseCopsNetworkNameToken; &( pToken[ 3 ] ) is read as a string of its own. *)
Definition parseCopsNetworkNameToken_m (m : list N) (tok : ptr) (o : op_info) : res (bool * op_info) :=
  match tok with
  | None => Ok (false, o)
  | Some a =>
      if (o_fmt o =? 0) || (o_fmt o =? 1) then
        do s <- pRead m (Some a); do b <- strncpy_m (o_name o) s NETWORK_NAME_MAX_SIZE; Ok (true, set_oname o b)
      else if o_fmt o =? 2 then
        do s <- pRead m (Some a);
        let n := length s in
        if (Nat.eqb n (MCC_MAX_SIZE + MNC_MAX_SIZE)) || (Nat.eqb n (MCC_MAX_SIZE + MNC_MAX_SIZE - 1)) then
          do x <- strncpy_m (o_mcc o) s MCC_MAX_SIZE;
          do x' <- st x MCC_MAX_SIZE 0%N;
          do s3 <- pRead m (Some (a + MCC_MAX_SIZE)%nat);
          do y <- strncpy_m (o_mnc o) s3 (n - MCC_MAX_SIZE + 1);
          do y' <- st y MNC_MAX_SIZE 0%N;
          Ok (true, set_plmn o x' y')
        else Ok (false, o)
      else Ok (false, o)
  end.

(** cellular_3gpp_api.c:1046-1113 _parseCops: result with AT status. *)
Definition parseCops_m (m0 : list N) (p0 : ptr) (o0 : op_info) : res (at_status * op_info * list N) :=
  do r1 <- pNextTok m0 p0;
  match r1 with
  | (AT_SUCCESS, m1, p1, t1) =>
      do x1 <- parseCopsNumber_m m1 t1 REG_MODE_MAX (set_omode o0) o0; let '(ok1, o1) := x1 in
      if ok1 : bool then
        do r2 <- pNextTok m1 p1;
        match r2 with
        | (AT_SUCCESS, m2, p2, t2) =>
            do x2 <- parseCopsNumber_m m2 t2 NAME_FORMAT_MAX (set_ofmt o1) o1; let '(ok2, o2) := x2 in
            if ok2 : bool then
              do r3 <- pNextTok m2 p2;
              match r3 with
              | (AT_SUCCESS, m3, p3, t3) =>
                  do x3 <- parseCopsNetworkNameToken_m m3 t3 o2; let '(ok3, o3) := x3 in
                  if ok3 : bool then
                    do r4 <- pNextTok m3 p3;
                    match r4 with
                    | (AT_SUCCESS, m4, _, t4) =>
                        do x4 <- parseCopsNumber_m m4 t4 RATN_MAX (set_orat o3) o3; let '(ok4, o4) := x4 in
                        Ok (if ok4 : bool then AT_SUCCESS else AT_ERROR, o4, m4)
                    | (e, m4, _, _) => Ok (e, o3, m4)
                    end
                  else Ok (AT_ERROR, o3, m3)
              | (e, m3, _, _) => Ok (e, o2, m3)
              end
            else Ok (AT_ERROR, o2, m2)
        | (e, m2, _, _) => Ok (e, o1, m2)
        end
      else Ok (AT_ERROR, o1, m1)
  | (e, m1, _, _) => Ok (e, o0, m1)
  end.

(** cellular_3gpp_api.c:1117-1175 _Cellular_RecvFuncUpdateMccMnc *)
Definition RecvFuncUpdateMccMnc_m (m : list N) (lines : list nat) (o : op_info) : cres op_info :=
  cb_first_m PKT_FAILURE lines m o (fun l =>
    do x <- (do r1 <- pRemovePrefix m (Some l);
             match r1 with
             | (AT_SUCCESS, p1) =>
                 do r2 <- pAllDq m p1;
                 match r2 with
                 | (AT_SUCCESS, m2) =>
                     do r3 <- pAllWs m2 p1;
                     match r3 with
                     | (AT_SUCCESS, m3) => parseCops_m m3 p1 o
                     | (e, m3) => Ok (e, o, m3)
                     end
                 | (e, m2) => Ok (e, o, m2)
                 end
             | (e, _) => Ok (e, o, m)
             end);
    let '(e, o', m') := x in
    Ok (match e with AT_ERROR => TranslateAtCoreStatus e | _ => PKT_OK end, o', m')).

(** ** IP address *)

(** cellular_3gpp_api.c:1179-1232 _Cellular_RecvFuncIpAddress *)
Definition RecvFuncIpAddress_m (dataLen : N) (m : list N) (lines : list nat) (buf : list N) : cres (list N) :=
  cb_first_m PKT_FAILURE lines m buf (fun l =>
    if (dataLen =? 0)%N then Ok (PKT_BAD_PARAM, buf, m)
    else
      do r1 <- pRemovePrefix m (Some l);
      match r1 with
      | (AT_SUCCESS, p1) =>
          do r2 <- pNextTok m p1;
          match r2 with
          | (AT_SUCCESS, m2, Some a, _) =>
              do c <- ld m2 a;
              do b <- (if negb (c =? 0)%N then do s <- pRead m2 (Some a); strncpy_m buf s (N.to_nat dataLen)
                       else wr buf 0 (repeat 0%N (N.to_nat dataLen)));
              Ok (PKT_OK, b, m2)
          | (AT_SUCCESS, _, None, _) => UB
          | (e, m2, _, _) => Ok (TranslateAtCoreStatus e, buf, m2)
          end
      | (e, _) => Ok (TranslateAtCoreStatus e, buf, m)
      end).

(** ** eDRX *)

(** cellular_3gpp_api.c:1236-1291 parseEidrxToken *)
Definition parseEidrxToken_m (m : list N) (tok : ptr) (idx count : N) (l : list (Z * Z)) : res (at_status * list (Z * Z)) :=
  do s <- pRead m tok; parseEidrxToken bits s idx count l.

(** cellular_3gpp_api.c:1320-1333: the while loop *)
Fixpoint eidrx_loop_m (fuel : nat) (m : list N) (tok p : ptr) (idx count : N) (l : list (Z * Z)) : res (list (Z * Z) * list N) :=
  match fuel with
  | O => Diverge
  | S f =>
      match tok with
      | None => Ok (l, m)
      | Some _ =>
          do x <- parseEidrxToken_m m tok idx count l;
          do r <- pNextTok m p;
          match r with
          | (AT_SUCCESS, m1, p1, t1) => eidrx_loop_m f m1 t1 p1 ((idx + 1) mod 256)%N count (snd x)
          | (_, m1, _, _) => Ok (snd x, m1)
          end
      end
  end.

(** cellular_3gpp_api.c:1295-1348 parseEidrxLine *)
Definition parseEidrxLine_m (m : list N) (line : nat) (count : N) (l : list (Z * Z)) : res (at_status * list (Z * Z) * list N) :=
  do r1 <- pRemovePrefix m (Some line);
  match r1 with
  | (AT_SUCCESS, p1) =>
      do r2 <- pAllDq m p1;
      match r2 with
      | (AT_SUCCESS, m2) =>
          do r3 <- pNextTok m2 p1;
          match r3 with
          | (AT_SUCCESS, m3, p3, t3) => do x <- eidrx_loop_m TOK_FUEL m3 t3 p3 0 count l; Ok (AT_SUCCESS, fst x, snd x)
          | (e, m3, _, _) => Ok (e, l, m3)
          end
      | (e, m2) => Ok (e, l, m2)
      end
  | (e, _) => Ok (e, l, m)
  end.

(** cellular_3gpp_api.c:1384-1406: the loop over the response lines *)
Fixpoint eidrx_lines_m (m : list N) (lines : list nat) (count : N) (e : edrx) : cres edrx :=
  match lines with
  | [] => Ok (PKT_OK, e, m)
  | a :: ls =>
      do l <- pRead m (Some a);
      if str_eqb (s2b "+CEDRXS: 0") l || str_eqb (s2b "+CEDRXS:") l
      then eidrx_lines_m m ls count {| e_list := e_list e; e_count := count |}
      else
        do x <- parseEidrxLine_m m a count (e_list e);
        let '(at_st, l', m') := x in
        match TranslateAtCoreStatus at_st with
        | PKT_OK => let c := ((count + 1) mod 256)%N in eidrx_lines_m m' ls c {| e_list := l'; e_count := c |}
        | p => Ok (p, {| e_list := l'; e_count := count |}, m')
        end
  end.

(** cellular_3gpp_api.c:1352-1410 _Cellular_RecvFuncGetEidrxSettings *)
Definition RecvFuncGetEidrxSettings_m (m : list N) (lines : list nat) (e : edrx) : cres edrx :=
  cb_first_m PKT_BAD_PARAM lines m e (fun _ => eidrx_lines_m m lines 0 e).

(** ** SIM *)

(** cellular_3gpp_api.c:2298-2356 _Cellular_RecvFuncGetSimLockStatus *)
Definition RecvFuncGetSimLockStatus_m (m : list N) (lines : list nat) (s : sim_lock) : cres sim_lock :=
  cb_first_m PKT_BAD_PARAM lines m s (fun l =>
    do r1 <- pAllWs m (Some l);
    match r1 with
    | (AT_SUCCESS, m1) =>
        do r2 <- pRemovePrefix m1 (Some l);
        match r2 with
        | (AT_SUCCESS, p2) =>
            do r3 <- pNextTok m1 p2;
            match r3 with
            | (AT_SUCCESS, m3, _, t3) => do tok <- pRead m3 t3; Ok (PKT_OK, getSimLockState tok, m3)
            | (e, m3, _, _) => Ok (TranslateAtCoreStatus e, s, m3)
            end
        | (e, _) => Ok (TranslateAtCoreStatus e, s, m1)
        end
    | (e, m1) => Ok (TranslateAtCoreStatus e, s, m1)
    end).

(** cellular_3gpp_api.c:2414-2454 _parseHplmn: the bytes pToken[ 0 ] to pToken[ 5 ] are loaded from memory. *)
Definition parseHplmn_m (m : list N) (tok : ptr) (p : plmn) : res (bool * plmn) :=
  match tok with
  | None => Ok (false, p)
  | Some a =>
      do s <- pRead m (Some a);
      if (Nat.ltb (length s) CRSM_HPLMN_RAT_LENGTH) || has_prefix (s2b "FFFFFF") s then Ok (false, p)
      else
        do t0 <- ld m a; do t1 <- ld m (a + 1); do t2 <- ld m (a + 2); do t3 <- ld m (a + 3); do t4 <- ld m (a + 4); do t5 <- ld m (a + 5);
        do x <- st (p_mcc p) 0 t1; do x <- st x 1 t0; do x <- st x 2 t3;
        do y <- st (p_mnc p) 0 t5; do y <- st y 1 t4;
        do y <- (if negb (t2 =? 70)%N then do y <- st y 2 t2; st y 3 0%N else st y 2 0%N);
        Ok (true, {| p_mcc := x; p_mnc := y |})
  end.

(** cellular_3gpp_api.c:2458-2550 _Cellular_RecvFuncGetHplmn *)
Definition RecvFuncGetHplmn_m (m : list N) (lines : list nat) (p : plmn) : cres plmn :=
  cb_first_m PKT_BAD_PARAM lines m p (fun l =>
    do r1 <- pAllWs m (Some l);
    match r1 with
    | (AT_SUCCESS, m1) =>
        do r2 <- pRemovePrefix m1 (Some l);
        match r2 with
        | (AT_SUCCESS, p2) =>
            do r3 <- pAllDq m1 p2;
            match r3 with
            | (AT_SUCCESS, m3) =>
                do r4 <- pNextTok m3 p2;
                match r4 with
                | (AT_SUCCESS, m4, p4, t4) =>
                    do sw1 <- pRead m4 t4;
                    if checkCrsmReadStatus sw1 then
                      do r5 <- pNextTok m4 p4;
                      match r5 with
                      | (AT_SUCCESS, m5, p5, t5) =>
                          do sw2 <- pRead m5 t5;
                          if checkCrsmMemoryStatus sw2 then
                            do r6 <- pNextTok m5 p5;
                            match r6 with
                            | (AT_SUCCESS, m6, _, t6) =>
                                do x <- parseHplmn_m m6 t6 p;
                                let '(ok, p') := x in Ok (TranslateAtCoreStatus (if ok : bool then AT_SUCCESS else AT_ERROR), p', m6)
                            | (e, m6, _, _) => Ok (TranslateAtCoreStatus e, p, m6)
                            end
                          else Ok (TranslateAtCoreStatus AT_ERROR, p, m5)
                      | (e, m5, _, _) => Ok (TranslateAtCoreStatus e, p, m5)
                      end
                    else Ok (TranslateAtCoreStatus AT_ERROR, p, m4)
                | (e, m4, _, _) => Ok (TranslateAtCoreStatus e, p, m4)
                end
            | (e, m3) => Ok (TranslateAtCoreStatus e, p, m3)
            end
        | (e, _) => Ok (TranslateAtCoreStatus e, p, m1)
        end
    | (e, m1) => Ok (TranslateAtCoreStatus e, p, m1)
    end).

(** cellular_3gpp_api.c:2555-2608 _Cellular_RecvFuncGetIccid *)
Definition RecvFuncGetIccid_m (m : list N) (lines : list nat) (buf : list N) : cres (list N) :=
  cb_first_m PKT_BAD_PARAM lines m buf (fun l =>
    do r1 <- pAllWs m (Some l);
    match r1 with
    | (AT_SUCCESS, m1) =>
        do r2 <- pRemovePrefix m1 (Some l);
        match r2 with
        | (AT_SUCCESS, p2) =>
            do s <- pRead m1 p2;
            if Nat.ltb (length s) (S ICCID_MAX_SIZE)
            then do b <- strncpy_m buf s (S ICCID_MAX_SIZE); Ok (PKT_OK, b, m1)
            else Ok (TranslateAtCoreStatus AT_BAD_PARAMETER, buf, m1)
        | (e, _) => Ok (TranslateAtCoreStatus e, buf, m1)
        end
    | (e, m1) => Ok (TranslateAtCoreStatus e, buf, m1)
    end).

(** cellular_3gpp_api.c:2613-2660 _Cellular_RecvFuncGetImsi *)
Definition RecvFuncGetImsi_m (m : list N) (lines : list nat) (buf : list N) : cres (list N) :=
  cb_first_m PKT_BAD_PARAM lines m buf (fun l =>
    do r1 <- pAllWs m (Some l);
    match r1 with
    | (AT_SUCCESS, m1) =>
        do s <- pRead m1 (Some l);
        if Nat.ltb (length s) (S IMSI_MAX_SIZE)
        then do b <- strncpy_m buf s (S IMSI_MAX_SIZE); Ok (PKT_OK, b, m1)
        else Ok (TranslateAtCoreStatus AT_ERROR, buf, m1)
    | (e, m1) => Ok (TranslateAtCoreStatus e, buf, m1)
    end).

(** ** Power saving mode *)

(** cellular_3gpp_api.c:2991-3006: the while loop *)
Fixpoint psm_loop_m (fuel : nat) (m : list N) (tok p : ptr) (idx : N) (e : at_status) (s : psm) : res (at_status * psm * list N) :=
  match fuel with
  | O => Diverge
  | S f =>
      match tok with
      | None => Ok (e, s, m)
      | Some _ =>
          do t <- pRead m tok;
          let '(e', s') := parseGetPsmToken bits t idx s in
          do r <- pNextTok m p;
          match r with
          | (AT_SUCCESS, m1, p1, t1) => psm_loop_m f m1 t1 p1 ((idx + 1) mod 256)%N e' s'
          | (_, m1, _, _) => Ok (e', s', m1)
          end
      end
  end.

(** cellular_3gpp_api.c:2945-3013 _Cellular_RecvFuncGetPsmSettings *)
Definition RecvFuncGetPsmSettings_m (m : list N) (lines : list nat) (s : psm) : cres psm :=
  cb_first_m PKT_BAD_PARAM lines m s (fun l =>
    do r1 <- pRemovePrefix m (Some l);
    match r1 with
    | (AT_SUCCESS, p1) =>
        do r2 <- pAllDq m p1;
        match r2 with
        | (AT_SUCCESS, m2) =>
            do r3 <- pNextTok m2 p1;
            match r3 with
            | (AT_SUCCESS, m3, p3, t3) =>
                do x <- psm_loop_m TOK_FUEL m3 t3 p3 0 AT_SUCCESS s; let '(e, s', m') := x in Ok (TranslateAtCoreStatus e, s', m')
            | (e, m3, _, _) => Ok (TranslateAtCoreStatus e, s, m3)
            end
        | (e, m2) => Ok (TranslateAtCoreStatus e, s, m2)
        end
    | (e, _) => Ok (TranslateAtCoreStatus e, s, m)
    end).

(** ** Registration *)

(** cellular_3gpp_urc_handler.c:806-823: the while loop *)
Fixpoint reg_loop_m (fuel : nat) (m : list N) (rt : reg_type) (i : N) (tok p : ptr) (d : at_data) : res (pkt_status * at_data * list N) :=
  match fuel with
  | O => Diverge
  | S f =>
      match tok with
      | None => Ok (PKT_OK, d, m)
      | Some _ =>
          let i' := ((i + 1) mod 256)%N in
          do t <- pRead m tok;
          match parseAt bits rt i' t d with
          | (PKT_OK, d') =>
              do r <- pNextTok m p;
              match r with
              | (AT_SUCCESS, m1, p1, t1) => reg_loop_m f m1 rt i' t1 p1 d'
              | (_, m1, _, _) => Ok (PKT_OK, d', m1)
              end
          | (e, d') => Ok (e, d', m)
          end
      end
  end.

(** cellular_3gpp_urc_handler.c:713-843 _Cellular_ParseRegStatus (at 827 the payload is logged: read as a string) *)
Definition ParseRegStatus_m (cb : bool) (m : list N) (payload : ptr) (isUrc : bool) (rt : reg_type) (d : at_data)
  : res (pkt_status * at_data * list reg_event * list N) :=
  match payload with
  | None => Ok (PKT_BAD_PARAM, d, [], m)
  | Some _ =>
      match rt with
      | REG_UNKNOWN => Ok (TranslateAtCoreStatus AT_BAD_PARAMETER, d, [], m)
      | _ =>
          do r1 <- pAllDq m payload;
          match r1 with
          | (AT_SUCCESS, m1) =>
              do r2 <- pAllWs m1 payload;
              match r2 with
              | (AT_SUCCESS, m2) =>
                  do r3 <- pNextTok m2 payload;
                  match r3 with
                  | (AT_SUCCESS, m3, p3, t3) =>
                      do x <- reg_loop_m REG_FUEL m3 rt (if isUrc then 1 else 0)%N t3 p3 d;
                      let '(st, d', m4) := x in
                      do logged <- pRead m4 payload;
                      Ok (st, d', if RegEventStatus d' rt (d_cs d) (d_ps d) then generateEvent rt cb d' else [], m4)
                  | (e, m3, _, _) => Ok (TranslateAtCoreStatus e, d, [], m3)
                  end
              | (e, m2) => Ok (TranslateAtCoreStatus e, d, [], m2)
              end
          | (e, m1) => Ok (TranslateAtCoreStatus e, d, [], m1)
          end
      end
  end.

(** cellular_3gpp_api.c:748-787 regResponseIsUrc: pSeparator[ 1 ] is loaded from memory. *)
Definition regResponseIsUrc_m (m : list N) (line : nat) : res bool :=
  do q <- strchr_m (S (length m)) m line chCOMMA;
  match q with
  | None => Ok true
  | Some a => do c <- ld m (S a); Ok (c =? chDQ)%N
  end.

(** cellular_3gpp_api.c:791-852 _Cellular_RecvFuncGetNetworkReg, the while loop over the response lines *)
Fixpoint RecvFuncGetNetworkReg_m (cb : bool) (m : list N) (lines : list nat) (rt : reg_type) (d : at_data)
  : res (pkt_status * at_data * list reg_event * list N) :=
  match lines with
  | [] => Ok (PKT_OK, d, [], m)
  | l :: t =>
      do u <- regResponseIsUrc_m m l;
      do r <- (if u : bool then
                 do r1 <- pRemovePrefix m (Some l);
                 match r1 with
                 | (AT_SUCCESS, p1) => ParseRegStatus_m cb m p1 true rt d
                 | (e, _) => Ok (TranslateAtCoreStatus e, d, [], m)
                 end
               else ParseRegStatus_m cb m (Some l) false rt d);
      let '(st, d', ev, m') := r in
      match st with
      | PKT_OK => do r2 <- RecvFuncGetNetworkReg_m cb m' t rt d'; let '(st2, d2, ev2, m2) := r2 in Ok (st2, d2, ev ++ ev2, m2)
      | _ => Ok (st, d', ev, m')
      end
  end.
End G3ppMem.

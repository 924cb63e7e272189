(** Specification vocabulary of the 3GPP API layer that mentions the API's own types: the requests, the caller's structures
    as functions of the values a response conveys, and what a return value must mean. *)
From Coq Require Import String List NArith ZArith Bool.
From Verif Require Import Bytes SpecAt Status Pktio RegStatus SpecReg SpecG3pp G3pp.
Import ListNotations.
Local Open Scope Z_scope.

(** The library is open and not being shut down. *)
Definition lib_ok (lib : option lib_flags) : Prop := CheckLibraryStatus lib = C_SUCCESS.

(** ** The requests *)
Definition req_cimi : req := {| rq_cmd := s2b "AT+CIMI"; rq_type := T_WO_PREFIX; rq_prefix := None |}.
Definition req_crsm : req := {| rq_cmd := s2b "AT+CRSM=176,28514,0,0,0"; rq_type := T_WITH_PREFIX; rq_prefix := Some (s2b "+CRSM") |}.
Definition req_ccid : req := {| rq_cmd := s2b "AT+CCID"; rq_type := T_WITH_PREFIX; rq_prefix := Some (s2b "+CCID") |}.
Definition req_cgmr : req := {| rq_cmd := s2b "AT+CGMR"; rq_type := T_WO_PREFIX; rq_prefix := None |}.
Definition req_cgsn : req := {| rq_cmd := s2b "AT+CGSN"; rq_type := T_WO_PREFIX; rq_prefix := None |}.
Definition req_cgmm : req := {| rq_cmd := s2b "AT+CGMM"; rq_type := T_WO_PREFIX; rq_prefix := None |}.
Definition req_cgmi : req := {| rq_cmd := s2b "AT+CGMI"; rq_type := T_WO_PREFIX; rq_prefix := None |}.
Definition req_cpin : req := {| rq_cmd := s2b "AT+CPIN?"; rq_type := T_WITH_PREFIX; rq_prefix := Some (s2b "+CPIN") |}.
Definition req_cgpaddr (cid : N) : req :=
  {| rq_cmd := s2b "AT+CGPADDR=" ++ dec cid; rq_type := T_WITH_PREFIX; rq_prefix := Some (s2b "+CGPADDR") |}.
Definition req_cops32 : req := {| rq_cmd := s2b "AT+COPS=3,2"; rq_type := T_NO_RESULT; rq_prefix := None |}.
Definition req_cops : req := {| rq_cmd := s2b "AT+COPS?"; rq_type := T_WITH_PREFIX; rq_prefix := Some (s2b "+COPS") |}.
Definition req_cedrxs : req := {| rq_cmd := s2b "AT+CEDRXS?"; rq_type := T_MULTI_WITH_PREFIX; rq_prefix := Some (s2b "+CEDRXS") |}.
Definition req_cclk : req := {| rq_cmd := s2b "AT+CCLK?"; rq_type := T_WITH_PREFIX; rq_prefix := Some (s2b "+CCLK") |}.
Definition req_creg : req := {| rq_cmd := s2b "AT+CREG?"; rq_type := T_MULTI_WITH_PREFIX; rq_prefix := Some (s2b "+CREG") |}.
Definition req_cgreg : req := {| rq_cmd := s2b "AT+CGREG?"; rq_type := T_MULTI_WITH_PREFIX; rq_prefix := Some (s2b "+CGREG") |}.
Definition req_cereg : req := {| rq_cmd := s2b "AT+CEREG?"; rq_type := T_MULTI_WITH_PREFIX; rq_prefix := Some (s2b "+CEREG") |}.
Definition req_cpsms : req := {| rq_cmd := s2b "AT+CPSMS?"; rq_type := T_WITH_PREFIX; rq_prefix := Some (s2b "+CPSMS") |}.

(** ** Outcome of a command without response lines *)
Definition done_with (a : answer) : cell_error :=
  match a with Answered _ => C_SUCCESS | NoAnswer true => C_TIMEOUT | _ => C_INTERNAL_FAILURE end.

(** ** Return value against the outcome of the requests *)
Definition answered (m : modem) (h : list req) : Prop := exists ls, m h = Answered ls.
(** [honest m sent ret]: every request but the last was answered; SUCCESS only if something was sent and the last request was
    answered too; TIMEOUT exactly when the last request got no final result code in time. *)
Definition honest (m : modem) (sent : list req) (ret : cell_error) : Prop :=
  (forall h r t, sent = h ++ r :: t -> t <> [] -> answered m (h ++ [r])) /\
  (ret = C_SUCCESS -> sent <> [] /\ answered m sent) /\
  (ret = C_TIMEOUT <-> sent <> [] /\ m sent = NoAnswer true).

(** Every query sent (every command that is to bring information) was answered with at least one line of it. *)
Definition informed (m : modem) (sent : list req) : Prop :=
  forall h q t, sent = h ++ q :: t -> rq_type q <> T_NO_RESULT -> exists l ls, m (h ++ [q]) = Answered (l :: ls).

(** ** The caller's structures *)
Definition psm_of (p : psm_values) : psm :=
  {| ps_mode := pv_mode p; ps_rau := pv_rau p; ps_rdy := pv_rdy p; ps_tau := pv_tau p; ps_act := pv_act p |}.
Definition ctime_of (k : clock) : ctime :=
  {| t_tz := k_zone k; t_year := k_year k; t_month := k_month k; t_day := k_day k; t_hour := k_hour k; t_minute := k_minute k; t_second := k_second k |}.

(** ** Service status *)
(** A complete answer "+CxREG: <n>,<stat>[,...]" to a registration query, conveying the values [vs]. *)
Definition query_answer (rt : reg_type) (raw : str) (vs : list Z) : Prop :=
  exists n ts a b, n <> [] /\ report_line raw (n :: ts) /\ fields_text (layout rt) ts vs /\
    raw = a ++ 44%N :: b /\ ~ In 44%N a /\ hd 0%N b <> 34%N.

(** All requests answered: the structure is what the answers say. *)
Record service_of (d : at_data) (mode : Z) (p : str) (s : service) : Prop := {
  so_rat : sv_rat s = d_rat d; so_cs : sv_cs s = d_cs d; so_ps : sv_ps s = d_ps d;
  so_ct : sv_csRejType s = d_csRejType d; so_cc : sv_csRejCause s = d_csRejCause d;
  so_pt : sv_psRejType s = d_psRejType d; so_pc : sv_psRejCause s = d_psRejCause d;
  so_mode : sv_mode s = mode; so_fmt : sv_fmt s = 2; so_mcc : holds (sv_mcc s) (firstn 3 p); so_mnc : holds (sv_mnc s) (skipn 3 p);
  so_name : holds (sv_name s) [] }.

Definition registered (d : at_data) : bool := (d_ps d =? 1) || (d_ps d =? 5).


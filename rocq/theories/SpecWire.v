(** Specification vocabulary for end-to-end statements: what it means that a list of lines answers a sequence of requests, and the
    API functions. *)
From Coq Require Import String List NArith ZArith Bool.
From Verif Require Import Bytes Status SpecAt Pktio SpecPktio SpecStream RegStatus SpecReg G3pp Wire.
From Verif Require Request.
Import ListNotations.

(** A further intermediate line is acceptable for a command of type [t] that has the lines [ps] already. *)
Definition takes_line (t : at_type) (ps : list str) : Prop := multi_line_type t \/ single_line_type t /\ ps = [].

(** [reply env q h ps ls a h']: with history [h] and [ps] already received for [q], the lines [ls] complete the answer [a] to [q]:
    URCs, in any number and position, do not belong to it; each line of the answer comes while [q] is in flight. *)
Inductive reply (env : list event -> view) (q : req) : list event -> list str -> list str -> answer -> list event -> Prop :=
| rp_urc h ps l ls a h' : line_is_urc (v_tokens (env h)) (v_cmd (env h)) (v_prefix (env h)) l ->
    reply env q (h ++ [EvUrc l]) ps ls a h' -> reply env q h ps (l :: ls) a h'
| rp_line h ps l ls a h' : in_flight (env h) q -> line_of_command (v_tokens (env h)) (rq_type q) (v_prefix (env h)) l ->
    plain_line (v_tokens (env h)) l -> takes_line (rq_type q) ps ->
    reply env q h (ps ++ [l]) ls a h' -> reply env q h ps (l :: ls) a h'
| rp_success h ps l : in_flight (env h) q -> line_of_command (v_tokens (env h)) (rq_type q) (v_prefix (env h)) l ->
    success_line (v_tokens (env h)) l -> reply env q h ps [l] (Answered ps) (h ++ [EvResp true ps])
| rp_error h ps l : in_flight (env h) q -> line_of_command (v_tokens (env h)) (rq_type q) (v_prefix (env h)) l ->
    error_line (v_tokens (env h)) l -> reply env q h ps [l] Refused (h ++ [EvResp false ps])
| rp_no_code h ps l : in_flight (env h) q -> line_of_command (v_tokens (env h)) (rq_type q) (v_prefix (env h)) l ->
    plain_line (v_tokens (env h)) l -> no_code_type (rq_type q) -> reply env q h ps [l] (Answered (ps ++ [l])) (h ++ [EvResp true (ps ++ [l])]).

(** [session env m sent h rs ls h']: after the requests [sent], the lines [ls] answer the requests [rs] one after the other, as the
    modem [m] does. *)
Inductive session (env : list event -> view) (m : modem) : list req -> list event -> list req -> list str -> list event -> Prop :=
| se_nil sent h : session env m sent h [] [] h
| se_cons sent h q rs l1 l2 h1 h' : reply env q h [] l1 (m (sent ++ [q])) h1 -> session env m (sent ++ [q]) h1 rs l2 h' ->
    session env m sent h (q :: rs) (l1 ++ l2) h'.

(** The API functions that talk to the modem (cellular_3gpp_api.c, cellular_common_api.c) with arbitrary arguments. *)
Inductive api_function : forall A, (modem -> res (result A)) -> Prop :=
| AF_time bits lib p : api_function _ (fun m => GetNetworkTime bits lib m p)
| AF_modem lib p : api_function _ (fun m => GetModemInfo lib m p)
| AF_network bits lib mem p : api_function _ (fun m => GetRegisteredNetwork bits lib m mem p)
| AF_service bits lib env d p : api_function _ (fun m => do x <- GetServiceStatus bits lib m env d p;
    Ok {| sent := sent (fst x); ret := ret (fst x); out := (out (fst x), snd x) |})
| AF_ip lib cid buf len : api_function _ (fun m => GetIPAddress lib m cid buf len)
| AF_geteidrx bits lib p : api_function _ (fun m => GetEidrxSettings bits lib m p)
| AF_seteidrx lib p : api_function _ (fun m => SetEidrxSettings lib m p)
| AF_rfon lib : api_function _ (fun m => RfOn lib m)
| AF_rfoff lib : api_function _ (fun m => RfOff lib m)
| AF_pdn lib cid p : api_function _ (fun m => SetPdnConfig lib m cid p)
| AF_lock lib p : api_function _ (fun m => GetSimCardLockStatus lib m p)
| AF_sim lib p : api_function _ (fun m => GetSimCardInfo lib m p)
| AF_setpsm lib p : api_function _ (fun m => SetPsmSettings lib m p)
| AF_getpsm bits lib p : api_function _ (fun m => GetPsmSettings bits lib m p)
| AF_raw B lib prefix payload t cb (a : B) : api_function _ (fun m => ATCommandRaw lib m prefix payload t cb a).

(** Requests sent one after the other, each as soon as the one before is answered: what the reader sees, with the port's token
    tables, after the history [h]. *)
Definition back_to_back (tt : token_table) (undef : str -> pkt_status) (rs : list req) : environment := fun _ h =>
  let '(t, p) := match nth_error rs (length (responses h)) with
                 | Some q => (rq_type q, match Request.send_check (rq_cmd q) (rq_type q) (rq_prefix q) with inr e => e | inl _ => None end)
                 | None => (T_NO_COMMAND, None)
                 end in
  {| v_inbuf := None; v_send := None; v_data := None; v_tokens := tt; v_cmd := t; v_prefix := p; v_cmd2 := t; v_handler := true; v_undef := undef |}.

(** Commands that can be sent: at most 200 characters, with a prefix where the type needs one. *)
Definition needs_prefix (t : at_type) : Prop := t = T_WITH_PREFIX \/ t = T_MULTI_WITH_PREFIX \/ t = T_WITH_PREFIX_NO_RESULT_CODE.
Definition sendable (cmd : str) (t : at_type) (prefix : option str) : Prop :=
  (length cmd <= 200)%nat /\ t <> T_NO_COMMAND /\ (needs_prefix t -> prefix <> None).

(** The reports of a history of registration lines, with the values they convey, in order.  A line is a +CREG, +CGREG or +CEREG URC or
    the answer to such a query ([urc]); its fields may be followed by further ones; of a malformed line the fields before the first
    unacceptable one count.  [d'] is the registration data afterwards. *)
Inductive reports (bits : Z) (cb : bool) : at_data -> list (reg_type * list Z) -> at_data -> Prop :=
| rs_nil d : reports bits cb d [] d
| rs_good d urc rt raw pre ts vs extra st d1 ev l d' : rt <> REG_UNKNOWN -> leading urc pre -> report_line raw (pre ++ ts ++ extra) ->
    fields_text (layout rt) ts vs -> pre ++ ts <> [] -> (extra = [] \/ length ts = length (layout rt)) ->
    ParseRegStatus bits cb (Some raw) urc rt d = Ok (st, d1, ev) -> reports bits cb d1 l d' -> reports bits cb d ((rt, vs) :: l) d'
| rs_bad d urc rt raw pre ts vs f bad after st d1 ev l d' : rt <> REG_UNKNOWN -> leading urc pre ->
    report_line raw (pre ++ ts ++ bad :: after) -> fields_text (layout rt) ts vs -> nth_error (layout rt) (length ts) = Some f ->
    field_bad f bad -> (bad <> [] \/ after <> []) ->
    ParseRegStatus bits cb (Some raw) urc rt d = Ok (st, d1, ev) -> reports bits cb d1 l d' -> reports bits cb d ((rt, vs) :: l) d'.
(** The access technology after such a history: that of the last report that has one, unless a later one says "not registered"
    without giving one; "invalid" (255) at first. *)
Definition technology (l : list (reg_type * list Z)) : Z :=
  fold_left (fun r x => match given (fst x) (snd x) F_ACT with
                        | Some v => known_act v
                        | None => if not_registered (fst x) (snd x) then 255%Z else r
                        end) l 255%Z.

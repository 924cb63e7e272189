(** The registration data of the library (pContext->libAtData) shared between the reader thread, which records registration reports and
    answers, and application threads, which copy it: /repo/source/cellular_3gpp_urc_handler.c:713-924 (stores, one by one),
    cellular_3gpp_api.c:1468-1494 (copies, one by one), cellular_common.c:807-829, under libAtDataMutex (cellular_3gpp_api.c:2103-2117).

    An interleaving system: one action per store, load or mutex operation. *)
From Coq Require Import List NArith ZArith Bool Arith.
From Verif Require Import Bytes AtCore Status RegStatus.
Import ListNotations.

(** The members of cellularAtData_t, /repo/source/include/private/cellular_common_internal.h:91-104. *)
Inductive field := FRat | FCs | FPs | FCsRejType | FCsRejCause | FPsRejType | FPsRejCause | FCellId | FLac | FRac | FTac.
(** Load of a member. *)
Definition get (d : at_data) (f : field) : Z :=
  match f with
  | FRat => d_rat d | FCs => d_cs d | FPs => d_ps d | FCsRejType => d_csRejType d | FCsRejCause => d_csRejCause d
  | FPsRejType => d_psRejType d | FPsRejCause => d_psRejCause d | FCellId => d_cellId d | FLac => d_lac d | FRac => d_rac d | FTac => d_tac d
  end.
(** Store to a member. *)
Definition put (d : at_data) (f : field) (v : Z) : at_data :=
  match f with
  | FRat => set_rat d v | FCs => set_cs d v | FPs => set_ps d v | FCsRejType => set_csRejType d v | FCsRejCause => set_csRejCause d v
  | FPsRejType => set_psRejType d v | FPsRejCause => set_psRejCause d v | FCellId => set_cellId d v | FLac => set_lac d v
  | FRac => set_rac d v | FTac => set_tac d v
  end.
(** A sequence of stores. *)
Definition trace := list (field * Z).
(** The data after them. *)
Definition puts (tr : trace) (d : at_data) : at_data := fold_left (fun d s => put d (fst s) (snd s)) tr d.

Section Stores.
Variable bits : Z.   (* width of long *)
Local Open Scope Z_scope.

(** cellular_3gpp_api.c:2137-2140 _Cellular_InitAtData, mode 1: four stores. *)
Definition init_stores : trace := [(FLac, 65535); (FCellId, 4294967295); (FRat, RATN_INVALID); (FRac, 255)].

(** The stores of the seven parsing functions, cellular_3gpp_urc_handler.c:119-431 (their results: RegStatus.v). *)
Definition token_stores (p : reg_pos) (rt : reg_type) (tok : str) (d : at_data) : pkt_status * trace :=
  let int base ok (f : Z -> trace) :=
    match get_int bits tok base ok with (AT_SUCCESS, v) => (PKT_OK, f v) | (e, _) => (TranslateAtCoreStatus e, []) end in
  match p with
  | POS_STAT =>                                                       (* 119-182 *)
      int 10%N (fun v => (0 <=? v) && (v <? REG_STATUS_MAX))
        (fun v => (match rt with REG_CREG => FCs | _ => FPs end, v) :: (if v =? 1 then [] else if v =? 5 then [] else init_stores))
  | POS_LAC_TAC =>                                                    (* 186-227 *)
      int 16%N (fun v => (0 <=? v) && (v <=? 65535)) (fun v => [(match rt with REG_CREG | REG_CGREG => FLac | _ => FTac end, v)])
  | POS_CELL_ID => int 16%N (fun v => 0 <=? v) (fun v => [(FCellId, v)])    (* 231-255 *)
  | POS_RAT =>                                                        (* 259-296 *)
      int 10%N (fun v => negb ((RATN_MAX <=? v) || (v <? 0)))
        (fun v => [(FRat, if (v =? 0) || (v =? 3) || (v =? 8) || (v =? 9) then v else if v =? 7 then 7 else RATN_INVALID)])
  | POS_REJ_TYPE =>                                                   (* 300-347 *)
      int 10%N uint8_ok (fun v => match rt with
                                | REG_CGREG | REG_CEREG => if d_ps d =? REG_DENIED then [(FPsRejType, v)] else []
                                | _ => if d_cs d =? REG_DENIED then [(FCsRejType, v)] else []
                                end)
  | POS_REJ_CAUSE =>                                                  (* 351-398 *)
      int 10%N uint8_ok (fun v => match rt with
                                | REG_CGREG | REG_CEREG => if d_ps d =? REG_DENIED then [(FPsRejCause, v)] else []
                                | _ => if d_cs d =? REG_DENIED then [(FCsRejCause, v)] else []
                                end)
  | POS_RAC => int 16%N uint8_ok (fun v => [(FRac, v)])                     (* 402-431 *)
  | POS_NET_REG | POS_NONE => (PKT_OK, [])
  end.

(** cellular_3gpp_urc_handler.c:490-608: the position decides. *)
Definition stores_at (rt : reg_type) (i : N) (tok : str) (d : at_data) : pkt_status * trace :=
  match nth_error (parsingTable rt) (N.to_nat i) with None => (PKT_OK, []) | Some p => token_stores p rt tok d end.

(** cellular_3gpp_urc_handler.c:806-823, as [reg_loop]: the stores of the whole loop. *)
Fixpoint loop_stores (fuel : nat) (rt : reg_type) (i : N) (tok : str) (rest : option str) (d : at_data) : trace :=
  match fuel with
  | O => []
  | S f =>
      let i' := ((i + 1) mod 256)%N in
      let '(st, tr) := stores_at rt i' tok d in
      match st with
      | PKT_OK =>
          match ATGetNextTok rest with
          | (AT_SUCCESS, rest', Some tok') => tr ++ loop_stores f rt i' tok' rest' (puts tr d)
          | _ => tr
          end
      | _ => tr
      end
  end.

(** A message of the modem that reports registration: a URC (Cellular_CommonUrcProcessCreg and its siblings,
    cellular_3gpp_urc_handler.c:847-924) or a line of the answer to a query (cellular_3gpp_api.c:821-846). *)
Inductive message := Urc (rt : reg_type) (payload : option str) | AnswerLine (rt : reg_type) (line : str).
(** What _Cellular_ParseRegStatus is called with, if it is called. *)
Definition parse_args (m : message) : option (option str * bool * reg_type) :=
  match m with
  | Urc rt p => Some (p, true, rt)
  | AnswerLine rt l =>
      if regResponseIsUrc l then match ATRemovePrefix (Some l) with (AT_SUCCESS, l') => Some (l', true, rt) | _ => None end
      else Some (Some l, false, rt)
  end.
(** The registration type of a message. *)
Definition msg_type (m : message) : reg_type := match m with Urc rt _ | AnswerLine rt _ => rt end.

(** The stores of cellular_3gpp_urc_handler.c:713-842 _Cellular_ParseRegStatus.  (The loop also loads psRegStatus and csRegStatus, 327,
    338, 378, 388; only the reader stores, so the values are those of the moment the message is begun, updated by its own stores.) *)
Definition parse_stores (payload : option str) (isUrc : bool) (rt : reg_type) (d : at_data) : trace :=
  match payload, rt with
  | None, _ | _, REG_UNKNOWN => []
  | Some s0, _ =>
      match ATRemoveAllDoubleQuote (Some s0) with
      | (AT_SUCCESS, s1) =>
          match ATRemoveAllWhiteSpaces s1 with
          | (AT_SUCCESS, s2) =>
              match ATGetNextTok s2 with
              | (AT_SUCCESS, rest, Some tok) => loop_stores REG_FUEL rt (if isUrc then 1 else 0)%N tok rest d
              | _ => []
              end
          | _ => []
          end
      | _ => []
      end
  end.
(** All stores of one message. *)
Definition msg_stores (m : message) (d : at_data) : trace :=
  match parse_args m with None => [] | Some (p, u, rt) => parse_stores p u rt d end.

(** What an application thread does: Cellular_GetServiceStatus's copy (cellular_3gpp_api.c:1486-1494), its look at the PS status
    (1468-1470), _Cellular_GetCurrentRat (cellular_common.c:824-826). *)
Inductive op := OpService | OpPsStatus | OpRat.
(** The loads, in the order of the code. *)
Definition loads (o : op) : list field :=
  match o with
  | OpService => [FRat; FCs; FPs; FCsRejCause; FCsRejType; FPsRejCause; FPsRejType]
  | OpPsStatus => [FPs]
  | OpRat => [FRat]
  end.

(** An application thread: not in a call; waiting for the mutex; copying ([todo]: loads to come, [got]: values so far); about to unlock.
    [from]: how many messages had been recorded when the call began. *)
Inductive apc :=
| Out
| Want (o : op) (from : nat)
| Copy (o : op) (from : nat) (todo : list field) (got : list Z)
| Leave (o : op) (from : nat) (got : list Z).
(** The reader: elsewhere; waiting for the mutex with a message; storing (with csRegStatus, psRegStatus of before, 803-804); deciding on
    the callback (831); about to unlock. *)
Inductive rpc :=
| Idle
| WantR (m : message)
| Store (m : message) (prevCs prevPs : Z) (todo : trace)
| Report (m : message) (prevCs prevPs : Z)
| LeaveR.
(** Who holds libAtDataMutex. *)
Inductive who := Reader | App (i : nat).

(** What can be seen: a copy returned to thread [i] (of call [o], begun after [from] messages, returned after [upto]), and a call of the
    registration callback (after [upto] messages). *)
Inductive seen :=
| Got (i : nat) (o : op) (from upto : nat) (vals : list Z)
| Called (upto : nat) (e : reg_event).

(** Shared data, mutex, reader, threads; [recorded]: the messages whose last store is done; [obs]: what was seen. *)
Record state := { data : at_data; owner : option who; rdr : rpc; apps : list apc; recorded : list message; obs : list seen }.
(** cellular_common.c:187-189 libOpen, before the reader is started. *)
Definition init (n : nat) : state :=
  {| data := at_data0; owner := None; rdr := Idle; apps := repeat Out n; recorded := []; obs := [] |}.

(** Replace an element. *)
Fixpoint set_nth (l : list apc) (i : nat) (x : apc) : list apc :=
  match l, i with [], _ => [] | _ :: t, O => x :: t | y :: t, Datatypes.S j => y :: set_nth t j x end.
(** Store to the members of the state. *)
Definition with_app (s : state) (i : nat) (a : apc) (ow : option who) (o : list seen) : state :=
  {| data := data s; owner := ow; rdr := rdr s; apps := set_nth (apps s) i a; recorded := recorded s; obs := obs s ++ o |}.
(** The reader moves on. *)
Definition with_rdr (s : state) (d : at_data) (ow : option who) (r : rpc) (rec : list message) (o : list seen) : state :=
  {| data := d; owner := ow; rdr := r; apps := apps s; recorded := rec; obs := obs s ++ o |}.

(** Actions: a thread calls; a thread's next step; a message arrives at the reader; the reader's next step ([cb]: is a registration
    callback registered when it looks). *)
Inductive label := LCall (i : nat) (o : op) | LApp (i : nat) | LMsg (m : message) | LReader (cb : bool).
(** One action; [None]: not possible (now). *)
Definition step (l : label) (s : state) : option state :=
  match l with
  | LCall i o =>
      match nth_error (apps s) i with
      | Some Out => Some (with_app s i (Want o (length (recorded s))) (owner s) [])
      | _ => None
      end
  | LApp i =>
      match nth_error (apps s) i with
      | Some (Want o from) =>
          match owner s with None => Some (with_app s i (Copy o from (loads o) []) (Some (App i)) []) | Some _ => None end
      | Some (Copy o from (f :: todo) got) => Some (with_app s i (Copy o from todo (got ++ [get (data s) f])) (owner s) [])
      | Some (Copy o from [] got) => Some (with_app s i (Leave o from got) (owner s) [])
      | Some (Leave o from got) => Some (with_app s i Out None [Got i o from (length (recorded s)) got])
      | _ => None
      end
  | LMsg m => match rdr s with Idle => Some (with_rdr s (data s) (owner s) (WantR m) (recorded s) []) | _ => None end
  | LReader cb =>
      match rdr s with
      | Idle => None
      | WantR m =>
          match owner s with
          | None => Some (with_rdr s (data s) (Some Reader) (Store m (d_cs (data s)) (d_ps (data s)) (msg_stores m (data s))) (recorded s) [])
          | Some _ => None
          end
      | Store m pc pp ((f, v) :: todo) => Some (with_rdr s (put (data s) f v) (owner s) (Store m pc pp todo) (recorded s) [])
      | Store m pc pp [] => Some (with_rdr s (data s) (owner s) (Report m pc pp) (recorded s ++ [m]) [])
      | Report m pc pp =>             (* 831-834 *)
          let es := if RegEventStatus (data s) (msg_type m) pc pp then generateEvent (msg_type m) cb (data s) else [] in
          Some (with_rdr s (data s) (owner s) LeaveR (recorded s) (map (Called (length (recorded s))) es))
      | LeaveR => Some (with_rdr s (data s) None Idle (recorded s) [])
      end
  end.
(** A sequence of actions. *)
Fixpoint run (ls : list label) (s : state) : option state :=
  match ls with [] => Some s | l :: t => match step l s with Some s' => run t s' | None => None end end.
(** Reachable states, with [n] application threads. *)
Definition reach (n : nat) (s : state) : Prop := exists ls, run ls (init n) = Some s.
End Stores.

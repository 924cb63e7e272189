(** Properties C16, C82, C83 with time passing while lines arrive: commands time out, others are sent, at any moment between two lines
    (models: Pktio.v, G3pp.v, Wire.v). *)
From Coq Require Import String List NArith ZArith Bool Arith Lia.
From Verif Require Import Bytes AtCore SpecAt Status Pktio SpecPktio SpecStream RegStatus G3pp SpecG3ppApi Wire SpecWire WireProofs SpecTimed PktioTimed Properties_Pktio Properties_Wire.
From Verif Require Request.
Import ListNotations.
Local Open Scope string_scope.
Local Open Scope list_scope.

(** ** C16: whatever the fragmentation, and whatever commands are set up or time out in the meantime, the lines of the stream are
    dispatched one by one, in order, each exactly once and according to what is in flight when it is processed; up to the first line
    that is refused (C23).  Text of 1600 bytes (in general [cap]) without a line end does not fit the buffer and is dropped.
    Excluded: reads that find the buffer full while an answer is being collected (C20). *)
Theorem c16_lines_are_dispatched_over_time_partial : forall cap fuel env t cs t' h' s', text_env env ->
  execution cap fuel env t [] (rx0 cap) cs t' h' s' -> exists ls, received cap env t cs t' h' ls.
Proof. intros. eapply text_received; eassumption. Qed.

(** The same chunk by chunk, and also after refused lines: of the chunk that completes a refused line the rest is lost, and with it the
    lines collected for the command in flight; nothing else is. *)
Theorem c23_all_text_accounted_for_partial : forall cap fuel env t cs t' h' s', text_env env ->
  execution cap fuel env t [] (rx0 cap) cs t' h' s' -> text_processed cap env t [] [] [] cs t' h'.
Proof. intros. eapply text_complete; eassumption. Qed.

(** Unless a line has [cap] characters or more, these are the lines of the stream; and the executions considered include those of the
    other theorems about streams. *)
Fixpoint shorter_lines (cap : nat) (n : nat) (S : str) : Prop :=
  match S with
  | [] => True
  | c :: t => if (c =? 0)%N || (c =? 13)%N || (c =? 10)%N then shorter_lines cap 0 t else (Datatypes.S n < cap)%nat /\ shorter_lines cap (Datatypes.S n) t
  end.
Theorem c16_capped_lines_are_lines : forall cap S, shorter_lines cap 0 S -> capped_lines cap [] S = stream_lines [] S.
Proof.
  intros cap S. change 0%nat with (@length N []). generalize (@nil N). induction S as [|c S IH]; intros acc H; [reflexivity|]. cbn [shorter_lines capped_lines stream_lines] in *.
  destruct ((c =? 0) || (c =? 13) || (c =? 10))%N; [rewrite (IH [] H); reflexivity|]. destruct H as [H1 H2].
  assert (L : length (acc ++ [c]) = Datatypes.S (length acc)) by (rewrite app_length; cbn; lia).
  destruct (Nat.eqb_spec (length (acc ++ [c])) cap); [lia|]. apply IH. rewrite L. exact H2.
Qed.
Theorem c16_runs_are_executions : forall cap fuel env t h s cs t' h' s', run cap fuel env t h s cs t' h' s' -> execution cap fuel env t h s cs t' h' s'.
Proof. induction 1 as [|t h s recv k t1 h1 s1 cs t2 h2 s2 RC RM EV RUN IH]; [constructor|]. econstructor; [exact RC| |exact EV|exact IH]. destruct RM as [RM|[_ RM]]; auto. Qed.

(** 1700 bytes without a line end, then a URC: the first 1600 are dropped, the last 100 are a line of their own (refused here), and the
    URC is dispatched. *)
Definition long_env : environment := always (sample_view T_NO_COMMAND None None).
Definition long_chunks : list str := [repeat 97%N 1000; repeat 97%N 600; []; repeat 97%N 100 ++ crlf; s2b "+CREG: 1" ++ crlf].
Ltac feed_ex := match goal with |- execution _ _ _ _ _ ?s (?c :: _) _ _ _ => replace c with (chunk c (offered code_cap s)) by (vm_compute; reflexivity) end;
  eapply ex_read; [apply chunk_contract|first [right; vm_compute; reflexivity|left; vm_compute; discriminate]|vm_compute; reflexivity|].
Example c16_long_ex : exists t' s', execution code_cap 2000 long_env 0 [] (rx0 code_cap) long_chunks t' [EvUndef (repeat 97%N 100); EvDrop; EvUrc (s2b "+CREG: 1")] s' /\
  fst (capped_lines code_cap [] (concat long_chunks)) = [repeat 97%N 100; s2b "+CREG: 1"].
Proof. eexists _, _. split; [unfold long_chunks; do 5 feed_ex; apply ex_nil|vm_compute; reflexivity]. Qed.

(** ** C19: chunk independence of text, over-long lines included. *)
Theorem c19_text_chunking_is_irrelevant_partial : forall cap fuel1 fuel2 env t1 t2 cs1 cs2 t1' t2' h1 h2 s1 s2, text_env env -> (forall t h, env t h = env 0%nat h) ->
  concat cs1 = concat cs2 -> execution cap fuel1 env t1 [] (rx0 cap) cs1 t1' h1 s1 -> execution cap fuel2 env t2 [] (rx0 cap) cs2 t2' h2 s2 ->
  before_drop h1 = before_drop h2 /\ (In EvDrop h1 <-> In EvDrop h2).
Proof.
  intros cap fuel1 fuel2 env t1 t2 cs1 cs2 t1' t2' h1 h2 s1 s2 HE TI E R1 R2. destruct (text_received cap env HE _ _ _ _ _ _ R1) as (l1 & A). destruct (text_received cap env HE _ _ _ _ _ _ R2) as (l2 & B).
  eapply received_once; eassumption.
Qed.
Print Assumptions c19_text_chunking_is_irrelevant_partial.

(** ** C82: API results, with time-outs. *)

(** Bytes in whatever chunks; [ls]: the lines as the reader dispatches them.  Whenever the first of them answer, or fail to answer in
    time, the requests of the call as the modem [m] does, the call has the same result and outputs as with [m].
    Missing from the full claim: a read that finds the buffer full while an answer is collected (see c82_full_buffer_refuted), and calls
    that go on after a request that timed out with part of its answer received (C29). *)
Theorem c82_result_with_time_outs_partial : forall A f, api_function A f -> forall m x, f m = Ok x ->
  forall cap fuel env t cs t' h' s', text_env env -> execution cap fuel env t [] (rx0 cap) cs t' h' s' ->
  exists ls, received cap env t cs t' h' ls /\
  forall l1 l2 ws, ls = l1 ++ l2 -> timed_session env m [] [] (sent x) l1 ws ->
    (exists y, h' = concat ws ++ y) /\ f (window_modem ws) = Ok x.
Proof.
  intros A f AF m x F cap fuel env t cs t' h' s' HE RUN. destruct (text_received cap env HE _ _ _ _ _ _ RUN) as (ls & R). exists ls. split; [exact R|].
  intros l1 l2 ws E SE. split.
  - destruct R as (h1 & a1 & _ & DP & OUT). rewrite E in DP. destruct (dispatched_split env _ _ _ _ _ _ DP) as (h2 & a2 & D1 & D2).
    destruct (tsession_dispatched env _ _ _ _ _ _ SE) as (ps & D3). destruct (dispatched_det env _ _ _ _ _ D3 _ _ D1) as [Q _]. cbn [app] in Q. rewrite <- Q in D2.
    destruct (dispatched_grow env _ _ _ _ _ D2) as (y & Y). destruct OUT as [[-> _]|(k & l & rest & z & _ & _ & ->)]; [eauto|]. rewrite Y, <- app_assoc. eauto.
  - apply (causal_api _ _ AF m); [exact F|]. intros h1 q t1 Q. exact (tsession_answers env _ _ _ _ _ _ SE [] eq_refl h1 q t1 Q).
Qed.

(** Cellular_GetRegisteredNetwork: the first request is answered; of the second answer only the information line arrives in time, the
    call times out; the late "OK" finds no command in flight and is refused. *)
Definition idle_view : view :=
  {| v_inbuf := None; v_send := None; v_data := None; v_tokens := sample_tokens; v_cmd := T_NO_COMMAND; v_prefix := None; v_cmd2 := T_NO_COMMAND;
     v_handler := true; v_undef := fun _ => PKT_INVALID_DATA |}.
Definition slow_env : environment := fun t h => if (t <? 4)%nat then ex_env 0%nat h else idle_view.
Definition slow_modem : modem := fun h => match h with [_] => Answered [] | _ => NoAnswer true end.
Definition slow_chunks : list str := [crlf ++ s2b "OK" ++ crlf; s2b "+COPS: 0,2,""26201"",7" ++ crlf; s2b "OK" ++ crlf].
Definition slow_lines : list arrival := [(0%nat, s2b "OK"); (2%nat, s2b "+COPS: 0,2,""26201"",7")].
Lemma slow_text : text_env slow_env.
Proof.
  intros t h. unfold slow_env. destruct (t <? 4)%nat.
  - destruct (ex_stream_env 0%nat h) as (_ & A & B & C & D & E & F & _). split; [exact A|]. split; [exact B|].
    split; [unfold ex_env, back_to_back; destruct (nth_error _ _); reflexivity|]. auto.
  - cbn. repeat (split; [reflexivity|]). split; [exact sample_tables|]. split; [discriminate|reflexivity].
Qed.
Example c82_timed_ex : exists t' h' s', run code_cap 2000 slow_env 0 [] (rx0 code_cap) slow_chunks t' h' s' /\
  received code_cap slow_env 0 slow_chunks t' h' slow_lines /\ timed_session slow_env slow_modem [] [] [req_cops32; req_cops] slow_lines [[EvResp true []]; []] /\
  ex_call slow_modem = Ok {| sent := [req_cops32; req_cops]; ret := C_TIMEOUT; out := Some {| p_mcc := repeat 7%N 4; p_mnc := repeat 7%N 4 |} |} /\
  ex_call (window_modem [[EvResp true []]; []]) = ex_call slow_modem /\ In EvDrop h'.
Proof.
  assert (NU : forall l, (exists c t, l = c :: t /\ c <> 82%N) -> ~ in_table (tk_urc_wo_prefix sample_tokens) l).
  { intros l (c & t & -> & NC) (k & Q & I). injection Q as <-. destruct I as [I|[]]. inversion I; subst. apply NC. reflexivity. }
  assert (OKL : line_of_command sample_tokens T_NO_RESULT None (s2b "OK")).
  { split; [apply NU; eexists _, _; split; [reflexivity|discriminate]|]. split; [discriminate|]. intros [_ (a & b & E & _)]. discriminate. }
  assert (CPL : line_of_command sample_tokens T_WITH_PREFIX (Some (s2b "+COPS")) (s2b "+COPS: 0,2,""26201"",7")).
  { split; [apply NU; eexists _, _; split; [reflexivity|discriminate]|]. split; [discriminate|]. intros _. eexists. split; [reflexivity|]. exists (s2b ": 0,2,""26201"",7"). reflexivity. }
  assert (CPP : plain_line sample_tokens (s2b "+COPS: 0,2,""26201"",7")).
  { split; [apply not_success; reflexivity|]. apply not_matches. reflexivity. }
  eexists _, _, _. split; [unfold slow_chunks; do 3 feed; apply run_nil|]. split; [|split; [|split; [reflexivity|split; [vm_compute; reflexivity|right; right; left; reflexivity]]]].
  - exists [EvResp true []], [s2b "+COPS: 0,2,""26201"",7"]. split; [cbn; lia|]. split; [|right].
    + eapply dp_cons; [apply ls_success; [exact OKL|exact ok_success]|]. eapply (dp_cons _ _ _ _ _ [] [s2b "+COPS: 0,2,""26201"",7"]); [apply ls_single; [exact CPL|exact CPP|right; reflexivity|reflexivity]|]. apply dp_nil.
    + exists 4%nat, (s2b "OK"), [], []. split; [vm_compute; reflexivity|]. split; [|reflexivity]. split; [|discriminate]. left.
      split; [apply NU; eexists _, _; split; [reflexivity|discriminate]|]. split; [reflexivity|]. intros [_ (a & b & E & _)]. discriminate.
  - eapply (ts_cons _ _ [] [] req_cops32 [req_cops] [(0%nat, s2b "OK")] [(2%nat, s2b "+COPS: 0,2,""26201"",7")] [EvResp true []] [[]]).
    + apply (tr_success slow_env req_cops32 [] []); [split; reflexivity|exact OKL|exact ok_success].
    + eapply ts_last. eapply tr_line; [split; reflexivity|exact CPL|exact CPP|right; split; [right; reflexivity|reflexivity]|]. apply tr_none.
Qed.

(** ** C83: Cellular_ATCommandRaw, with time-outs. *)

(** The outcome, from the bytes: error result code: failure, callback not run; success: callback run once on exactly the lines of the
    answer, its verdict decides; no final line in time: TIMEOUT, callback not run. *)
Theorem c83_raw_outcome_with_time_outs_partial : forall A lib prefix cmd t (cb : list str -> A -> res (pkt_status * A)) (a : A), lib_ok lib -> sendable cmd t prefix ->
  forall cap fuel env t0 cs t' h' s', text_env env -> execution cap fuel env t0 [] (rx0 cap) cs t' h' s' ->
  exists ls, received cap env t0 cs t' h' ls /\
  forall l1 l2 ans w ps, ls = l1 ++ l2 -> timed_reply env {| rq_cmd := cmd; rq_type := t; rq_prefix := prefix |} [] [] l1 ans w ps ->
  (exists y, h' = w ++ y) /\
  (ans = Refused -> exists x y, ATCommandRaw lib (window_modem [w]) prefix (Some cmd) t (Some cb) a = Ok x /\ ret x = C_INTERNAL_FAILURE /\ out x = a /\
                    ATCommandRaw lib (window_modem [w]) prefix (Some cmd) t None a = Ok y /\ ret y = C_INTERNAL_FAILURE /\ out y = a) /\
  (ans = NoAnswer true -> exists x y, ATCommandRaw lib (window_modem [w]) prefix (Some cmd) t (Some cb) a = Ok x /\ ret x = C_TIMEOUT /\ out x = a /\
                    ATCommandRaw lib (window_modem [w]) prefix (Some cmd) t None a = Ok y /\ ret y = C_TIMEOUT /\ out y = a) /\
  (forall lines, ans = Answered lines ->
     (forall st a', cb lines a = Ok (st, a') -> exists x, ATCommandRaw lib (window_modem [w]) prefix (Some cmd) t (Some cb) a = Ok x /\ ret x = TranslatePktStatus st /\ out x = a') /\
     (exists y, ATCommandRaw lib (window_modem [w]) prefix (Some cmd) t None a = Ok y /\ ret y = C_SUCCESS /\ out y = a)).
Proof.
  intros A lib prefix cmd t cb a LO SD cap fuel env t0 cs t' h' s' HE RUN. destruct (text_received cap env HE _ _ _ _ _ _ RUN) as (ls & R). exists ls. split; [exact R|].
  intros l1 l2 ans w ps E RP. split.
  { destruct R as (h1 & a1 & _ & DP & OUT). rewrite E in DP. destruct (dispatched_split env _ _ _ _ _ _ DP) as (h2 & a2 & D1 & D2).
    destruct (dispatched_det env _ _ _ _ _ (treply_dispatched env _ _ _ _ _ _ _ RP) _ _ D1) as [Q _]. rewrite <- Q in D2.
    destruct (dispatched_grow env _ _ _ _ _ D2) as (y & Y). destruct OUT as [[-> _]|(k & l & rest & z & _ & _ & ->)]; [eauto|]. rewrite Y, <- app_assoc. eauto. }
  set (q := {| rq_cmd := cmd; rq_type := t; rq_prefix := prefix |}) in *.
  assert (W : window_modem [w] [q] = ans) by exact (treply_window' env q [] [] l1 ans w ps RP).
  assert (SC : exists e, Request.send_check cmd t prefix = inr e).
  { destruct SD as (L & NC & NP). unfold Request.send_check, needs_prefix in *. destruct (N.ltb_spec 200 (N.of_nat (length cmd))) as [Q|Q]; [lia|].
    destruct t, prefix; first [destruct NC; reflexivity | exfalso; apply NP; auto; fail | eexists; reflexivity]. }
  destruct SC as (e & SC). unfold ATCommandRaw. unfold lib_ok in LO. rewrite LO, SC. unfold finish, request. cbn [app]. fold q. rewrite W. split; [|split].
  - intros ->. eexists _, _. repeat split.
  - intros ->. eexists _, _. repeat split.
  - intros lines ->. split; [intros st a' ->; eexists; repeat split|eexists; repeat split].
Qed.
Example c83_timed_ex : sendable (s2b "AT+COPS?") T_WITH_PREFIX (Some (s2b "+COPS")) /\ timed_reply slow_env req_cops [EvResp true []] [] [(2%nat, s2b "+COPS: 0,2,""26201"",7")] (NoAnswer true) [EvResp true []] [s2b "+COPS: 0,2,""26201"",7"].
Proof.
  split; [split; [cbn; lia|split; discriminate]|]. eapply tr_line; [split; reflexivity| | |right; split; [right; reflexivity|reflexivity]|apply tr_none].
  - split; [|split; [discriminate|]].
    + intros (k & Q & I). injection Q as <-. destruct I as [I|[]]. discriminate.
    + intros _. eexists. split; [reflexivity|]. exists (s2b ": 0,2,""26201"",7"). reflexivity.
  - split; [apply not_success; reflexivity|]. apply not_matches. reflexivity.
Qed.

Print Assumptions c16_lines_are_dispatched_over_time_partial.
Print Assumptions c82_result_with_time_outs_partial.
Print Assumptions c83_raw_outcome_with_time_outs_partial.
Print Assumptions c23_all_text_accounted_for_partial.
Print Assumptions c16_capped_lines_are_lines.
Print Assumptions c16_runs_are_executions.

(** Property theorems: the whole request path on bytes (C99, C100). *)
From Coq Require Import String List NArith ZArith Bool Arith Lia.
From Verif Require Import Bytes AtCore Status SpecAt AtProofs Pktio SpecPktio PktioLine SpecStream PktioStream Request SpecRequest SpecAnswers RequestInv RequestFull.
From Verif Require Import Properties_Request Properties_Answers Whole SpecWhole WholeProofs.
Import ListNotations.
Local Open Scope string_scope.
Local Open Scope list_scope.

(** ** C99 *)
Section C99.
Variables (cap : nat) (tt : token_table) (pfxs : list str) (n : nat) (wl : list wlabel) (lbs : list label).
Hypothesis S : Sim cap tt pfxs n wl lbs.
Lemma status_of_command id r st : command_answer tt pfxs n lbs id r st -> command_status cap tt pfxs n wl id r st.
Proof.
  destruct S as (_ & E & C).
  assert (K : forall ls l, complete_response tt lbs id r ls l -> complete_answer tt wl id r ls l) by (intros ls l (body & Q & D); exists body; rewrite <- E; auto).
  intros [body l Q1 Q2|ls l Q1 Q2|ls l s Q1 Q2 Q3].
  - apply (cs_error cap tt pfxs n wl id r body l); [rewrite <- E; exact Q1|exact Q2].
  - apply (cs_ok cap tt pfxs n wl id r ls l); auto.
  - apply (cs_callback cap tt pfxs n wl id r ls l s); auto.
Qed.
Lemma result_of_call id r st : outcome tt pfxs n lbs id r st -> must_return cap tt pfxs n wl id r st.
Proof.
  destruct S as (_ & E & _). intro O. destruct O; rewrite ?E in *.
  - apply mr_table; assumption.
  - apply mr_no_command; assumption.
  - apply mr_not_sendable; assumption.
  - apply mr_silent; assumption.
  - apply mr_command; auto using status_of_command.
  - eapply mr_no_data; eauto using status_of_command.
  - eapply mr_data_short; eauto using status_of_command.
  - eapply mr_data_silent; eauto using status_of_command.
  - match goal with H : data_answer _ _ _ _ |- _ => rename H into D end.
    eapply mr_data; eauto using status_of_command. destruct D as [l Q1 Q2|l Q1 Q2]; rewrite E in Q1; [eapply ds_error|eapply ds_ok]; eauto.
Qed.
End C99.

(** Threads, reader and comm interface together, on bytes: in every run with a modem that answers in the announced format, in which
    time-outs strike only transmissions that left nothing behind, whatever the fragments in which the bytes are delivered and whatever the
    interleaving of the threads with the reader: every call that returned, returned exactly the status that its request and the bytes the
    modem sent in answer to it (and the result of its response callback) determine. *)
Theorem c99_calls_return_what_the_bytes_say : forall cap tt pfxs n wl w, tables_ok (tokens_now tt None) -> (forall q, In q pfxs -> at_len_ok q) ->
  wrun cap tt (conforming_bytes cap tt pfxs) (winit cap n) wl w ->
  forall c st o, In (Returned c st o) (log (w_core w)) -> nth_error (calls_made wl) (c_id c) = Some (c_req c) /\ must_return cap tt pfxs n wl (c_id c) (c_req c) st.
Proof.
  intros cap tt pfxs n wl w T P R c st o I0. destruct (simulation cap tt pfxs T P n wl w R) as (lbs & rest & LR & SI & _).
  destruct (c85_calls_return_what_the_modem_said tt pfxs n lbs _ T P LR c st o I0) as (A & B). destruct SI as (CL & SI2). rewrite CL in A. split; [exact A|].
  eapply result_of_call; [split; eassumption|exact B].
Qed.
Print Assumptions c99_calls_return_what_the_bytes_say.

(** What a response callback reads out of the receive buffer is the complete response: every line the modem sent in answer, in order,
    byte for byte, nothing else. *)
Theorem c99_response_is_complete : forall cap tt pfxs n wl w, tables_ok (tokens_now tt None) -> (forall q, In q pfxs -> at_len_ok q) ->
  wrun cap tt (conforming_bytes cap tt pfxs) (winit cap n) wl w ->
  forall id ls l, In (Delivered id ls l) (log (w_core w)) -> exists r, nth_error (calls_made wl) id = Some r /\ rq_cb r = true /\ complete_answer tt wl id r ls l.
Proof.
  intros cap tt pfxs n wl w T P R id ls l I0. destruct (simulation cap tt pfxs T P n wl w R) as (lbs & rest & LR & (CL & SE & _) & _).
  destruct (c85_response_is_complete tt pfxs n lbs _ T P LR id ls l I0) as (r & A & B & (body & Q & D)). exists r. rewrite <- CL. split; [exact A|]. split; [exact B|].
  exists body. rewrite <- SE. auto.
Qed.
Print Assumptions c99_response_is_complete.

(** Each call returns at most once and its callback is called at most once. *)
Theorem c99_at_most_once : forall cap tt pfxs n wl w, tables_ok (tokens_now tt None) -> (forall q, In q pfxs -> at_len_ok q) ->
  wrun cap tt (conforming_bytes cap tt pfxs) (winit cap n) wl w -> NoDup (returned_ids (log (w_core w))) /\ NoDup (delivered_ids (log (w_core w))).
Proof.
  intros cap tt pfxs n wl w T P R. destruct (simulation cap tt pfxs T P n wl w R) as (lbs & rest & LR & _). destruct (c85_at_most_once tt n lbs (w_core w)) as (A & B). split.
  - apply A. eapply run_weaken; [|exact LR]. intros; exact I.
  - apply (B pfxs T P LR).
Qed.
Print Assumptions c99_at_most_once.

(** In such a run the reader never resets its buffer, and no action touches memory outside it. *)
Theorem c99_no_undefined_behaviour : forall cap tt pfxs n wl w, tables_ok (tokens_now tt None) -> (forall q, In q pfxs -> at_len_ok q) ->
  wrun cap tt (conforming_bytes cap tt pfxs) (winit cap n) wl w ->
  (forall l, rd (w_core w) <> RUndef l) /\ rd (w_core w) <> RCrashed /\
  forall lb r, conforming_bytes cap tt pfxs w lb -> wexec cap tt lb w = Some r -> exists w', r = Ok w'.
Proof.
  intros cap tt pfxs n wl w T P R. destruct (simulation cap tt pfxs T P n wl w R) as (lbs & rest & LR & _ & PV & SM & _).
  destruct (c85_nothing_is_unexpected tt pfxs n lbs _ T P LR) as (A & B). split; [exact A|]. split; [exact B|].
  intros lb r (RM & _) E. destruct (wstep cap tt lb w rest r T SM PV RM E) as (w' & _ & Q & _). eauto.
Qed.
Print Assumptions c99_no_undefined_behaviour.

(** No complete answer is lost: while a thread waits and all bytes of its answer have been sent (and what is still undelivered fits into
    the rest of the receive buffer), actions of the reader alone (36 per line under way suffice, however much of the answer has been
    delivered already) end the wait. *)
Theorem c99_answer_ends_the_wait : forall cap tt pfxs n wl w i p g body l, tables_ok (tokens_now tt None) -> (forall q, In q pfxs -> at_len_ok q) ->
  wrun cap tt (conforming_bytes cap tt pfxs) (winit cap n) wl w -> fits_buffer cap w ->
  nth_error (ths (w_core w)) i = Some p -> awaits p g -> answered wl g = body ++ [l] -> l_last l = true ->
  exists more w', Forall reader_action more /\ (length more <= 36 * (length (wire (w_core w)) + 1))%nat /\ wrun cap tt (conforming_bytes cap tt pfxs) w more w' /\
    nth_error (ths (w_core w')) i = Some p /\ exists w2, wexec cap tt (WApp (LThread i)) w' = Some (Ok w2).
Proof. intros. eapply answer_ends; eassumption. Qed.
Print Assumptions c99_answer_ends_the_wait.

(** ** C100 *)
(** Whatever bytes arrive, in whatever fragments, under every schedule (each read finding room): no action of any thread touches memory
    outside the receive buffer or reads past a terminator (a call through a cleared response callback is C31). *)
Theorem c100_buffer_accesses_are_defined : forall cap tt n wl w, tables_ok (tokens_now tt None) -> wrun cap tt (any_bytes cap) (winit cap n) wl w ->
  forall lb r, any_bytes cap w lb -> wexec cap tt lb w = Some r -> exists w', r = Ok w'.
Proof.
  intros cap tt n wl w T R lb r (RM & _) E. destruct (simulation_any cap tt T n wl w R) as (lbs & rest & _ & _ & PV & SM & _).
  destruct (wstep cap tt lb w rest r T SM PV RM E) as (w' & _ & Q & _). eauto.
Qed.
Print Assumptions c100_buffer_accesses_are_defined.
(** ... at most one request is in flight; hooks and response callback are installed only during their request; a request returns at most
    once, with the status of its own call; and when no request is in flight (and none returned SEND_ERROR) no command is pending. *)
Theorem c100_requests_stay_separate : forall cap tt n wl w, tables_ok (tokens_now tt None) -> wrun cap tt (any_bytes cap) (winit cap n) wl w ->
  (forall i j p q, nth_error (ths (w_core w)) i = Some p -> nth_error (ths (w_core w)) j = Some q -> in_flight p -> in_flight q -> i = j) /\
  (forall i c p, nth_error (ths (w_core w)) i = Some p -> command_phase c p -> installed (w_core w) = supplied (c_req c)) /\
  NoDup (returned_ids (log (w_core w))) /\ (forall c st o, In (Returned c st o) (log (w_core w)) -> nth_error (calls_made wl) (c_id c) = Some (c_req c)) /\
  ((forall i p, nth_error (ths (w_core w)) i = Some p -> ~ in_flight p) ->
     installed (w_core w) = (None, None, None) /\ cb (w_core w) = None /\ ((forall c o, ~ In (Returned c PKT_SEND_ERROR o) (log (w_core w))) -> typ (w_core w) = T_NO_COMMAND)).
Proof.
  intros cap tt n wl w T R. destruct (simulation_any cap tt T n wl w R) as (lbs & rest & LR & CL & _).
  split; [exact (c27_one_request_in_flight tt n lbs _ LR)|]. split; [exact (proj1 (c32_hooks_only_during_their_request tt n lbs _ LR))|].
  split; [apply (proj1 (c85_at_most_once tt n lbs _) LR)|]. split; [intros c st o I0; rewrite <- CL; apply (i_ret _ _ (run_ids _ _ _ _ _ LR) c st o I0)|].
  intro NF. destruct (c32_nothing_left_behind tt n lbs _ LR NF) as (A & B). split; [exact A|]. split; [exact B|]. exact (c30_idle_means_no_command_partial tt n lbs _ LR NF).
Qed.
Print Assumptions c100_requests_stay_separate.

(** ** Non-triviality: a run on bytes *)
Fixpoint wexec_all (cap : nat) (tt : token_table) (lbs : list wlabel) (w : whole) : option whole :=
  match lbs with [] => Some w | lb :: r => match wexec cap tt lb w with Some (Ok w1) => wexec_all cap tt r w1 | _ => None end end.
Inductive walk (cap : nat) (tt : token_table) (ok : whole -> wlabel -> Prop) : whole -> list wlabel -> Prop :=
| walk_nil w : walk cap tt ok w []
| walk_cons w lb r w1 : wexec cap tt lb w = Some (Ok w1) -> ok w lb -> walk cap tt ok w1 r -> walk cap tt ok w (lb :: r).
Lemma wrun_walk cap tt ok lbs w w' : walk cap tt ok w lbs -> wexec_all cap tt lbs w = Some w' -> wrun cap tt ok w lbs w'.
Proof.
  intro W. revert w'. induction W as [w|w lb r w1 E O W IH]; intros w' X; cbn in X; [injection X as <-; constructor|]. rewrite E in X.
  apply (wrun_trans cap tt ok w [lb] w1 r w'); [apply wrun_one; assumption|apply IH; exact X].
Qed.

Definition crlf : list N := [13%N; 10%N].
Definition says (l : line) : wlabel := WSend (crlf ++ l_text l ++ crlf) (Some l).
Definition wreads (k : nat) : list wlabel := WScan :: repeat (WLine LReader) k.
(** Thread 0 asks with a response callback; the answer (two lines and OK, a URC in between) arrives in pieces of 7, 9, 100 bytes; meanwhile
    thread 1 calls; then its command and its data are answered; then thread 0 calls again and times out. *)
Definition run99 : list wlabel :=
  map WApp (start 0 q_multi) ++ [says (ans "+COPS: 1" 0 false false); WRead 7; WScan; WApp (LCall 1 q_data); says (urc "+CREG: 1"); WRead 9] ++ wreads 2 ++
  [says (ans "+COPS: 2" 0 false false)] ++ repeat (WLine LReader) 2 ++ [WScan; says (ans "OK" 0 false true); WRead 100] ++ wreads 3 ++ wreads 4 ++ wreads 7 ++
  [WLine (LCbReturns PKT_OK); WLine LReader; WScan; WApp (LThread 0)] ++ map WApp (finish 0) ++
  map WApp (repeat (LThread 1) 5) ++ [says (ans "OK" 1 false true); WRead 5] ++ wreads 7 ++ map WApp (repeat (LThread 1) 5) ++
  [WScan; says (ans "ERROR" 1 true true); WRead 100] ++ wreads 7 ++ [WScan] ++ map WApp (repeat (LThread 1) 3) ++
  map WApp (start 0 q_plain) ++ [WApp (LGiveUp (2%nat, false)); WApp (LTimeout 0)] ++ map WApp (finish 0).
Ltac spell_ok := exists crlf, crlf; split; [reflexivity|]; split; [repeat constructor; unfold eol; cbn; lia|]; split; [repeat constructor; unfold eol; cbn; lia|]; split; [discriminate|]; split; [discriminate|];
  unfold line_text; cbn; repeat constructor; unfold eol; cbn; lia.
Ltac conform_ok := unfold conforming_runs, tidy_runs; cbn [w_core]; split; [split; [label_ok|split; label_ok]|conf_ok].
Ltac room_ok := lazymatch goal with |- reads_with_room _ _ (WRead _) => left; vm_compute; discriminate | |- _ => exact I end.
Ltac bytes_ok := split; [room_ok|]; lazymatch goal with
  | |- exists l, Some ?x = Some l /\ _ => exists x; split; [reflexivity|]; split; [spell_ok|conform_ok]
  | |- True => exact I
  | |- _ => conform_ok
  end.
Ltac wstep_run :=
  lazymatch goal with
  | |- walk _ _ _ _ [] => constructor
  | |- walk ?cap ?tt ?ok ?w (?lb :: ?r) =>
      let x := eval vm_compute in (wexec cap tt lb w) in
      lazymatch x with
      | Some (Ok ?w1) => apply (walk_cons cap tt ok w lb r w1); [vm_compute; reflexivity|cbn [conforming_bytes any_bytes]|]
      end
  end.
Lemma run99_ok : exists w, wrun 80 tt0 (conforming_bytes 80 tt0 pfx0) (winit 80 2) run99 w /\
  log (w_core w) = [ Returned {| c_id := 2; c_req := q_plain |} PKT_TIMED_OUT None;
            Returned {| c_id := 1; c_req := q_data |} PKT_FAILURE (Some {| q_st := PKT_FAILURE; q_line := ans "ERROR" 1 true true; q_ok := false; q_cb := None |});
            Returned {| c_id := 0; c_req := q_multi |} PKT_OK (Some {| q_st := PKT_OK; q_line := ans "OK" 0 false true; q_ok := true; q_cb := Some PKT_OK |});
            Delivered 0 [ans "+COPS: 1" 0 false false; ans "+COPS: 2" 0 false false] (ans "OK" 0 false true) ].
Proof.
  destruct (wexec_all 80 tt0 run99 (winit 80 2)) as [w|] eqn:E; [|vm_compute in E; discriminate]. exists w. split.
  - apply wrun_walk; [|exact E]. clear E w. let r := eval vm_compute in run99 in change run99 with r.
    let s0 := eval vm_compute in (winit 80 2) in change (winit 80 2) with s0.
    repeat (wstep_run; [bytes_ok|]). constructor.
  - vm_compute in E. injection E as <-. reflexivity.
Qed.
Example c99_ex : exists w, wrun 80 tt0 (conforming_bytes 80 tt0 pfx0) (winit 80 2) run99 w /\ length (log (w_core w)) = 4%nat /\
  calls_made run99 = [q_multi; q_data; q_plain] /\ answered run99 (0%nat, false) = [ans "+COPS: 1" 0 false false; ans "+COPS: 2" 0 false false; ans "OK" 0 false true] /\
  answered run99 (1%nat, false) = [ans "OK" 1 false true] /\ answered run99 (1%nat, true) = [ans "ERROR" 1 true true] /\ answered run99 (2%nat, false) = [].
Proof. destruct run99_ok as (w & R & L). exists w. split; [exact R|]. rewrite L. repeat split. Qed.
(** A state in which a thread waits for an answer all of whose bytes have been sent, part of them delivered (the reader is in the middle of
    the first line). *)
Definition run99b : list wlabel := map WApp (start 0 q_multi) ++ [says (ans "+COPS: 1" 0 false false); WRead 12; WScan; says (ans "OK" 0 false true); WLine LReader].
Example c99_wait_ex : exists w, wrun 80 tt0 (conforming_bytes 80 tt0 pfx0) (winit 80 1) run99b w /\ fits_buffer 80 w /\
  nth_error (ths (w_core w)) 0 = Some (Wait {| c_id := 0; c_req := q_multi |}) /\ awaits (Wait {| c_id := 0; c_req := q_multi |}) (0%nat, false) /\
  answered run99b (0%nat, false) = [ans "+COPS: 1" 0 false false] ++ [ans "OK" 0 false true] /\ queue (w_core w) = None /\ length (w_fifo w) = 6%nat /\ w_at w = Working 2 10 8.
Proof.
  destruct (wexec_all 80 tt0 run99b (winit 80 1)) as [w|] eqn:E; [|vm_compute in E; discriminate]. exists w. split.
  - apply wrun_walk; [|exact E]. clear E w. let r := eval vm_compute in run99b in change run99b with r.
    let s0 := eval vm_compute in (winit 80 1) in change (winit 80 1) with s0.
    repeat (wstep_run; [bytes_ok|]). constructor.
  - vm_compute in E. injection E as <-. split; [vm_compute; lia|]. repeat split. eexists. left. split; reflexivity.
Qed.
(** Arbitrary bytes: garbage in the middle of a request, taken for an answer, while another thread waits for the lock. *)
Definition run100 : list wlabel :=
  map WApp (start 0 q_plain ++ [LCall 1 q_plain]) ++ [WSend [0%N; 255%N; 13%N; 79%N] None; WRead 3; WScan; WLine LReader; WLine LReader; WApp (LTimeout 0)] ++ map WApp (finish 0) ++
  map WApp (repeat (LThread 1) 3).
Example c100_ex : exists w, wrun 16 tt0 (any_bytes 16) (winit 16 2) run100 w /\ w_at w = Working 1 2 1 /\ w_fifo w = [79%N] /\ length (log (w_core w)) = 1%nat /\
  exists r, any_bytes 16 w (WLine LReader) /\ wexec 16 tt0 (WLine LReader) w = Some r.
Proof.
  destruct (wexec_all 16 tt0 run100 (winit 16 2)) as [w|] eqn:E; [|vm_compute in E; discriminate]. exists w. split.
  - apply wrun_walk; [|exact E]. clear E w. let r := eval vm_compute in run100 in change run100 with r.
    let s0 := eval vm_compute in (winit 16 2) in change (winit 16 2) with s0.
    repeat (wstep_run; [split; [room_ok|cbn; first [exact I|reflexivity|intros ? X; discriminate X]]|]). constructor.
  - vm_compute in E. injection E as <-. repeat split. eexists. split; [split; exact I|]. reflexivity.
Qed.

(** ** Agreement of the reader with that of Pktio.v *)
(** What a pass of the reader sees of the shared variables, when nothing changes them during the pass. *)
Definition sees (tt : token_table) (c : Request.state) (v : view) : Prop :=
  v_inbuf v = None /\ v_send v = None /\ v_data v = None /\ v_tokens v = tokens_now tt (extra c) /\ v_cmd v = typ c /\ v_cmd2 v = typ c /\
  v_prefix v = (if puse c then Some (pbuf c) else None) /\ v_handler v = true.
(** Actions of the reader and of the handlers it calls. *)
Definition reader_acts (lb : wlabel) : Prop := match lb with WScan | WLine _ => True | _ => False end.
(** What the dispatched events did to the threads' state [c], giving [c']. *)
Definition dispatch (c c' : Request.state) (ev : list event) : Prop :=
  match ev with
  | [EvResp ok ts] =>      (* the callback, if any, read the lines; a status was posted; the response and the command are cleared *)
      typ c' = T_NO_COMMAND /\ puse c' = false /\ resp c' = None /\ queue c' <> None /\ (queue c <> None -> queue c' = queue c) /\
      match ok, cb c with
      | true, Some id => exists ls l, log c' = Delivered id ls l :: log c /\ map l_text ls = ts
      | _, _ => log c' = log c
      end
  | [EvUndef _; EvDrop] => typ c' = T_NO_COMMAND /\ puse c' = false /\ resp c' = None /\ queue c' = queue c /\ log c' = log c
  | _ => typ c' = typ c /\ puse c' = puse c /\ queue c' = queue c /\ log c' = log c
  end.

Definition always (w : whole) (lb : wlabel) : Prop := True.
Lemma wcons cap tt lb w w1 r w2 : wexec cap tt lb w = Some (Ok w1) -> wrun cap tt always w1 r w2 -> wrun cap tt always w (lb :: r) w2.
Proof. intros A B. apply (wrun_trans cap tt always w [lb] w1 r w2); [apply wrun_one; [exact I|exact A]|exact B]. Qed.
Lemma retext_texts ls : forall ts, map l_text (retext ls ts) = ts.
Proof.
  induction ls as [|x ls IH]; intro ts.
  - induction ts as [|t ts IHt]; [reflexivity|]. cbn. f_equal. exact IHt.
  - destruct ts as [|t ts]; [reflexivity|]. cbn. f_equal. apply IH.
Qed.

(** If nothing else happens meanwhile, the actions of the reader on the bytes it holds are one pass of the loop of Pktio.v: same buffer,
    same place in it, same events. *)
Theorem whole_reader_agrees : forall cap tt w v line0 n0 sod ev out sod2,
  w_at w = Scanning line0 n0 -> rd (w_core w) = RIdle -> sees tt (w_core w) v -> rx_dlen (w_rx w) = 0%nat ->
  pass cap v (w_rx w) line0 n0 sod = Ok (ev, out, sod2) ->
  exists more w', wrun cap tt always w more w' /\ Forall reader_acts more /\ w_fifo w' = w_fifo w /\ ths (w_core w') = ths (w_core w) /\
    dispatch (w_core w) (w_core w') ev /\ rd (w_core w') = RIdle /\
    match out with
    | Next x line n => w_rx w' = x /\ w_at w' = Scanning line n
    | Stop x => w_rx w' = x /\ w_at w' = Waiting
    end.
Proof.
  intros cap tt w v line0 n0 sod ev out sod2 HA RI (V1 & V2 & V3 & V4 & V5 & V6 & V7 & V8) DL E. destruct w as [c x fifo at_]. cbn [w_core w_rx w_fifo w_at] in *. subst at_.
  unfold pass, preprocessInputBuffer, preprocessLine in E. rewrite V1, V2, V3 in E.
  destruct (skip_eol (rx_buf x) line0 n0) as [[line1 n1]| |] eqn:SK; cbn [bind] in E; try discriminate.
  destruct (n1 =? 0)%nat eqn:N1.
  { injection E as <- <- <-. apply Nat.eqb_eq in N1. subst n1. exists [WScan]. eexists. split; [eapply wcons; [cbn [wexec w_at]; unfold scan; cbn [w_rx w_core w_fifo]; rewrite SK; reflexivity|constructor]|].
    split; [repeat constructor|]. cbn. auto 10. }
  cbn [bind] in E. destruct (find_eol (rx_buf x) line1 n1) as [[i|]| |] eqn:FE; cbn [bind] in E; try discriminate.
  2:{ injection E as <- <- <-. exists [WScan]. eexists. split; [eapply wcons; [cbn [wexec w_at]; unfold scan; cbn [w_rx w_core w_fifo]; rewrite SK; cbn [bind]; rewrite N1, FE; reflexivity|constructor]|].
    split; [repeat constructor|]. cbn. auto 10. }
  destruct (st (rx_buf x) (line1 + i) 0%N) as [m| |] eqn:ST; cbn [bind] in E; try discriminate.
  destruct (cstr_get m line1) as [txt|] eqn:CS; cbn [bind] in E; [|discriminate].
  set (l := match wire c with g :: _ => {| l_text := txt; l_from := l_from g; l_last := l_last g |} | [] => {| l_text := txt; l_from := None; l_last := false |} end).
  assert (LT : l_text l = txt) by (unfold l; destruct (wire c); reflexivity).
  set (x1 := set_buf x m) in *. set (c1 := set_wire (tl (wire c)) c).
  assert (C1 : wexec cap tt WScan {| w_core := c; w_rx := x; w_fifo := fifo; w_at := Scanning line0 n0 |} =
               Some (Ok {| w_core := set_rd (RGot l) c1; w_rx := x1; w_fifo := fifo; w_at := Working line1 n1 i |})).
  { cbn [wexec w_at]. unfold scan. cbn [w_rx w_core w_fifo]. rewrite SK. cbn [bind]. rewrite N1, FE. cbn [bind]. rewrite ST. cbn [bind]. rewrite CS. reflexivity. }
  (* up to the classification *)
  rewrite V5, V7 in E.
  assert (GM : getMsgType (v_tokens v) (typ c) txt (if puse c then Some (pbuf c) else None) = getMsgType tt (typ c) txt (if puse c then Some (pbuf c) else None)) by (rewrite V4; reflexivity).
  rewrite GM in E. clear GM. set (mt := getMsgType tt (typ c) txt (if puse c then Some (pbuf c) else None)) in *.
  set (wm := {| w_core := set_rd (RMsg l mt) c1; w_rx := x1; w_fifo := fifo; w_at := Working line1 n1 i |}).
  assert (UP : forall r w2, wrun cap tt always wm r w2 -> wrun cap tt always {| w_core := c; w_rx := x; w_fifo := fifo; w_at := Scanning line0 n0 |} (WScan :: WLine LReader :: WLine LReader :: r) w2).
  { intros r w2 R. eapply wcons; [exact C1|]. eapply wcons; [reflexivity|]. eapply wcons; [|exact R]. cbn. rewrite LT. reflexivity. }
  clear C1 SK FE ST.
  destruct (handleMsgType cap v mt x1 line1 txt) as [[[[st0 mt1] ev0] x2]| |] eqn:HM; cbn [bind] in E; try discriminate.
  unfold handleMsgType in HM. rewrite V6, V8, V4 in HM.
  (* the undefined-message handler *)
  assert (UNDEF : forall r cu xu (st1 : pkt_status), wrun cap tt always wm r {| w_core := cu; w_rx := xu; w_fifo := fifo; w_at := Working line1 n1 i |} -> Forall reader_acts r -> rd cu = RUndef l ->
     typ cu = typ c -> puse cu = puse c -> queue cu = queue c -> log cu = log c -> ths cu = ths c -> rx_dlen xu = 0%nat ->
     match v_undef v txt with
     | PKT_OK => Ok (PKT_OK, AT_UNDEFINED, [] ++ [EvUndef txt], xu)
     | _ => Ok (PKT_INVALID_DATA, AT_UNDEFINED, ([] ++ [EvUndef txt]) ++ [EvDrop], Pktio.set_resp (reset_buf cap xu) None)
     end = Ok (st0, mt1, ev0, x2) ->
     exists more w', wrun cap tt always {| w_core := c; w_rx := x; w_fifo := fifo; w_at := Scanning line0 n0 |} more w' /\ Forall reader_acts more /\ w_fifo w' = fifo /\ ths (w_core w') = ths c /\
       dispatch c (w_core w') ev /\ rd (w_core w') = RIdle /\
       match out with Next x line n => w_rx w' = x /\ w_at w' = Scanning line n | Stop x => w_rx w' = x /\ w_at w' = Waiting end).
  { intros r cu xu st1 R FR RU U1 U2 U3 U4 U5 UD H.
    assert (REF : forall k, wexec cap tt (WLine (LUndef false k)) {| w_core := cu; w_rx := xu; w_fifo := fifo; w_at := Working line1 n1 i |} =
      Some (Ok {| w_core := set_rd RIdle (set_wire (skipn k (wire cu)) (set_resp None (set_typ T_NO_COMMAND (set_puse false cu)))); w_rx := Pktio.set_resp (reset_buf cap xu) None; w_fifo := fifo; w_at := Waiting |})).
    { intro k. cbn [wexec w_at]. unfold line_action. cbn [w_core w_rx w_fifo]. rewrite RU. reflexivity. }
    assert (OKK : wexec cap tt (WLine (LUndef true 0)) {| w_core := cu; w_rx := xu; w_fifo := fifo; w_at := Working line1 n1 i |} = Some (next_line (set_rd RIdle cu) xu fifo line1 n1 i PKT_OK AT_UNDEFINED)).
    { cbn [wexec w_at]. unfold line_action. cbn [w_core w_rx w_fifo]. rewrite RU. reflexivity. }
    destruct (v_undef v txt); injection H as <- <- <- <-.
    1: { unfold next_line in OKK. destruct (getNextLine xu line1 n1 i PKT_OK AT_UNDEFINED) as [[y|y ln nn]| |]; cbn [bind] in E, OKK; try discriminate; injection E as <- <- <-;
         (eexists _, _; split; [apply UP; eapply wrun_trans; [exact R|eapply wcons; [exact OKK|constructor]]|]; split; [repeat constructor; apply Forall_app; split; [exact FR|repeat constructor]|]; cbn; auto 10). }
    all: injection E as <- <- <-; eexists _, _; (split; [apply UP; eapply wrun_trans; [exact R|eapply wcons; [exact (REF 0%nat)|constructor]]|]; split; [repeat constructor; apply Forall_app; split; [exact FR|repeat constructor]|]; cbn; auto 10). }
  destruct mt eqn:MT; cbn [bind] in HM.
  - (* a line of the response *)
    set (r0 := match rx_resp x1 with Some r => r | None => AtResponseNew end) in HM.
    destruct (ProcessLine (tokens_now tt (extra c)) line1 txt r0 (typ c)) as [[st1 r1]| |] eqn:PL; cbn [bind] in HM; try discriminate.
    set (ls := match resp c with Some y => y | None => [] end).
    set (ls' := if (length (r_items r1) =? length (r_items r0))%nat then ls else ls ++ [l]).
    set (x' := Pktio.set_resp x1 (Some r1)) in *. set (c' := set_resp (Some ls') (set_rd (RTyp l (typ c)) c1)).
    assert (S1 : wexec cap tt (WLine LReader) wm = Some (Ok {| w_core := set_rd (RTyp l (typ c)) c1; w_rx := x1; w_fifo := fifo; w_at := Working line1 n1 i |})) by reflexivity.
    assert (S2 : wexec cap tt (WLine LReader) {| w_core := set_rd (RTyp l (typ c)) c1; w_rx := x1; w_fifo := fifo; w_at := Working line1 n1 i |} =
      Some (match st1 with
            | PKT_OK => Ok {| w_core := set_rd (RDone (r_status r1) ls' l) c'; w_rx := x'; w_fifo := fifo; w_at := Working line1 n1 i |}
            | PKT_PENDING_BUFFER | PKT_PENDING_DATA => next_line (set_rd RIdle c') x' fifo line1 n1 i st1 AT_SOLICITED
            | _ => Ok {| w_core := set_rd (RUndef l) c'; w_rx := x'; w_fifo := fifo; w_at := Working line1 n1 i |}
            end)).
    { cbn [wexec w_at line_action w_core rd set_rd]. unfold process_line. cbn [w_core w_rx w_fifo]. change (extra (set_rd (RTyp l (typ c)) c1)) with (extra c). change (resp (set_rd (RTyp l (typ c)) c1)) with (resp c).
      fold r0 ls. rewrite LT, PL. reflexivity. }
    destruct st1; cbn [bind] in HM.
    all: try (eapply (UNDEF [WLine LReader; WLine LReader] (set_rd (RUndef l) c') x' PKT_OK);
              [eapply wcons; [exact S1|]; eapply wcons; [exact S2|constructor]|repeat constructor|reflexivity..|exact DL|exact HM]).
    + (* complete *)
      destruct (deliver (rx_buf x1) (r_items r1)) as [cs| |] eqn:DE; cbn [bind] in HM; try discriminate. injection HM as <- <- <- <-. cbn [bind] in E.
      set (ch := set_rd (RHandle (r_status r1) ls' l) (set_typ T_NO_COMMAND (set_puse false (set_rd (RDone (r_status r1) ls' l) c')))).
      assert (S3 : wexec cap tt (WLine LReader) {| w_core := set_rd (RDone (r_status r1) ls' l) c'; w_rx := x'; w_fifo := fifo; w_at := Working line1 n1 i |} = Some (Ok {| w_core := ch; w_rx := x'; w_fifo := fifo; w_at := Working line1 n1 i |})) by reflexivity.
      (* the status is posted *)
      assert (POST : forall r cp s b, wrun cap tt always {| w_core := ch; w_rx := x'; w_fifo := fifo; w_at := Working line1 n1 i |} r {| w_core := cp; w_rx := x'; w_fifo := fifo; w_at := Working line1 n1 i |} -> Forall reader_acts r ->
        rd cp = RPost s l (r_status r1) b -> typ cp = T_NO_COMMAND -> puse cp = false -> queue cp = queue c -> ths cp = ths c ->
        match r_status r1, cb c with true, Some id => exists ls l, log cp = Delivered id ls l :: log c /\ map l_text ls = cs | _, _ => log cp = log c end ->
        exists more w', wrun cap tt always {| w_core := c; w_rx := x; w_fifo := fifo; w_at := Scanning line0 n0 |} more w' /\ Forall reader_acts more /\ w_fifo w' = fifo /\ ths (w_core w') = ths c /\
          dispatch c (w_core w') ev /\ rd (w_core w') = RIdle /\
          match out with Next x line n => w_rx w' = x /\ w_at w' = Scanning line n | Stop x => w_rx w' = x /\ w_at w' = Waiting end).
      { intros r cp s b R FR RP P1 P2 P3 P4 P5.
        set (cq := match queue cp with None => set_queue (Some {| q_st := s; q_line := l; q_ok := r_status r1; q_cb := b |}) (set_rd RIdle (set_resp None cp)) | Some _ => set_rd RIdle (set_resp None cp) end).
        assert (S5 : wexec cap tt (WLine LReader) {| w_core := cp; w_rx := x'; w_fifo := fifo; w_at := Working line1 n1 i |} = Some (next_line cq (Pktio.set_resp x1 None) fifo line1 n1 i PKT_OK AT_SOLICITED)).
        { cbn [wexec w_at]. unfold line_action. cbn [w_core w_rx w_fifo]. rewrite RP. reflexivity. }
        assert (Q1 : typ cq = T_NO_COMMAND /\ puse cq = false /\ resp cq = None /\ queue cq <> None /\ (queue c <> None -> queue cq = queue c) /\ log cq = log cp /\ ths cq = ths c /\ rd cq = RIdle).
        { unfold cq. destruct (queue cp) eqn:QQ; cbn; repeat (split; [first [assumption|reflexivity|congruence|discriminate]|]); auto. }
        destruct Q1 as (Q1 & Q2 & Q3 & Q4 & Q5 & Q6 & Q7 & Q8). unfold next_line in S5.
        destruct (getNextLine (Pktio.set_resp x1 None) line1 n1 i PKT_OK AT_SOLICITED) as [[y|y ln nn]| |]; cbn [bind] in E, S5; try discriminate; injection E as <- <- <-;
          (eexists _, _; split; [apply UP; eapply wcons; [exact S1|]; eapply wcons; [exact S2|]; eapply wcons; [exact S3|]; eapply wrun_trans; [exact R|eapply wcons; [exact S5|constructor]]|];
           split; [repeat constructor; apply Forall_app; split; [exact FR|repeat constructor]|]; cbn [w_core w_rx w_fifo w_at dispatch]; repeat (split; [first [reflexivity|assumption]|]); split; [|auto];
           rewrite Q6; repeat (split; [assumption|]); exact P5). }
      destruct (r_status r1) eqn:RS; [destruct (cb c) as [id|] eqn:CB|].
      * eapply (POST [WLine LReader; WLine LReader; WLine (LCbReturns PKT_OK)] _ PKT_OK (Some PKT_OK)).
        -- eapply wcons; [unfold ch; cbn; rewrite CB; reflexivity|]. eapply wcons; [cbn; rewrite CB; cbn [Pktio.set_resp rx_resp rx_buf x']; cbn; cbn in DE; rewrite DE; reflexivity|]. eapply wcons; [reflexivity|]. constructor.
        -- repeat constructor.
        -- reflexivity.
        -- reflexivity.
        -- reflexivity.
        -- reflexivity.
        -- reflexivity.
        -- cbn. eexists _, l. split; [reflexivity|]. apply retext_texts.
      * eapply (POST [WLine LReader] _ PKT_OK None); [eapply wcons; [unfold ch; cbn; rewrite CB; reflexivity|constructor]|repeat constructor|reflexivity..].
      * eapply (POST [WLine LReader] _ PKT_FAILURE None); [eapply wcons; [reflexivity|constructor]|repeat constructor|reflexivity..].
    + injection HM as <- <- <- <-. cbn [bind] in E. unfold next_line in S2.
      destruct (getNextLine x' line1 n1 i PKT_PENDING_DATA AT_SOLICITED) as [[y|y ln nn]| |]; cbn [bind] in E, S2; try discriminate; injection E as <- <- <-;
        (eexists _, _; split; [apply UP; eapply wcons; [exact S1|]; eapply wcons; [exact S2|constructor]|]; split; [repeat constructor|]; cbn; auto 10).
    + injection HM as <- <- <- <-. cbn [bind] in E. unfold next_line in S2. change (rx_dlen x') with (rx_dlen x) in E. rewrite DL in E. cbn [Nat.eqb negb] in E.
      destruct (getNextLine x' line1 n1 i PKT_PENDING_BUFFER AT_SOLICITED) as [[y|y ln nn]| |]; cbn [bind] in E, S2; try discriminate; injection E as <- <- <-;
        (eexists _, _; split; [apply UP; eapply wcons; [exact S1|]; eapply wcons; [exact S2|constructor]|]; split; [repeat constructor|]; cbn; auto 10).
  - (* a URC *)
    injection HM as <- <- <- <-. cbn [bind] in E.
    assert (S1 : wexec cap tt (WLine LReader) wm = Some (next_line (set_rd RIdle c1) x1 fifo line1 n1 i PKT_OK AT_UNSOLICITED)) by reflexivity. unfold next_line in S1.
    destruct (getNextLine x1 line1 n1 i PKT_OK AT_UNSOLICITED) as [[y|y ln nn]| |]; cbn [bind] in E, S1; try discriminate; injection E as <- <- <-;
      (eexists _, _; split; [apply UP; eapply wcons; [exact S1|constructor]|]; split; [repeat constructor|]; cbn; auto 10).
  - (* unexpected *)
    eapply (UNDEF [WLine LReader] (set_rd (RUndef l) c1) x1 PKT_OK); [eapply wcons; [reflexivity|constructor]|repeat constructor|reflexivity..|exact DL|exact HM].
Qed.
Print Assumptions whole_reader_agrees.
(** Reading and preparing the buffer is the first part of _handleRxDataEvent of Pktio.v; the loop goes on from there. *)
Theorem whole_read_agrees : forall cap k w w' fuel env t h, read_bytes cap k w = Ok w' ->
  handleRxDataEvent cap fuel env t h (w_rx w) (fun space => firstn (Nat.min k space) (w_fifo w)) =
  match w_at w' with
  | Scanning line n => do q <- handleAllReceived cap fuel env t h (w_rx w') line n None;
                       let '(t', h', s) := q in Ok ((match ReadLine cap (w_rx w) (fun space => firstn (Nat.min k space) (w_fifo w)) with Ok (_, b, _) => b | _ => 0%nat end), t', h', s)
  | _ => Ok ((match ReadLine cap (w_rx w) (fun space => firstn (Nat.min k space) (w_fifo w)) with Ok (_, b, _) => b | _ => 0%nat end), t, h, w_rx w')
  end.
Proof.
  intros cap k w w' fuel env t h E. unfold read_bytes in E. unfold handleRxDataEvent. destruct (ReadLine _ _ _) as [[[pl b] s1]| |]; cbn [bind] in *; try discriminate.
  destruct (0 <? b)%nat eqn:B.
  - destruct pl as [line|]; [|discriminate]. destruct (if negb _ then _ else _) as [[[l2 lf] s2]| |]; cbn [bind] in *; try discriminate.
    destruct (0 <? lf)%nat; [|injection E as <-; reflexivity]. destruct (st _ _ _) as [m| |]; cbn [bind] in *; try discriminate. injection E as <-. reflexivity.
  - injection E as <-. cbn. apply Nat.ltb_ge in B. replace b with 0%nat by lia. reflexivity.
Qed.
Print Assumptions whole_read_agrees.
(** Their hypotheses are met: two lines of an answer have been read; the first pass collects the first line. *)
Definition run_ag : list wlabel := map WApp (start 0 q_multi) ++ [says (ans "+COPS: 1" 0 false false); says (ans "OK" 0 false true); WRead 100].
Definition view_ag (c : Request.state) : view :=
  {| v_inbuf := None; v_send := None; v_data := None; v_tokens := tokens_now tt0 (extra c); v_cmd := typ c; v_prefix := if puse c then Some (pbuf c) else None; v_cmd2 := typ c;
     v_handler := true; v_undef := fun _ => PKT_OK |}.
Example whole_agrees_ex : exists w line n x line' n', wexec_all 80 tt0 run_ag (winit 80 1) = Some w /\ w_at w = Scanning line n /\ rd (w_core w) = RIdle /\ sees tt0 (w_core w) (view_ag (w_core w)) /\
  pass 80 (view_ag (w_core w)) (w_rx w) line n None = Ok ([], Next x line' n', None) /\ (0 < n')%nat.
Proof.
  destruct (wexec_all 80 tt0 run_ag (winit 80 1)) as [w|] eqn:E; [|vm_compute in E; discriminate]. vm_compute in E. injection E as <-.
  eexists _, _, _, _, _, _. split; [reflexivity|]. split; [reflexivity|]. split; [reflexivity|]. split; [repeat split|]. split; [vm_compute; reflexivity|]. lia.
Qed.

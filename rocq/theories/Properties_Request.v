(** Property theorems: requests under every schedule (C27-C32, C68). *)
From Coq Require Import String List NArith ZArith Bool Arith Lia.
From Verif Require Import Bytes AtCore Status SpecAt AtProofs Pktio SpecPktio PktioLine SpecStream SendCmd SendProofs Request SpecRequest RequestInv RequestTidy RequestLive.
From Verif Require Properties_Send.
Import ListNotations.
Local Open Scope string_scope.
Local Open Scope list_scope.

(** ** The line-level model of _Cellular_PktioSendAtCmd agrees with its memory-level model (SendCmd.v) *)
Theorem request_send_agrees : forall s send c t p, tx_wf s -> (forall q, p = Some q -> no_nul q /\ (length q <= 31)%nat) ->
  match send_check c t p with
  | inl st => PktioSendAtCmd (Some s) (Some send) (Some c) t p = Ok (st, [], Some s)
  | inr e => exists s', PktioSendAtCmd (Some s) (Some send) (Some c) t p = Ok (PKT_OK, [c ++ [13%N]], Some s') /\ tx_type s' = t /\ resp_prefix s' = Ok e
  end.
Proof.
  intros s send c t p W P. destruct (send_spec s send c t p W) as [A B].
  assert (CAT : {prefix_required t \/ prefix_optional t} + {~ (prefix_required t \/ prefix_optional t)}).
  { unfold prefix_required, prefix_optional. destruct t; (left; tauto) || (right; intros [[Q|[Q|Q]]|[Q|Q]]; discriminate). }
  assert (Y : forall e, sendable c t p -> expectation t p e -> exists s', PktioSendAtCmd (Some s) (Some send) (Some c) t p = Ok (PKT_OK, [c ++ [13%N]], Some s') /\ tx_type s' = t /\ resp_prefix s' = Ok e).
  { intros e SD (X1 & X2). destruct (A SD) as (s' & E1 & _ & T & _). exists s'. split; [exact E1|]. split; [exact T|].
    destruct (Properties_Send.c25_prefix_is_stored_partial s send c t p s' _ W P E1) as (e' & E2 & X1' & X2'). rewrite E2. f_equal.
    destruct CAT as [K|K]; [rewrite (X1 K), (X1' K)|rewrite (X2 K), (X2' K)]; reflexivity. }
  unfold send_check. destruct (200 <? N.of_nat (length c))%N eqn:L.
  - apply N.ltb_lt in L. apply B. unfold sendable. lia.
  - apply N.ltb_ge in L. assert (LC : (length c <= 200)%nat) by lia. clear L A CAT W.
    destruct t, p as [q|].
    all: try (apply Y; [split; [discriminate|split; [first [discriminate|intros [Q|[Q|Q]]; discriminate]|exact LC]]|split; intro K; first [reflexivity|exfalso; unfold prefix_required, prefix_optional in K; first [apply K; tauto|destruct K as [[K|[K|K]]|[K|K]]; discriminate]]]).
    all: apply B; intros (X & Z & _); first [apply X; reflexivity|apply Z; [unfold prefix_required; tauto|reflexivity]].
Qed.
Print Assumptions request_send_agrees.

(** ** C27 *)
(** For every number of threads, every schedule and every behaviour of modem and comm interface: at most one thread is inside a
    request (lock acquired, not yet returned), and a transmission happens only inside a request. *)
Theorem c27_one_request_in_flight : forall tt n lbs s, run tt anything (init n) lbs s ->
  forall i j p q, nth_error (ths s) i = Some p -> nth_error (ths s) j = Some q -> in_flight p -> in_flight q -> i = j.
Proof.
  intros tt n lbs s R i j p q EI EJ PI PJ. pose proof (run_inv tt _ _ _ _ R) as V.
  assert (HI : holding p = true) by (destruct p; try contradiction; reflexivity). assert (HJ : holding q = true) by (destruct q; try contradiction; reflexivity).
  pose proof (inv_excl s V i p EI HI). pose proof (inv_excl s V j q EJ HJ). congruence.
Qed.
Print Assumptions c27_one_request_in_flight.
(** A transmission (the modem gets something to answer) is an action of a thread inside a request, with no other thread inside one. *)
Theorem c27_transmissions_are_exclusive : forall tt n lbs s lb s', run tt anything (init n) lbs s -> exec tt lb s = Some s' ->
  (exists tr, In tr (pend s') /\ ~ In tr (pend s)) ->
  exists i p, nth_error (ths s) i = Some p /\ in_flight p /\ own i lb /\ forall j q, nth_error (ths s) j = Some q -> in_flight q -> j = i.
Proof.
  intros tt n lbs s lb s' R E (tr & I1 & I2). pose proof (c27_one_request_in_flight tt n lbs s R) as U.
  assert (K : pend s' = pend s -> False) by (intro Q; rewrite Q in I1; contradiction).
  assert (KS : (forall x, In x (pend s') -> In x (pend s)) -> False) by (intro Q; apply I2, Q, I1).
  destruct lb as [i r|i|i|i|i| |st|a k|l|g]; cbn [exec] in E.
  - exfalso; revert E. destruct (nth_error (ths s) i) as [[]|]; try discriminate. destruct (rq_kind r) as [|[t|]| | |]; intros [= <-]; apply K; reflexivity.
  - unfold thread_step in E. destruct (nth_error (ths s) i) as [p|] eqn:EP; [|discriminate].
    assert (DONE : in_flight p -> exists i0 p0, nth_error (ths s) i0 = Some p0 /\ in_flight p0 /\ i = i0 /\ forall j q, nth_error (ths s) j = Some q -> in_flight q -> j = i0).
    { intro F. exists i, p. repeat split; auto. intros j q EJ FJ. eapply U; eassumption. }
    destruct p; try discriminate; try (apply DONE; exact I). exfalso. destruct (mtx s); [discriminate|]. injection E as <-. apply K. reflexivity.
  - exfalso; revert E. destruct (nth_error (ths s) i) as [[]|]; try discriminate; intros [= <-]; apply K; reflexivity.
  - exfalso; revert E. destruct (nth_error (ths s) i) as [[]|]; try discriminate; intros [= <-]; apply K; reflexivity.
  - exfalso; revert E. destruct (nth_error (ths s) i) as [[]|]; try discriminate; intros [= <-]; apply K; reflexivity.
  - exfalso. unfold reader_step, reader_process in E. destruct (rd s); try discriminate.
    all: repeat match goal with H : match ?x with _ => _ end = Some _ |- _ => destruct x eqn:?; try discriminate end.
    all: injection E as <-; apply K; reflexivity.
  - exfalso; revert E. destruct (rd s); try discriminate. intros [= <-]. apply K; reflexivity.
  - exfalso; revert E. destruct (rd s); try discriminate. destruct a; intros [= <-]; apply K; reflexivity.
  - exfalso; revert E. intros [= <-]. apply KS. cbn. destruct (l_from l); [destruct (l_last l); [apply drop_in|]|]; auto.
  - exfalso; revert E. intros [= <-]. apply KS. cbn. apply drop_in.
Qed.
Print Assumptions c27_transmissions_are_exclusive.

(** ** C32 *)
(** What is installed: the extra success table and the two data callbacks. *)
Definition installed (s : state) : option (list str) * option nat * option nat := (extra s, dcb s, scb s).
Definition supplied (r : request) : option (list str) * option nat * option nat :=
  match rq_kind r with
  | KPlain => (None, None, None)
  | KToken t => (t, None, None)
  | KRecv b => (None, b, None)
  | KSend b _ => (None, None, b)
  | KSendToken t _ => (t, None, None)
  end.
(** The command phase of a call: from before the command is sent until its outcome is known. *)
Definition command_phase (c : call) (p : tpc) : Prop :=
  p = Setup c \/ p = SendA c \/ p = SendB c \/ p = Wait c \/ (exists st o, p = Reset c st o) \/ (exists st o, p = Unhook c st o).
Theorem c32_hooks_only_during_their_request : forall tt n lbs s, run tt anything (init n) lbs s ->
  (forall i c p, nth_error (ths s) i = Some p -> command_phase c p -> installed s = supplied (c_req c)) /\
  ((forall i c p, nth_error (ths s) i = Some p -> ~ command_phase c p) -> installed s = (None, None, None)).
Proof.
  intros tt n lbs s R. pose proof (run_inv tt _ _ _ _ R) as V.
  assert (SU : forall c, hooks_of (rq_kind (c_req c)) = supplied (c_req c)) by (intro c; unfold supplied, hooks_of; destruct (rq_kind (c_req c)); reflexivity). split.
  - intros i c p E CP. assert (HP : holding p = true) by (destruct CP as [->|[->|[->|[->|[(st & o & ->)|(st & o & ->)]]]]]; reflexivity).
    destruct (inv_held_at s i p V E HP) as (M & L). rewrite <- SU. destruct CP as [->|[->|[->|[->|[(st & o & ->)|(st & o & ->)]]]]]; cbn in L; apply L.
  - intro NC. destruct (mtx s) as [i|] eqn:M; [|apply (inv_free s V M)]. destruct (inv_held s V i M) as (p & E & HP & L).
    destruct p; try discriminate; cbn in L; try apply L; exfalso; eapply NC; try exact E; unfold command_phase; eauto 10.
Qed.
Print Assumptions c32_hooks_only_during_their_request.
(** In particular nothing is left installed when no request is inside the lock, whatever the outcomes of the earlier ones were. *)
Theorem c32_nothing_left_behind : forall tt n lbs s, run tt anything (init n) lbs s ->
  (forall i p, nth_error (ths s) i = Some p -> ~ in_flight p) -> installed s = (None, None, None) /\ cb s = None.
Proof.
  intros tt n lbs s R NF. pose proof (run_inv tt _ _ _ _ R) as V. destruct (mtx s) as [i|] eqn:M.
  - destruct (inv_held s V i M) as (p & E & HP & _). exfalso. apply (NF i p E). destruct p; try discriminate; exact I.
  - destruct (inv_free s V M) as (A & B & _). auto.
Qed.
Print Assumptions c32_nothing_left_behind.

(** ** C30 *)
(** When no request is inside the lock, the receive path is in the 'no command' state, unless some request has returned SEND_ERROR. *)
Theorem c30_idle_means_no_command_partial : forall tt n lbs s, run tt anything (init n) lbs s ->
  (forall i p, nth_error (ths s) i = Some p -> ~ in_flight p) -> (forall c o, ~ In (Returned c PKT_SEND_ERROR o) (log s)) -> typ s = T_NO_COMMAND.
Proof.
  intros tt n lbs s R NF NS. pose proof (run_inv tt _ _ _ _ R) as V. destruct (mtx s) as [i|] eqn:M.
  - destruct (inv_held s V i M) as (p & E & HP & _). exfalso. apply (NF i p E). destruct p; try discriminate; exact I.
  - destruct (inv_free s V M) as (_ & _ & [Q|[_ (c & o & I0)]]); [exact Q|]. elim (NS c o I0).
Qed.
Print Assumptions c30_idle_means_no_command_partial.
(** A request that held the lock and returns anything but SEND_ERROR and BAD_REQUEST leaves 'no command', whatever happened before. *)
Theorem c30_return_means_no_command_partial : forall tt n lbs s i s' c st o, run tt anything (init n) lbs s ->
  exec tt (LThread i) s = Some s' -> log s' = Returned c st o :: log s -> st <> PKT_SEND_ERROR -> st <> PKT_BAD_REQUEST -> typ s' = T_NO_COMMAND.
Proof.
  intros tt n lbs s i s' c st o R E LG N1 N2. pose proof (run_inv tt _ _ _ _ R) as V. cbn [exec] in E.
  assert (GR : log s' = log s -> False) by (intro Q; rewrite Q in LG; apply (f_equal (@length entry)) in LG; cbn in LG; lia).
  unfold thread_step in E. destruct (nth_error (ths s) i) as [p|] eqn:EP; [|discriminate].
  destruct p as [|c0|c0|c0|c0|c0|c0|c0 st0 o0|c0 st0 o0|c0|c0|c0|c0 st0 o0|c0 st0 o0]; try discriminate.
  all: repeat match goal with H : match ?x with _ => _ end = Some _ |- _ => destruct x eqn:?; try discriminate end.
  all: try (exfalso; apply GR; injection E as <-; repeat match goal with |- context [match ?x with _ => _ end] => destruct x end; reflexivity).
  injection E as <-. cbn in LG. injection LG as -> -> ->. destruct (inv_held_at s i _ V EP eq_refl) as (_ & _ & _ & L). cbn. destruct L as [L|[[_ L]|[L _]]]; [exact L|contradiction|contradiction].
Qed.
Print Assumptions c30_return_means_no_command_partial.

(** ** Runs by execution, for the examples and counterexamples *)
Fixpoint exec_all (tt : token_table) (lbs : list label) (s : state) : option state :=
  match lbs with [] => Some s | lb :: r => match exec tt lb s with Some s1 => exec_all tt r s1 | None => None end end.
Fixpoint all_ok (ok : state -> label -> Prop) (tt : token_table) (lbs : list label) (s : state) : Prop :=
  match lbs with [] => True | lb :: r => ok s lb /\ match exec tt lb s with Some s1 => all_ok ok tt r s1 | None => False end end.
Lemma run_of_exec ok tt lbs s0 pre s s' : run tt ok s0 pre s -> all_ok ok tt lbs s -> exec_all tt lbs s = Some s' -> run tt ok s0 (pre ++ lbs) s'.
Proof.
  revert pre s. induction lbs as [|lb r IH]; intros pre s R A E; cbn in A, E; [injection E as <-; rewrite app_nil_r; exact R|].
  destruct A as (A1 & A2). destruct (exec tt lb s) as [s1|] eqn:X; [|discriminate]. replace (pre ++ lb :: r) with ((pre ++ [lb]) ++ r) by (rewrite <- app_assoc; reflexivity).
  eapply IH; [|exact A2|exact E]. econstructor; eauto.
Qed.
Lemma run_exec0 ok tt lbs n s' : all_ok ok tt lbs (init n) -> exec_all tt lbs (init n) = Some s' -> run tt ok (init n) lbs s'.
Proof. intros A E. apply (run_of_exec ok tt lbs (init n) [] (init n)); [constructor|exact A|exact E]. Qed.
Lemma all_anything tt lbs s s' : exec_all tt lbs s = Some s' -> all_ok anything tt lbs s.
Proof.
  revert s. induction lbs as [|lb r IH]; intros s E; cbn in *; [exact I|]. split; [exact I|]. destruct (exec tt lb s); [|discriminate]. apply IH. exact E.
Qed.

Definition tt0 : token_table := {| tk_error := Some [s2b "ERROR"]; tk_success := Some [s2b "OK"]; tk_urc_wo_prefix := None; tk_extra_success := None |}.
Definition pfx0 : list str := [s2b "+COPS"].
Definition q_multi : request := {| rq_kind := KPlain; rq_cmd := Some (s2b "AT+COPS?"); rq_type := T_MULTI_WO_PREFIX; rq_prefix := Some (s2b "+COPS"); rq_cb := true |}.
Definition q_plain : request := {| rq_kind := KPlain; rq_cmd := Some (s2b "AT+CFUN=1"); rq_type := T_NO_RESULT; rq_prefix := None; rq_cb := false |}.
Definition q_data : request :=
  {| rq_kind := KSend None {| d_data := Some [1%N; 2%N]; d_end := None |}; rq_cmd := Some (s2b "AT+QISEND=0,2"); rq_type := T_NO_RESULT; rq_prefix := None; rq_cb := false |}.
Definition ans (x : string) (id : nat) (ph last : bool) : line := {| l_text := s2b x; l_from := Some (id, ph); l_last := last |}.
Definition urc (x : string) : line := {| l_text := s2b x; l_from := None; l_last := false |}.

Lemma tables0 : tables_ok (tokens_now tt0 None).
Proof. repeat split; try discriminate; intros k [= <-]; cbn; lia. Qed.
Lemma prefixes0 : forall q, In q pfx0 -> at_len_ok q.
Proof. intros q [<-|[]]. split; [discriminate|]. cbn. lia. Qed.
Lemma ok_completes t : completes (tokens_now tt0 None) t (s2b "OK").
Proof. left. right. split; [split; [discriminate|cbn; lia]|]. exists [s2b "OK"], (s2b "OK"). split; [reflexivity|]. split; [left; reflexivity|]. split; [split; [discriminate|cbn; lia]|exists []; reflexivity]. Qed.
Lemma error_completes t : completes (tokens_now tt0 None) t (s2b "ERROR").
Proof.
  right. left. split.
  - intros [(_ & ks & k & Q & _)|(_ & ks & k & Q & I0 & _ & (r & E))]; [discriminate|]. injection Q as <-. destruct I0 as [<-|[]]. cbn in E. discriminate.
  - split; [split; [discriminate|cbn; lia]|]. exists [s2b "ERROR"], (s2b "ERROR"). split; [reflexivity|]. split; [left; reflexivity|]. split; [split; [discriminate|cbn; lia]|exists []; reflexivity].
Qed.
Lemma plain_continues t x : ~ no_code_type t -> (forall r, x <> s2b "OK" ++ r) -> (forall r, x <> s2b "ERROR" ++ r) -> ~ completes (tokens_now tt0 None) t x.
Proof.
  intros NC A B [[(_ & ks & k & Q & _)|(_ & ks & k & Q & I0 & _ & (r & E))]|[(_ & (_ & ks & k & Q & I0 & _ & (r & E)))|X]]; [discriminate| | |contradiction].
  - injection Q as <-. destruct I0 as [<-|[]]. exact (A r E).
  - injection Q as <-. destruct I0 as [<-|[]]. exact (B r E).
Qed.
Lemma urc_spontaneous : spontaneous tt0 pfx0 (s2b "+CREG: 1").
Proof.
  intros cmd p HP. right. split.
  - apply wp_iff. reflexivity.
  - right. intros (q & E & (r & X)). subst p. destruct (HP q eq_refl) as [<-|[]]. cbn in X. discriminate.
Qed.

Ltac emits := cbn; split; [|split; [exact I|exact I]].
Ltac okstep :=
  match goal with
  | |- _ /\ _ => split
  | |- True => exact I
  end.

(** Five actions bring a call from its entry to waiting for the answer; three bring it from the outcome to its return. *)
Definition start (i : nat) (r : request) : list label := LCall i r :: repeat (LThread i) 5.
Definition finish (i : nat) : list label := repeat (LThread i) 3.
Definition reads (k : nat) : list label := repeat LReader k.

(** C30, missing: after a short transmission of the data (SEND_ERROR) the receive path stays in 'awaiting a result': with no request
    inside the lock, an unprefixed line is attributed to a command. *)
Definition run30 : list label :=
  start 0 q_data ++ [LEmit (ans "OK" 0 false true)] ++ reads 8 ++ repeat (LThread 0) 4 ++ [LDataShort 0; LThread 0] ++ [LEmit (urc "RING")] ++ reads 3.
Theorem c30_send_error_leaves_command_pending_refuted : exists s, run tt0 anything (init 1) run30 s /\
  ths s = [Idle] /\ typ s = T_NO_RESULT /\ rd s = RMsg (urc "RING") AT_SOLICITED.
Proof.
  destruct (exec_all tt0 run30 (init 1)) as [s|] eqn:E; [|vm_compute in E; discriminate]. exists s. split; [apply run_exec0; [eapply all_anything; exact E|exact E]|].
  vm_compute in E. injection E as <-. repeat split.
Qed.
Print Assumptions c30_send_error_leaves_command_pending_refuted.

(** ** C28 *)
(** In every run with an honest modem in which time-outs strike only transmissions that left nothing behind: a status taken from an
    answer comes from the line that completed this call's own command or data transmission. *)
Theorem c28_status_is_own_partial : forall tt pfxs n lbs s, tables_ok (tokens_now tt None) -> (forall q, In q pfxs -> at_len_ok q) ->
  run tt (tidy_runs tt pfxs) (init n) lbs s -> forall c st o, In (Returned c st o) (log s) ->
  match o with
  | None => st = PKT_TIMED_OUT \/ st = PKT_BAD_PARAM \/ st = PKT_BAD_REQUEST \/ st = PKT_SEND_ERROR
  | Some q => st = own_status (q_ok q) (q_cb q) /\ l_last (q_line q) = true /\
      (l_from (q_line q) = Some (c_id c, false) /\ verdict (tokens_now tt (hook_extra (rq_kind (c_req c)))) (rq_type (c_req c)) (l_text (q_line q)) (q_ok q) \/
       l_from (q_line q) = Some (c_id c, true) /\ verdict (tokens_now tt None) T_NO_RESULT (l_text (q_line q)) (q_ok q))
  end.
Proof.
  intros tt pfxs n lbs s T P R c st o I0. destruct (run_tidy tt pfxs T P n lbs s R) as (_ & TD). pose proof (t_log _ _ s TD _ I0) as A. cbn in A.
  destruct o as [q|]; [|exact A]. cbn in A. destruct A as (-> & [A|A]); destruct A as (A1 & A2 & A3 & A4); (split; [exact A4|]; split; [exact A2|]); [left|right]; split; assumption.
Qed.
Print Assumptions c28_status_is_own_partial.

(** ** C29 *)
(** In such runs the lines handed to a response callback (and the line that completed the answer) all answer that call's command. *)
Theorem c29_lines_are_own_partial : forall tt pfxs n lbs s, tables_ok (tokens_now tt None) -> (forall q, In q pfxs -> at_len_ok q) ->
  run tt (tidy_runs tt pfxs) (init n) lbs s -> forall id ls l, In (Delivered id ls l) (log s) -> forall x, In x (l :: ls) -> l_from x = Some (id, false).
Proof.
  intros tt pfxs n lbs s T P R id ls l I0. destruct (run_tidy tt pfxs T P n lbs s R) as (_ & TD). pose proof (t_log _ _ s TD _ I0) as A. apply A.
Qed.
Print Assumptions c29_lines_are_own_partial.

(** ** C31 *)
(** In such runs a response callback runs only while its request is still waiting, and the reader never calls through a NULL callback. *)
Theorem c31_callback_within_request_partial : forall tt pfxs n lbs s, tables_ok (tokens_now tt None) -> (forall q, In q pfxs -> at_len_ok q) ->
  run tt (tidy_runs tt pfxs) (init n) lbs s ->
  (forall id ls l, rd s = RInCB id ls l -> exists i c, nth_error (ths s) i = Some (Wait c) /\ c_id c = id) /\ rd s <> RCrashed.
Proof.
  intros tt pfxs n lbs s T P R. destruct (run_tidy tt pfxs T P n lbs s R) as (V & TD). pose proof (c_rd _ _ _ s (t_core _ _ s TD)) as D. unfold rd_ok in D. split.
  - intros id ls l E. rewrite E in D. destruct D as (tr & CT & _ & TG). unfold cur in CT. destruct (mtx s) as [i|]; [|discriminate]. destruct (nth_error (ths s) i) as [p|] eqn:EP; [|discriminate].
    destruct p; cbn in CT; try discriminate; injection CT as <-; cbn in TG; injection TG as TG; try discriminate. exists i, c. auto.
  - intro E. rewrite E in D. exact D.
Qed.
Print Assumptions c31_callback_within_request_partial.

(** Non-triviality: a tidy run with two threads, a URC between the lines of an answer, a delivered response, a second command that
    fails, and a call that times out after the modem gave up. *)
Definition run_good : list label :=
  start 0 q_multi ++ [LEmit (ans "+COPS: 1" 0 false false); LEmit (urc "+CREG: 1"); LEmit (ans "OK" 0 false true); LCall 1 q_plain] ++
  reads 5 ++ reads 4 ++ reads 8 ++ [LCbReturns PKT_OK; LReader; LThread 0] ++ finish 0 ++
  repeat (LThread 1) 5 ++ [LEmit (ans "ERROR" 1 false true)] ++ reads 8 ++ [LThread 1] ++ finish 1 ++
  start 0 q_plain ++ [LGiveUp (2%nat, false); LTimeout 0] ++ finish 0.
Lemma in_head_tag (P : transaction -> Prop) tr l : P tr -> exists x, In x (tr :: l) /\ P x.
Proof. intro H. exists tr. split; [left; reflexivity|exact H]. Qed.
Ltac answer_ok :=
  first [ split; [intros _; first [apply ok_completes|apply error_completes]|reflexivity]
        | split; [discriminate|refine (fun Y => False_ind _ (plain_continues _ _ _ _ _ Y)); [intros [Q|Q]; discriminate|intro; cbn; discriminate..]] ].
Ltac emit_ok :=
  first [ split; [reflexivity|exact urc_spontaneous]
        | eexists; split; [left; reflexivity|]; split; [reflexivity|]; cbn -[completes]; answer_ok
        | eexists; split; [right; left; reflexivity|]; split; [reflexivity|]; cbn -[completes]; answer_ok ].
Ltac prop_ok := split; [intros q Q; first [discriminate Q|injection Q as <-; left; reflexivity]|intros k Q; discriminate Q].
Ltac tidy_ok :=
  split; intros c Q; try discriminate Q; injection Q as <-; repeat split; cbn; try (intros ? Q; discriminate Q); try (intros ? []); try reflexivity.
Ltac label_ok :=
  lazymatch goal with
  | |- honest _ _ _ (LEmit _) => cbn [honest l_from l_last l_text ans urc pend]; emit_ok
  | |- honest _ _ _ _ => exact I
  | |- proper_calls _ _ (LCall _ _) => cbn [proper_calls rq_prefix q_multi q_plain q_data rq_kind hook_extra]; prop_ok
  | |- proper_calls _ _ _ => exact I
  | |- tidy_timeouts _ (LTimeout _) => cbn [tidy_timeouts ths nth_error]; tidy_ok
  | |- tidy_timeouts _ _ => exact I
  end.
Ltac step_run :=
  lazymatch goal with
  | |- all_ok _ _ [] _ => exact I
  | |- all_ok ?ok ?tt (?lb :: ?r) ?s =>
      let x := eval vm_compute in (exec tt lb s) in
      lazymatch x with
      | Some ?s1 => change (ok s lb /\ all_ok ok tt r s1); split; [|]
      end
  end.
Lemma run_good_ok : exists s, run tt0 (tidy_runs tt0 pfx0) (init 2) run_good s /\
  log s = [ Returned {| c_id := 2; c_req := q_plain |} PKT_TIMED_OUT None;
            Returned {| c_id := 1; c_req := q_plain |} PKT_FAILURE (Some {| q_st := PKT_FAILURE; q_line := ans "ERROR" 1 false true; q_ok := false; q_cb := None |});
            Returned {| c_id := 0; c_req := q_multi |} PKT_OK (Some {| q_st := PKT_OK; q_line := ans "OK" 0 false true; q_ok := true; q_cb := Some PKT_OK |});
            Delivered 0 [ans "+COPS: 1" 0 false false] (ans "OK" 0 false true) ].
Proof.
  destruct (exec_all tt0 run_good (init 2)) as [s|] eqn:E; [|vm_compute in E; discriminate]. exists s. split.
  - apply run_exec0; [|exact E]. clear E s. let r := eval vm_compute in run_good in change run_good with r. 
    let s0 := eval vm_compute in (init 2) in change (init 2) with s0.
    repeat (step_run; [unfold tidy_runs; split; [label_ok|split; label_ok]|]). exact I.
  - vm_compute in E. injection E as <-. reflexivity.
Qed.
(** The hypotheses of C28, C29 and C31 hold in that run. *)
Example c28_c29_c31_ex : tables_ok (tokens_now tt0 None) /\ (forall q, In q pfx0 -> at_len_ok q) /\ exists s, run tt0 (tidy_runs tt0 pfx0) (init 2) run_good s /\ length (log s) = 4%nat.
Proof. split; [exact tables0|]. split; [exact prefixes0|]. destruct run_good_ok as (s & R & L). exists s. split; [exact R|]. rewrite L. reflexivity. Qed.

Ltac run_honest r n :=
  let E := fresh "E" in let s := fresh "s" in
  destruct (exec_all tt0 r (init n)) as [s|] eqn:E; [|vm_compute in E; discriminate]; exists s; split;
  [ apply run_exec0; [|exact E]; clear E s;
    let r' := eval vm_compute in r in change r with r';
    let s0 := eval vm_compute in (init n) in change (init n) with s0;
    repeat (step_run; [split; label_ok|]); exact I
  | vm_compute in E; injection E as <- ].

(** Missing in C28: a time-out that strikes while the reader is finishing the answer leaves the status in the queue, and the next
    call returns it: call 1 returns OK because of the answer to call 0, while the modem answers call 1 with ERROR. *)
Definition run28 : list label :=
  start 0 q_plain ++ [LEmit (ans "OK" 0 false true)] ++ reads 7 ++ [LTimeout 0] ++ finish 0 ++ [LReader] ++
  start 0 q_plain ++ [LEmit (ans "ERROR" 1 false true); LThread 0] ++ finish 0.
Theorem c28_stale_status_refuted : exists s, run tt0 (honest_runs tt0 pfx0) (init 1) run28 s /\
  hd_error (log s) = Some (Returned {| c_id := 1; c_req := q_plain |} PKT_OK (Some {| q_st := PKT_OK; q_line := ans "OK" 0 false true; q_ok := true; q_cb := None |})) /\
  wire s = [ans "ERROR" 1 false true].
Proof. run_honest run28 1%nat. split; reflexivity. Qed.
Print Assumptions c28_stale_status_refuted.
(** A late answer is also taken for the answer to the next call. *)
Definition run28b : list label :=
  start 0 q_plain ++ [LTimeout 0] ++ finish 0 ++ start 0 q_plain ++ [LEmit (ans "OK" 0 false true)] ++ reads 8 ++ [LThread 0] ++ finish 0.
Theorem c28_late_answer_refuted : exists s, run tt0 (honest_runs tt0 pfx0) (init 1) run28b s /\
  exists q, hd_error (log s) = Some (Returned {| c_id := 1; c_req := q_plain |} PKT_OK (Some q)) /\ l_from (q_line q) = Some (0%nat, false).
Proof. run_honest run28b 1%nat. eexists. split; reflexivity. Qed.
Print Assumptions c28_late_answer_refuted.

(** Missing in C29: the lines collected for a call that timed out are delivered with the answer to the next call. *)
Definition run29 : list label :=
  start 0 q_multi ++ [LEmit (ans "+COPS: 1" 0 false false)] ++ reads 5 ++ [LTimeout 0] ++ finish 0 ++
  start 0 q_multi ++ [LEmit (ans "+COPS: 2" 1 false false); LEmit (ans "OK" 1 false true)] ++ reads 5 ++ reads 8.
Theorem c29_lines_of_timed_out_call_refuted : exists s, run tt0 (honest_runs tt0 pfx0) (init 1) run29 s /\
  hd_error (log s) = Some (Delivered 1 [ans "+COPS: 1" 0 false false; ans "+COPS: 2" 1 false false] (ans "OK" 1 false true)).
Proof. run_honest run29 1%nat. reflexivity. Qed.
Print Assumptions c29_lines_of_timed_out_call_refuted.

(** Missing in C31: the callback of call 0 is still running after call 0 returned TIMED_OUT to its caller. *)
Definition run31 : list label := start 0 q_multi ++ [LEmit (ans "OK" 0 false true)] ++ reads 8 ++ [LTimeout 0] ++ finish 0.
Theorem c31_callback_outlives_request_refuted : exists s, run tt0 (honest_runs tt0 pfx0) (init 1) run31 s /\
  ths s = [Idle] /\ hd_error (log s) = Some (Returned {| c_id := 0; c_req := q_multi |} PKT_TIMED_OUT None) /\ rd s = RInCB 0 [] (ans "OK" 0 false true).
Proof. run_honest run31 1%nat. repeat split. Qed.
Print Assumptions c31_callback_outlives_request_refuted.
(** And the reader can call through NULL: the callback is removed between the check and the call. *)
Definition run31b : list label := start 0 q_multi ++ [LEmit (ans "OK" 0 false true)] ++ reads 7 ++ [LTimeout 0; LThread 0; LReader].
Theorem c31_null_callback_called_refuted : exists s, run tt0 (honest_runs tt0 pfx0) (init 1) run31b s /\ rd s = RCrashed.
Proof. run_honest run31b 1%nat. reflexivity. Qed.
Print Assumptions c31_null_callback_called_refuted.

(** ** C68 *)
(** In every infinite execution (without a crash of the reader, see C31) in which threads inside a request keep being scheduled, waits
    end by an answer or the time-out, and the lock is fair: every call returns (the log grows by its entry and the thread is idle again). *)
Theorem c68_requests_return_partial : forall tt n st act, execution tt n st act -> scheduled st act -> lock_is_fair st act -> (forall k, rd (st k) <> RCrashed) ->
  forall k i r, act k = LCall i r -> exists k' s o, (k <= k')%nat /\
    log (st (S k')) = Returned {| c_id := next (st k); c_req := r |} s o :: log (st k') /\ nth_error (ths (st (S k'))) i = Some Idle.
Proof.
  intros tt n st act X SC LF _ k i r A. pose proof (proj2 X k) as E. rewrite A in E. cbn [exec] in E.
  destruct (nth_error (ths (st k)) i) as [[]|] eqn:EP; try discriminate.
  assert (G : Some (goto i (Called {| c_id := next (st k); c_req := r |}) (set_next (S (next (st k))) (st k))) = Some (st (S k)) ->
     exists k' s o, (k <= k')%nat /\ log (st (S k')) = Returned {| c_id := next (st k); c_req := r |} s o :: log (st k') /\ nth_error (ths (st (S k'))) i = Some Idle).
  { intros [= E1]. assert (EC : nth_error (ths (st (S k))) i = Some (Called {| c_id := next (st k); c_req := r |})) by (rewrite <- E1; cbn; eapply nth_set_eq; exact EP).
    destruct (call_returns tt st act n X SC LF (S k) i _ _ EC eq_refl) as (k' & s & o & L & LG & ID). exists k', s, o. split; [lia|auto]. }
  destruct (rq_kind r) as [|[t|]| | |]; try (apply G; exact E).
  injection E as E. exists k, PKT_BAD_PARAM, None. split; [lia|]. rewrite <- E. cbn. auto.
Qed.
Print Assumptions c68_requests_return_partial.
(** With an honest modem and time-outs that leave no residue the reader does not crash (C31): nothing is left to assume but fairness. *)
Theorem c68_requests_return_in_tidy_runs_partial : forall tt pfxs n st act, tables_ok (tokens_now tt None) -> (forall q, In q pfxs -> at_len_ok q) ->
  execution tt n st act -> (forall k, tidy_runs tt pfxs (st k) (act k)) -> scheduled st act -> lock_is_fair st act ->
  (forall k, rd (st k) <> RCrashed) /\
  forall k i r, act k = LCall i r -> exists k' s o, (k <= k')%nat /\
    log (st (S k')) = Returned {| c_id := next (st k); c_req := r |} s o :: log (st k') /\ nth_error (ths (st (S k'))) i = Some Idle.
Proof.
  intros tt pfxs n st act T P X TD SC LF.
  assert (NC : forall k, rd (st k) <> RCrashed).
  { intro k. assert (R : exists lbs, run tt (tidy_runs tt pfxs) (init n) lbs (st k)).
    { induction k as [|k (lbs & R)]; [exists []; rewrite (proj1 X); constructor|]. exists (lbs ++ [act k]). econstructor; [exact R|apply TD|apply (proj2 X)]. }
    destruct R as (lbs & R). exact (proj2 (c31_callback_within_request_partial tt pfxs n lbs (st k) T P R)). }
  split; [exact NC|]. intros k i r A. exact (c68_requests_return_partial tt n st act X SC LF NC k i r A).
Qed.
Print Assumptions c68_requests_return_in_tidy_runs_partial.
(** The assumptions can be met step by step: in every reachable state a thread inside a request can act, and every action of its own
    brings it closer to its return: at most 13 of them are left. *)
Theorem c68_progress_is_always_possible : forall tt n lbs s i p, run tt anything (init n) lbs s -> nth_error (ths s) i = Some p ->
  (in_flight p -> exists lb s', own i lb /\ exec tt lb s = Some s') /\
  (forall c, p = Called c -> mtx s = None -> exists s', exec tt (LThread i) s = Some s') /\
  (forall c j, p = Called c -> mtx s = Some j -> exists lb s', own j lb /\ exec tt lb s = Some s') /\
  (rank p <= 13)%nat /\
  (forall lb s', own i lb -> exec tt lb s = Some s' -> exists p', nth_error (ths s') i = Some p' /\ (rank p' < rank p)%nat) /\
  (forall lb s', ~ own i lb -> exec tt lb s = Some s' -> p <> Idle -> nth_error (ths s') i = Some p).
Proof.
  intros tt n lbs s i p R EP. pose proof (run_inv tt _ _ _ _ R) as V. pose proof (run_shaped tt _ _ _ _ R) as SH. repeat split.
  - intro F. eapply holder_enabled; eauto.
  - intros c -> M. cbn. unfold thread_step. rewrite EP, M. eauto.
  - intros c j -> M. destruct (inv_held s V j M) as (q & EQ & HQ & _). eapply holder_enabled; [exact EQ|destruct q; try discriminate; exact I|eapply SH; exact EQ].
  - destruct p; cbn; lia.
  - intros lb s' O E. destruct (own_step tt lb i s s' p O E EP) as (p' & T & RK & _). exists p'. split; [rewrite T; eapply nth_set_eq; exact EP|exact RK].
  - intros lb s' O E NI. eapply other_step; eauto.
Qed.
Print Assumptions c68_progress_is_always_possible.
(** An execution that meets the hypotheses: a call the modem gives up, which times out; then nothing more happens. *)
Definition acts68 (k : nat) : label := nth k (start 0 q_plain ++ [LGiveUp (0%nat, false); LTimeout 0] ++ finish 0) (LGiveUp (0%nat, false)).
Fixpoint states68 (k : nat) : state := match k with O => init 1 | S j => match exec tt0 (acts68 j) (states68 j) with Some s => s | None => states68 j end end.
Definition s68_11 : state := Eval vm_compute in states68 11.
Definition s68_12 : state := Eval vm_compute in states68 12.
Lemma states68_late k : states68 (11 + k) = s68_11 \/ states68 (11 + k) = s68_12.
Proof.
  induction k as [|k IH]; [left; vm_compute; reflexivity|]. right.
  assert (A : acts68 (11 + k) = LGiveUp (0%nat, false)) by (unfold acts68; apply nth_overflow; cbn; lia).
  assert (E : states68 (11 + S k) = match exec tt0 (acts68 (11 + k)) (states68 (11 + k)) with Some s => s | None => states68 (11 + k) end) by (rewrite Nat.add_succ_r; reflexivity).
  rewrite E, A. destruct IH as [->| ->]; vm_compute; reflexivity.
Qed.
Example c68_ex : execution tt0 1 states68 acts68 /\ scheduled states68 acts68 /\ lock_is_fair states68 acts68 /\ (forall k, rd (states68 k) <> RCrashed) /\ (forall k, tidy_runs tt0 pfx0 (states68 k) (acts68 k)) /\ acts68 0 = LCall 0 q_plain.
Proof.
  assert (LATE : forall k, (11 <= k)%nat -> ths (states68 k) = [Idle] /\ rd (states68 k) = RIdle /\ acts68 k = LGiveUp (0%nat, false)).
  { intros k H. replace k with (11 + (k - 11))%nat by lia. split; [|split].
    - destruct (states68_late (k - 11)) as [->| ->]; vm_compute; reflexivity.
    - destruct (states68_late (k - 11)) as [->| ->]; vm_compute; reflexivity.
    - unfold acts68. apply nth_overflow. cbn. lia. }
  assert (SMALL : forall k, (k < 11)%nat -> In k [0;1;2;3;4;5;6;7;8;9;10]%nat) by (intros k H; do 11 (destruct k as [|k]; [cbn; tauto|]); lia).
  split; [|split; [|split; [|split; [|split; [|reflexivity]]]]].
  - split; [reflexivity|]. intro k. destruct (le_lt_dec 11 k) as [H|H].
    + cbn [states68]. destruct (LATE k H) as (_ & _ & ->). reflexivity.
    + apply SMALL in H. repeat (destruct H as [<-|H]; [vm_compute; reflexivity|]). destruct H.
  - intros k i p E F. destruct (le_lt_dec 11 k) as [H|H].
    + destruct (LATE k H) as (T & _). rewrite T in E. destruct i as [|[|i]]; cbn in E; try discriminate. injection E as <-. contradiction.
    + exists 10%nat. split; [lia|]. assert (IZ : i = 0%nat).
      { destruct i as [|i]; [reflexivity|]. exfalso. apply SMALL in H. repeat (destruct H as [<-|H]; [vm_compute in E; destruct i; discriminate|]). destruct H. }
      subst i. reflexivity.
  - intros k i c E _. destruct (le_lt_dec 11 k) as [H|H].
    + destruct (LATE k H) as (T & _). rewrite T in E. destruct i as [|[|i]]; discriminate.
    + exists 10%nat. split; [lia|]. apply SMALL in H. repeat (destruct H as [<-|H]; [vm_compute in E; destruct i as [|[|i]]; try discriminate; reflexivity|]). destruct H.
  - intros k. destruct (le_lt_dec 11 k) as [H|H]; [destruct (LATE k H) as (_ & -> & _); discriminate|].
    apply SMALL in H. repeat (destruct H as [<-|H]; [vm_compute; discriminate|]). destruct H.
  - intros k. destruct (le_lt_dec 11 k) as [H|H]; [destruct (LATE k H) as (_ & _ & ->); split; [exact I|split; exact I]|].
    apply SMALL in H. repeat (destruct H as [<-|H]; [match goal with |- tidy_runs _ _ ?x ?y => let x' := eval vm_compute in x in let y' := eval vm_compute in y in change (tidy_runs tt0 pfx0 x' y') end;
      unfold tidy_runs; split; [label_ok|split; label_ok]|]). destruct H.
Qed.

(** Non-triviality of C27, C30 and C32: a reachable state with one thread inside a request with an extra success table (installed), one
    waiting for the lock; and a reachable state after two returns. *)
Definition q_token : request := {| rq_kind := KToken (Some [s2b "CONNECT"]); rq_cmd := Some (s2b "ATD"); rq_type := T_NO_RESULT; rq_prefix := None; rq_cb := false |}.
Example c27_c32_ex : exists s, run tt0 anything (init 2) (start 0 q_token ++ [LCall 1 q_plain]) s /\
  ths s = [Wait {| c_id := 0; c_req := q_token |}; Called {| c_id := 1; c_req := q_plain |}] /\ command_phase {| c_id := 0; c_req := q_token |} (Wait {| c_id := 0; c_req := q_token |}) /\
  installed s = (Some [s2b "CONNECT"], None, None).
Proof.
  destruct (exec_all tt0 (start 0 q_token ++ [LCall 1 q_plain]) (init 2)) as [s|] eqn:E; [|vm_compute in E; discriminate]. exists s.
  split; [apply run_exec0; [eapply all_anything; exact E|exact E]|]. vm_compute in E. injection E as <-. unfold command_phase. auto 10.
Qed.
Example c30_ex : exists s, run tt0 anything (init 2) (start 0 q_token ++ [LTimeout 0] ++ finish 0) s /\
  log s = [Returned {| c_id := 0; c_req := q_token |} PKT_TIMED_OUT None] /\ ths s = [Idle; Idle].
Proof.
  destruct (exec_all tt0 (start 0 q_token ++ [LTimeout 0] ++ finish 0) (init 2)) as [s|] eqn:E; [|vm_compute in E; discriminate]. exists s.
  split; [apply run_exec0; [eapply all_anything; exact E|exact E]|]. vm_compute in E. injection E as <-. auto.
Qed.

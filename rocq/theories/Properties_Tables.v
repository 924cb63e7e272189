(** C96: the token tables configured at initialisation stay in force. *)
From Coq Require Import String List NArith ZArith Bool Arith Lia.
From Verif Require Import Bytes AtCore Status SpecAt AtProofs Pktio SpecPktio PktioLine SpecStream Request SpecRequest RequestInv Properties_Request.
Import ListNotations.
Local Open Scope string_scope.
Local Open Scope list_scope.

(** cellular_common.c:952 copies the caller's whole token table into the context, the extra success table [x] included. *)
Definition configured_start (x : option (list str)) (n : nat) : state := set_extra x (init n).
(** The tables as configured. *)
Definition configured (tt : token_table) (x : option (list str)) : token_table :=
  {| tk_error := tk_error tt; tk_success := tk_success tt; tk_urc_wo_prefix := tk_urc_wo_prefix tt; tk_extra_success := x |}.
(** A request that brings a success table of its own. *)
Definition brings_table (r : request) : Prop := match rq_kind r with KToken (Some _) => True | KSendToken _ _ => True | _ => False end.

Definition call_of (p : tpc) : option call :=
  match p with
  | Idle => None
  | Called c | Hook c | Setup c | SendA c | SendB c | Wait c | Reset c _ _ | Unhook c _ _ | Data1 c | Data2 c | DataWait c | DataReset c _ _ | Release c _ _ => Some c
  end.
Definition touches (r : request) : Prop := match rq_kind r with KToken _ | KSendToken _ _ => True | _ => False end.
Definition no_tables (s : state) : Prop := forall i p c, nth_error (ths s) i = Some p -> call_of p = Some c -> ~ touches (c_req c).

Lemma nth_set {A} (l : list A) i x j y : nth_error (set_nth l i x) j = Some y -> (j = i /\ y = x) \/ nth_error l j = Some y.
Proof.
  revert i j. induction l as [|a l IH]; intros i j E; [destruct i, j; discriminate|]. destruct i, j; cbn in E.
  - left. injection E as <-. auto.
  - right. exact E.
  - right. exact E.
  - destruct (IH _ _ E) as [[-> ->]|Q]; [left; auto|right; exact Q].
Qed.
Lemma goto_no_tables s i p p0 c s1 : no_tables s -> nth_error (ths s) i = Some p0 -> call_of p0 = Some c -> (call_of p = Some c \/ call_of p = None) -> ths s1 = ths s -> no_tables (goto i p s1).
Proof.
  intros H E C K T j q d EJ CJ. cbn in EJ. rewrite T in EJ. destruct (nth_set _ _ _ _ _ EJ) as [[-> ->]|Q].
  - destruct K as [K|K]; rewrite K in CJ; [|discriminate]. injection CJ as <-. exact (H i p0 c E C).
  - exact (H j q d Q CJ).
Qed.
Lemma after_command_call c st o : call_of (after_command c st o) = Some c.
Proof. unfold after_command. destruct (data_of _), st; reflexivity. Qed.

Lemma tables_step tt lb s s' : no_tables s -> exec tt lb s = Some s' -> (forall i r, lb = LCall i r -> ~ brings_table r) -> no_tables s' /\ extra s' = extra s.
Proof.
  intros H E NB.
  assert (SAME : ths s' = ths s -> extra s' = extra s -> no_tables s' /\ extra s' = extra s) by (intros T X; split; [unfold no_tables; rewrite T; exact H|exact X]).
  destruct lb as [i r|i|i|i|i| |st|a k|l|g]; cbn [exec] in E.
  - specialize (NB i r eq_refl). destruct (nth_error (ths s) i) as [[]|] eqn:EP; try discriminate.
    assert (Y : ~ touches r -> no_tables (goto i (Called {| c_id := next s; c_req := r |}) (set_next (Datatypes.S (next s)) s))).
    { intros NT j q d EJ CJ. cbn in EJ. destruct (nth_set _ _ _ _ _ EJ) as [[-> ->]|Q]; [cbn in CJ; injection CJ as <-; exact NT|exact (H j q d Q CJ)]. }
    unfold brings_table in NB. unfold touches in Y. destruct (rq_kind r) as [|[t|]| | |]; injection E as <-; split; try reflexivity; try exact H; apply Y; first [exact NB|tauto].
  - unfold thread_step in E. destruct (nth_error (ths s) i) as [p|] eqn:EP; [|discriminate].
    assert (NT : forall c, call_of p = Some c -> ~ touches (c_req c)) by (intros c C; exact (H i p c EP C)). unfold touches in NT.
    destruct p as [|c|c|c|c|c|c|c st o|c st o|c|c|c|c st o|c st o]; try discriminate; specialize (NT c eq_refl).
    all: repeat match goal with E : match ?x with _ => _ end = Some _ |- _ => destruct x eqn:?; try discriminate end.
    all: injection E as <-.
    all: try (split; [eapply goto_no_tables; [exact H|exact EP|reflexivity| |];
      [first [left; reflexivity|left; apply after_command_call|right; reflexivity]|repeat match goal with |- context [match ?x with _ => _ end] => destruct x end; reflexivity]
      |cbn; try reflexivity; repeat match goal with |- context [match ?x with _ => _ end] => destruct x eqn:? end; try reflexivity; exfalso; apply NT; exact I]).
    all: try (split; [intros j q d EJ CJ; cbn in EJ; destruct (nth_set _ _ _ _ _ EJ) as [[-> ->]|Q]; [discriminate CJ|exact (H j q d Q CJ)]|reflexivity]).
  - destruct (nth_error (ths s) i) as [[]|] eqn:EP; try discriminate; injection E as <-; (split; [eapply goto_no_tables; [exact H|exact EP|reflexivity|left; reflexivity|reflexivity]|reflexivity]).
  - destruct (nth_error (ths s) i) as [[]|] eqn:EP; try discriminate; injection E as <-; (split; [eapply goto_no_tables; [exact H|exact EP|reflexivity|left; reflexivity|reflexivity]|reflexivity]).
  - destruct (nth_error (ths s) i) as [[]|] eqn:EP; try discriminate; injection E as <-; (split; [eapply goto_no_tables; [exact H|exact EP|reflexivity|left; reflexivity|reflexivity]|reflexivity]).
  - unfold reader_step, reader_process in E. destruct (rd s); try discriminate.
    all: repeat match goal with E : match ?x with _ => _ end = Some _ |- _ => destruct x eqn:?; try discriminate end.
    all: injection E as <-; apply SAME; reflexivity.
  - destruct (rd s); try discriminate. injection E as <-. apply SAME; reflexivity.
  - destruct (rd s); try discriminate. destruct a; injection E as <-; apply SAME; reflexivity.
  - injection E as <-. apply SAME; reflexivity.
  - injection E as <-. apply SAME; reflexivity.
Qed.
Lemma tables_run tt x n lbs s : run tt anything (configured_start x n) lbs s -> (forall i r, In (LCall i r) lbs -> ~ brings_table r) -> no_tables s /\ extra s = x.
Proof.
  remember (configured_start x n) as s0 eqn:S0. induction 1 as [s|s lbs s1 lb s2 R IH OK E]; intro NB.
  - subst s. split; [|reflexivity]. intros i p c E C. cbn in E. apply nth_error_In in E. apply repeat_spec in E. subst p. discriminate.
  - destruct (IH S0) as (A & B); [intros i r I0; apply (NB i r), in_or_app; left; exact I0|].
    destruct (tables_step tt lb s1 s2 A E) as (C & D); [intros i r ->; apply (NB i r), in_or_app; right; left; reflexivity|]. split; [exact C|congruence].
Qed.

(** The codes of the configured success and error tables are recognised at every moment of every run, whatever requests come and go
    and whatever tables they bring (success first). *)
Theorem c96_basic_codes_always_in_force : forall tt x n lbs s l t s', run tt anything (configured_start x n) lbs s ->
  tables_ok (configured tt (extra s)) -> rd s = RTyp l t -> exec tt LReader s = Some s' ->
  (matches (tk_success tt) (l_text l) -> exists ls, rd s' = RDone true ls l) /\
  (matches (tk_error tt) (l_text l) -> exists ok ls, rd s' = RDone ok ls l).
Proof.
  intros tt x n lbs s l t s' _ T ER E. cbn [exec] in E. unfold reader_step in E. rewrite ER in E. unfold reader_process in E.
  change (tokens_now tt (extra s)) with (configured tt (extra s)) in E.
  pose proof (process_line_spec (configured tt (extra s)) 0 (l_text l) (dummy_response match resp s with Some y => y | None => [] end) t T) as [[A P]|[[[A A'] P]|[[A A'] P]]].
  - rewrite P in E. injection E as <-. cbn. split; intros _; eauto.
  - rewrite P in E. injection E as <-. cbn. split; [intro M; elim A; right; exact M|intros _; eauto].
  - split; intro M; exfalso; [apply A; right; exact M|apply A'; exact M].
Qed.
Print Assumptions c96_basic_codes_always_in_force.
(** As long as no request brings a table of its own, the extra success table given at initialisation is in force as well: every line
    is judged by exactly the configured tables. *)
Theorem c96_configured_tables_stay_partial : forall tt x n lbs s, run tt anything (configured_start x n) lbs s ->
  (forall i r, In (LCall i r) lbs -> ~ brings_table r) -> tables_ok (configured tt x) ->
  forall l t s', rd s = RTyp l t -> exec tt LReader s = Some s' ->
  (success_line (configured tt x) (l_text l) -> exists ls, rd s' = RDone true ls l) /\
  (error_line (configured tt x) (l_text l) -> exists ls, rd s' = RDone false ls l) /\
  (plain_line (configured tt x) (l_text l) -> ~ no_code_type t -> forall ok ls, rd s' <> RDone ok ls l).
Proof.
  intros tt x n lbs s R NB T l t s' ER E. destruct (tables_run tt x n lbs s R NB) as [_ X].
  cbn [exec] in E. unfold reader_step in E. rewrite ER in E. unfold reader_process in E. rewrite X in E.
  change (tokens_now tt x) with (configured tt x) in E. set (r := dummy_response _) in E.
  pose proof (process_line_spec (configured tt x) 0 (l_text l) r t T) as H.
  split; [|split].
  - intro C. destruct H as [[_ P]|[[[A _] _]|[[A _] _]]]; [|contradiction|contradiction]. rewrite P in E. injection E as <-. cbn. eauto.
  - intros [C1 C2]. destruct H as [[A P]|[[_ P]|[[_ A] _]]]; [contradiction| |contradiction]. rewrite P in E. injection E as <-. cbn. eauto.
  - intros [C1 C2] NT. destruct H as [[A P]|[[[_ A] P]|[_ P]]]; [contradiction|contradiction|]. rewrite P in E.
    destruct t; cbn [processIntermediateResponse] in E; try (destruct (r_items r)); try (elim NT; first [left; reflexivity|right; reflexivity]); injection E as <-; cbn; discriminate.
Qed.
Print Assumptions c96_configured_tables_stay_partial.

(** Missing: after one request with a table of its own the configured extra table is gone for good: the same command with the same
    answer, successful before, now times out. *)
Definition x96 : option (list str) := Some [s2b "SEND OK"].
Definition q_token : request := {| rq_kind := KToken (Some [s2b ">"]); rq_cmd := Some (s2b "AT+X"); rq_type := T_NO_RESULT; rq_prefix := None; rq_cb := false |}.
Definition run96 : list label :=
  start 0 q_plain ++ [LEmit (ans "SEND OK" 0 false true)] ++ reads 8 ++ [LThread 0] ++ finish 0 ++
  start 0 q_token ++ [LEmit (ans ">" 1 false true)] ++ reads 8 ++ [LThread 0] ++ finish 0.
Definition run96b : list label := start 0 q_plain ++ [LEmit (ans "SEND OK" 2 false true)] ++ reads 5 ++ [LUndef false 0; LTimeout 0] ++ finish 0.
Theorem c96_configured_table_is_lost_refuted : exists s, run tt0 anything (configured_start x96 1) (run96 ++ run96b) s /\
  map (fun e => match e with Returned c st _ => Some (c_req c, st) | _ => None end) (log s) =
  [Some (q_plain, PKT_TIMED_OUT); Some (q_token, PKT_OK); Some (q_plain, PKT_OK)].
Proof.
  destruct (exec_all tt0 (run96 ++ run96b) (configured_start x96 1)) as [s|] eqn:E; [|vm_compute in E; discriminate].
  exists s. split; [apply (run_of_exec anything tt0 _ _ [] (configured_start x96 1)); [constructor|eapply all_anything; exact E|exact E]|].
  vm_compute in E. injection E as <-. reflexivity.
Qed.
Print Assumptions c96_configured_table_is_lost_refuted.

(** The hypotheses are met: the configured table "SEND OK" completes the first command. *)
Lemma configured_ok : tables_ok (configured tt0 x96).
Proof. repeat split; try discriminate; intros k [= <-]; cbn; lia. Qed.
Definition run96a : list label := start 0 q_plain ++ [LEmit (ans "SEND OK" 0 false true)] ++ reads 4.
Example c96_ex : tables_ok (configured tt0 x96) /\ success_line (configured tt0 x96) (s2b "SEND OK") /\ (forall i r, In (LCall i r) run96a -> ~ brings_table r) /\
  exists s s', run tt0 anything (configured_start x96 1) run96a s /\ rd s = RTyp (ans "SEND OK" 0 false true) T_NO_RESULT /\
  exec tt0 LReader s = Some s' /\ rd s' = RDone true [] (ans "SEND OK" 0 false true).
Proof.
  split; [exact configured_ok|]. split.
  { left. split; [split; [discriminate|cbn; lia]|]. exists [s2b "SEND OK"], (s2b "SEND OK"). split; [reflexivity|]. split; [left; reflexivity|]. split; [split; [discriminate|cbn; lia]|exists []; reflexivity]. }
  split. { intros i r I0. cbn in I0. repeat (destruct I0 as [I0|I0]; [try discriminate; injection I0 as <- <-; intros []|]). destruct I0. }
  destruct (exec_all tt0 run96a (configured_start x96 1)) as [s|] eqn:E; [|vm_compute in E; discriminate].
  destruct (exec tt0 LReader s) as [s'|] eqn:E'; [|vm_compute in E; injection E as <-; vm_compute in E'; discriminate].
  exists s, s'. split; [apply (run_of_exec anything tt0 _ _ [] (configured_start x96 1)); [constructor|eapply all_anything; exact E|exact E]|].
  vm_compute in E. injection E as <-. vm_compute in E'. injection E' as <-. auto.
Qed.

(** Property theorems: complete answers under every schedule (C85), a busy reader (C81), lines between requests (C86). *)
From Coq Require Import String List NArith ZArith Bool Arith Lia.
From Verif Require Import Bytes AtCore Status SpecAt AtProofs Pktio SpecPktio PktioLine SpecStream Request SpecRequest RequestInv RequestTidy RequestLive SpecAnswers RequestFull.
From Verif Require Import Properties_Request.
Import ListNotations.
Local Open Scope string_scope.
Local Open Scope list_scope.

(** ** C85 *)
(** In every run with a modem that answers in the announced format, in which time-outs strike only transmissions that left nothing
    behind: every call that returned, returned exactly the status that its request and the modem's answer to it (and the result of its
    response callback) determine. *)
Theorem c85_calls_return_what_the_modem_said : forall tt pfxs n lbs s, tables_ok (tokens_now tt None) -> (forall q, In q pfxs -> at_len_ok q) ->
  run tt (conforming_runs tt pfxs) (init n) lbs s ->
  forall c st o, In (Returned c st o) (log s) -> nth_error (calls lbs) (c_id c) = Some (c_req c) /\ outcome tt pfxs n lbs (c_id c) (c_req c) st.
Proof.
  intros tt pfxs n lbs s T P R c st o I0. destruct (run_full tt pfxs T P n lbs s R) as (_ & _ & ID & _ & F). split; [apply (i_ret _ _ ID c st o I0)|exact (f_ret _ _ _ _ _ F c st o I0)].
Qed.
Print Assumptions c85_calls_return_what_the_modem_said.

(** In such runs a response callback is called only for a request that has one, and is handed the complete response: every line the modem sent in answer, in order, nothing else. *)
Theorem c85_response_is_complete : forall tt pfxs n lbs s, tables_ok (tokens_now tt None) -> (forall q, In q pfxs -> at_len_ok q) ->
  run tt (conforming_runs tt pfxs) (init n) lbs s ->
  forall id ls l, In (Delivered id ls l) (log s) -> exists r, nth_error (calls lbs) id = Some r /\ rq_cb r = true /\ complete_response tt lbs id r ls l.
Proof.
  intros tt pfxs n lbs s T P R. destruct (run_full tt pfxs T P n lbs s R) as (_ & _ & _ & _ & F). exact (f_del _ _ _ _ _ F).
Qed.
Print Assumptions c85_response_is_complete.

(** Every call returns at most once (whatever modem and time-outs do), and in conforming runs its callback is called at most once. *)
Theorem c85_at_most_once : forall tt n lbs s,
  (run tt anything (init n) lbs s -> NoDup (returned_ids (log s))) /\
  (forall pfxs, tables_ok (tokens_now tt None) -> (forall q, In q pfxs -> at_len_ok q) -> run tt (conforming_runs tt pfxs) (init n) lbs s -> NoDup (delivered_ids (log s))).
Proof.
  intros tt n lbs s. split.
  - intro R. exact (i_nd _ _ (run_ids _ _ _ _ _ R)).
  - intros pfxs T P R. destruct (run_full tt pfxs T P n lbs s R) as (_ & _ & _ & _ & F). exact (f_dnd _ _ _ _ _ F).
Qed.
Print Assumptions c85_at_most_once.

(** No line of a conforming run is taken for an unexpected one, and the reader never crashes. *)
Theorem c85_nothing_is_unexpected : forall tt pfxs n lbs s, tables_ok (tokens_now tt None) -> (forall q, In q pfxs -> at_len_ok q) ->
  run tt (conforming_runs tt pfxs) (init n) lbs s -> (forall l, rd s <> RUndef l) /\ rd s <> RCrashed.
Proof.
  intros tt pfxs n lbs s T P R. destruct (run_full tt pfxs T P n lbs s R) as (V & TD & _ & _ & F). split.
  - intros l E. exact (undef_never tt pfxs n lbs s l V TD F E).
  - intro E. pose proof (c_rd _ _ _ s (t_core _ _ s TD)) as D. unfold rd_ok in D. rewrite E in D. exact D.
Qed.
Print Assumptions c85_nothing_is_unexpected.

(** The transmission a thread waits for. *)
Definition awaits (p : tpc) (g : tag) : Prop := exists c, p = Wait c /\ g = (c_id c, false) \/ p = DataWait c /\ g = (c_id c, true).
(** What the reader does on its own: its next action, or the return of a response callback. *)
Definition reader_label (lb : label) : Prop := lb = LReader \/ exists st, lb = LCbReturns st.
Definition reader_work (s : state) : nat :=
  (12 * length (wire s) +
  match rd s with
  | RIdle | RCrashed => 0 | RGot _ => 11 | RPtr _ _ => 10 | RMsg _ _ => 9 | RTyp _ _ => 8 | RUndef _ => 7
  | RDone _ _ _ => 6 | RHandle _ _ _ => 5 | RCall _ _ => 4 | RInCB _ _ _ => 3 | RPost _ _ _ _ => 2
  end)%nat.
Lemma reader_works tt s s' : reader_step tt s = Some s' -> (reader_work s' < reader_work s)%nat.
Proof.
  intro E. unfold reader_step, reader_process in E. destruct (rd s) as [|l|l u|l mt|l t|l|ok ls l|ok ls l|ls l|id ls l|st l ok c|] eqn:RD; try discriminate.
  all: repeat match goal with H : match ?x with _ => _ end = Some _ |- _ => destruct x eqn:?; try discriminate end.
  all: injection E as <-; unfold reader_work; rewrite RD; cbn [wire rd set_rd set_wire set_resp set_typ set_puse set_queue record set_log length]; rewrite ?Heql; cbn [length]; lia.
Qed.
(** The complete answer reaches the waiting thread: if nothing is left to read, its wait ends (with the answer). *)
Lemma answered_when_read tt pfxs n lbs s i p g body l : tables_ok (tokens_now tt None) -> (forall q, In q pfxs -> at_len_ok q) ->
  run tt (conforming_runs tt pfxs) (init n) lbs s -> nth_error (ths s) i = Some p -> awaits p g -> emitted lbs g = body ++ [l] -> l_last l = true ->
  rd s = RIdle -> ~ In l (wire s) -> queue s <> None.
Proof.
  intros T P R EP (c & AW) EM LL RD WI Q. destruct (run_full tt pfxs T P n lbs s R) as (V & TD & ID & EMM & F).
  assert (exists tr, cur_of p = Some tr /\ tr_tag tr = g) as (tr & CO & G) by (destruct AW as [(-> & ->)|(-> & ->)]; eexists; split; reflexivity).
  pose proof (f_now _ _ _ _ _ F i p tr EP CO) as [NL NS]. unfold stage in NS. rewrite Q, RD in NS. destruct NS as ((O1 & O2 & _) & _).
  unfold flight in O1. rewrite RD in O1. cbn [reader_line app] in O1. rewrite G, EM in O1.
  assert (FW : filter tagged (wire s) = []).
  { destruct (filter tagged (wire s)) as [|y r] eqn:E; [reflexivity|]. exfalso. apply WI.
      assert (I0 : In l (y :: r)) by (destruct (exists_last (l := y :: r)) as (a & z & EZ); [discriminate|]; rewrite EZ, app_assoc in O1; apply app_inj_tail in O1; destruct O1 as (_ & <-); rewrite EZ; apply in_or_app; right; left; reflexivity).
      rewrite <- E in I0. apply filter_In in I0. apply I0. }
  rewrite FW, app_nil_r in O1. unfold held_lines in O1. destruct (resp s) as [ls|] eqn:RS; [|destruct body; discriminate].
  clear - R EM LL RS O1 G CO EP V TD RD F Q WI T P.
  (* the collected lines are not the last ones: invariant over the run *)
  assert (K : forall ls, resp s = Some ls -> match rd s with RDone _ _ _ | RHandle _ _ _ | RCall _ _ | RInCB _ _ _ | RPost _ _ _ _ => True | _ => forall x, In x ls -> l_last x = false end).
  { clear - R T P. remember (init n) as s0 eqn:E0. induction R as [|s1 lbs s2 lb s3 R IH OK E]; [subst; discriminate|]. subst s1. specialize (IH eq_refl). intros ls RS.
    destruct (run_full tt pfxs T P n lbs s2 R) as (V & TD & ID & EMM & F).
    destruct lb as [i r|i|i|i|i| |st|a k|x|g]; cbn [exec] in E.
    - destruct (nth_error (ths s2) i) as [[]|]; try discriminate. destruct (rq_kind r) as [|[t|]| | |]; injection E as <-; exact (IH _ RS).
    - unfold thread_step in E. destruct (nth_error (ths s2) i) as [p|] eqn:EP; [|discriminate].
      destruct p as [|d|d|d|d|d|d|d st o|d st o|d|d|d|d st o|d st o]; try discriminate.
      all: repeat match goal with H : match ?x with _ => _ end = Some _ |- _ => destruct x eqn:?; try discriminate end.
      all: injection E as <-; repeat match goal with H : context [match rq_kind ?x with _ => _ end] |- _ => destruct (rq_kind x) end; repeat match goal with H : context [match ?x with Some _ => set_puse _ _ | None => _ end] |- _ => destruct x end; exact (IH _ RS).
    - destruct (nth_error (ths s2) i) as [[]|]; try discriminate; injection E as <-; exact (IH _ RS).
    - destruct (nth_error (ths s2) i) as [[]|]; try discriminate; injection E as <-; exact (IH _ RS).
    - destruct (nth_error (ths s2) i) as [[]|]; try discriminate; injection E as <-; exact (IH _ RS).
    - unfold reader_step in E. destruct (rd s2) as [|l|l u|l mt|l t|l|ok ls' l|ok ls' l|ls' l|id ls' l|st l ok c|] eqn:RD; try discriminate.
      + destruct (wire s2); [discriminate|]. injection E as <-. exact (IH _ RS).
      + injection E as <-. exact (IH _ RS).
      + injection E as <-. exact (IH _ RS).
      + destruct mt; injection E as <-; exact (IH _ RS).
      + (* RTyp *)
        pose proof (t_core _ _ s2 TD) as C. pose proof (c_rd _ _ _ s2 C) as D. unfold rd_ok in D. rewrite RD in D. destruct D as (tr & CU & FR & ->).
        destruct (cur_facts tt pfxs s2 tr V CU (t_ths _ _ s2 TD)) as (X1 & X2 & _ & _).
        assert (LO : line_ok tt pfxs (cur s2) l) by (apply (c_lines _ _ _ s2 C); apply in_flight_rd; rewrite RD; reflexivity). unfold line_ok in LO. unfold from in FR. rewrite FR in LO.
        destruct LO as (tr' & CU' & _ & LAST). rewrite CU in CU'. injection CU' as <-.
        unfold reader_process in E. rewrite X1 in E. set (hl := match resp s2 with Some x => x | None => [] end) in *.
        assert (HL : forall x, In x hl -> l_last x = false) by (unfold hl; destruct (resp s2) as [hl'|] eqn:R2; [apply (IH _ eq_refl)|intros x []]).
        assert (NE : (length (map (fun _ => {| it_ptr := 0; it_raw := None |}) hl ++ [{| it_ptr := 0; it_raw := None |}]) =? length hl)%nat = false).
        { apply Nat.eqb_neq. rewrite app_length, map_length. cbn. lia. }
        assert (EQ : (length (map (fun _ : line => {| it_ptr := 0; it_raw := None |}) hl) =? length hl)%nat = true) by (apply Nat.eqb_eq, map_length).
        destruct (process_line_spec (tokens_now tt (tr_extra tr)) 0 (l_text l) (dummy_response hl) (tr_type tr) (tables_with tt T _ X2)) as [[P1 P2]|[[P1 P2]|[P1 P2]]]; rewrite P2 in E; cbn [dummy_response r_items r_status] in E.
        * rewrite EQ in E. injection E as <-. exact I.
        * rewrite EQ in E. injection E as <-. exact I.
        * assert (NC : ~ no_code_type (tr_type tr) -> forall x, In x (hl ++ [l]) -> l_last x = false).
          { intros NN x I0. apply in_app_or in I0. destruct I0 as [I0|[<-|[]]]; [apply HL; exact I0|]. destruct (l_last l) eqn:L; [|reflexivity]. exfalso. destruct P1 as (P1a & P1b). destruct (proj1 LAST eq_refl) as [Y|[Y|Y]]; [exact (P1a Y)|apply P1b; apply Y|exact (NN Y)]. }
          unfold processIntermediateResponse, saveATData, saveData, dummy_response in E. cbn [r_items r_status] in E.
          destruct (tr_type tr) eqn:TY; cbn [r_items r_status] in E; rewrite ?NE, ?EQ in E.
          all: try (injection E as <-; exact I).
          all: try (injection E as <-; cbn in RS; injection RS as <-; cbn [rd set_rd]; first [exact HL|apply NC; intros [Z|Z]; discriminate]).
          all: destruct hl as [|y hl']; cbn in E; [injection E as <-; cbn in RS; injection RS as <-; cbn [rd set_rd]; apply NC; intros [Z|Z]; discriminate|].
          all: first [rewrite Nat.eqb_refl in E|cbn in EQ; rewrite EQ in E]; injection E as <-; cbn in RS; injection RS as <-; exact HL.
      + injection E as <-. exact I.
      + destruct ok; [destruct (cb s2)|]; injection E as <-; exact I.
      + destruct (cb s2) eqn:CB; injection E as <-; [exact I|]. pose proof (c_rd _ _ _ s2 (t_core _ _ s2 TD)) as D. unfold rd_ok in D. rewrite RD in D. destruct D as (tr & _ & _ & D). congruence.
      + destruct (queue s2); injection E as <-; discriminate.
    - destruct (rd s2); try discriminate. injection E as <-. exact I.
    - destruct (rd s2) eqn:RD; try discriminate. exfalso. exact (undef_never tt pfxs n lbs s2 l V TD F RD).
    - injection E as <-. exact (IH _ RS).
    - injection E as <-. exact (IH _ RS). }
  specialize (K ls RS). rewrite RD in K. rewrite (K l) in LL; [discriminate|]. rewrite O1. apply in_or_app. right. left. reflexivity.
Qed.

(** Under no schedule is a complete answer lost: from every state in which a thread waits and the modem has answered completely, at most
    12 reader actions per line on the way (and response callbacks returning) end the wait. *)
Theorem c85_complete_answer_ends_the_wait : forall tt pfxs n lbs s i p g body l, tables_ok (tokens_now tt None) -> (forall q, In q pfxs -> at_len_ok q) ->
  run tt (conforming_runs tt pfxs) (init n) lbs s -> nth_error (ths s) i = Some p -> awaits p g -> emitted lbs g = body ++ [l] -> l_last l = true ->
  exists more s', Forall reader_label more /\ (length more <= 12 * (length (wire s) + 1))%nat /\ run tt (conforming_runs tt pfxs) (init n) (lbs ++ more) s' /\
    nth_error (ths s') i = Some p /\ exists s2, exec tt (LThread i) s' = Some s2.
Proof.
  intros tt pfxs n lbs s i p g body l T P R EP AW EM LL.
  assert (WORK : (reader_work s <= 12 * (length (wire s) + 1))%nat) by (unfold reader_work; destruct (rd s); lia).
  assert (GEN : forall k lbs s, (reader_work s <= k)%nat -> run tt (conforming_runs tt pfxs) (init n) lbs s -> nth_error (ths s) i = Some p -> emitted lbs g = body ++ [l] ->
    exists more s', Forall reader_label more /\ (length more <= k)%nat /\ run tt (conforming_runs tt pfxs) (init n) (lbs ++ more) s' /\ nth_error (ths s') i = Some p /\ exists s2, exec tt (LThread i) s' = Some s2).
  { clear lbs s R EP EM WORK. induction k as [k IH] using lt_wf_ind. intros lbs s W R EP EM.
    assert (QD : queue s <> None \/ queue s = None) by (destruct (queue s); [left; discriminate|right; reflexivity]). destruct QD as [QD|QD].
    { exists [], s. rewrite app_nil_r. split; [constructor|]. split; [cbn; lia|]. split; [exact R|]. split; [exact EP|]. cbn. unfold thread_step. rewrite EP. destruct (queue s); [|congruence].
      destruct AW as (c & [(-> & _)|(-> & _)]); eauto. }
    assert (STEP : forall lb s1, reader_label lb -> exec tt lb s = Some s1 -> (reader_work s1 < reader_work s)%nat -> ths s1 = ths s ->
      exists more s', Forall reader_label more /\ (length more <= k)%nat /\ run tt (conforming_runs tt pfxs) (init n) (lbs ++ more) s' /\ nth_error (ths s') i = Some p /\ exists s2, exec tt (LThread i) s' = Some s2).
    { intros lb s1 RL E W1 TS. assert (OK : conforming_runs tt pfxs s lb) by (destruct RL as [->|(st & ->)]; (split; [split; [exact I|split; exact I]|exact I])).
      assert (R1 : run tt (conforming_runs tt pfxs) (init n) (lbs ++ [lb]) s1) by (econstructor; eauto).
      destruct (IH (reader_work s1) ltac:(lia) (lbs ++ [lb]) s1 (le_n _) R1) as (more & s' & A & B & C & D & G').
      - rewrite TS. exact EP.
      - rewrite emitted_app, EM. destruct RL as [->|(st & ->)]; apply app_nil_r.
      - exists (lb :: more), s'. split; [constructor; assumption|]. split; [cbn; lia|]. split; [rewrite <- app_assoc in C; exact C|auto]. }
    destruct (reader_step tt s) as [s1|] eqn:E.
    - apply (STEP LReader s1); [left; reflexivity|exact E|eapply reader_works; exact E|apply (reader_frame tt s s1 E)].
    - destruct (run_full tt pfxs T P n lbs s R) as (V & TD & ID & EMM & F). pose proof (c_rd _ _ _ s (t_core _ _ s TD)) as D. unfold rd_ok in D.
      unfold reader_step in E. destruct (rd s) as [|x|x u|x mt|x t|x|ok ls x|ok ls x|ls x|id ls x|st x ok c|] eqn:RD; try discriminate.
      + destruct (wire s) as [|y w] eqn:WI; [|discriminate]. exfalso; refine (answered_when_read tt pfxs n lbs s i p g body l T P R EP AW EM LL RD _ QD); rewrite WI; intros [].
      + destruct mt; discriminate.
      + (* RTyp always proceeds *)
        exfalso. destruct D as (tr & CU & FR & ->). destruct (cur_facts tt pfxs s tr V CU (t_ths _ _ s TD)) as (X1 & X2 & _ & _).
        unfold reader_process in E. rewrite X1 in E. set (hl := match resp s with Some y => y | None => [] end) in *.
        destruct (process_line_spec (tokens_now tt (tr_extra tr)) 0 (l_text x) (dummy_response hl) (tr_type tr) (tables_with tt T _ X2)) as [[P1 P2]|[[P1 P2]|[P1 P2]]]; rewrite P2 in E; try discriminate.
        destruct (processIntermediateResponse 0 (dummy_response hl) (tr_type tr)) as [st0 r0]. destruct st0; discriminate.
      + exfalso. exact (undef_never tt pfxs n lbs s x V TD F RD).
      + destruct ok; [destruct (cb s)|]; discriminate.
      + destruct (cb s); discriminate.
      + apply (STEP (LCbReturns PKT_OK) (set_rd (RPost PKT_OK x true (Some PKT_OK)) s)); [right; eauto|cbn; rewrite RD; reflexivity|unfold reader_work; cbn; rewrite RD; lia|reflexivity].
      + destruct (queue s); discriminate.
      + contradiction. }
  destruct (GEN _ lbs s WORK R EP EM) as (more & s' & A & B & C). exists more, s'. auto.
Qed.
Print Assumptions c85_complete_answer_ends_the_wait.

(** Non-triviality: a conforming run with a two-line response with a URC in between, delivered to the callback; a request with data,
    command and data answered; and a call that times out after the modem gave up. *)
Definition run85 : list label :=
  start 0 q_multi ++ [LEmit (ans "+COPS: 1" 0 false false); LEmit (urc "+CREG: 1"); LEmit (ans "+COPS: 2" 0 false false); LCall 1 q_data] ++ reads 5 ++
  [LEmit (ans "OK" 0 false true)] ++ reads 4 ++ reads 5 ++ reads 8 ++ [LCbReturns PKT_OK; LReader; LThread 0] ++ finish 0 ++
  repeat (LThread 1) 5 ++ [LEmit (ans "OK" 1 false true)] ++ reads 8 ++ repeat (LThread 1) 5 ++ [LEmit (ans "ERROR" 1 true true)] ++ reads 8 ++ repeat (LThread 1) 3 ++
  start 0 q_plain ++ [LGiveUp (2%nat, false); LTimeout 0] ++ finish 0.
Ltac fits_ok :=
  let X := fresh "X" in
  split; [split; [intros (? & X & _); discriminate|split; [discriminate|
            first [ intros _; eexists; split; [reflexivity|eexists; reflexivity]
                  | intro X; apply wp_iff in X; vm_compute in X; discriminate ]]]
         |first [intro X; cbn in X; discriminate|intros _; left; unfold multi_line_type; tauto]].
Ltac conf_ok :=
  lazymatch goal with
  | |- conforming _ _ (LEmit _) => cbn [conforming l_from ans urc ths]; let g := fresh "g" in let Q := fresh "Q" in intros g Q; first [discriminate Q|injection Q as <-];
      first [ exists 0%nat; eexists; left; split; [reflexivity|]; split; [reflexivity|]; fits_ok
            | exists 1%nat; eexists; left; split; [reflexivity|]; split; [reflexivity|]; fits_ok
            | exists 0%nat; eexists; right; split; [reflexivity|]; split; [reflexivity|]; fits_ok
            | exists 1%nat; eexists; right; split; [reflexivity|]; split; [reflexivity|]; fits_ok ]
  | |- conforming _ _ _ => exact I
  end.
Lemma run85_ok : exists s, run tt0 (conforming_runs tt0 pfx0) (init 2) run85 s /\
  log s = [ Returned {| c_id := 2; c_req := q_plain |} PKT_TIMED_OUT None;
            Returned {| c_id := 1; c_req := q_data |} PKT_FAILURE (Some {| q_st := PKT_FAILURE; q_line := ans "ERROR" 1 true true; q_ok := false; q_cb := None |});
            Returned {| c_id := 0; c_req := q_multi |} PKT_OK (Some {| q_st := PKT_OK; q_line := ans "OK" 0 false true; q_ok := true; q_cb := Some PKT_OK |});
            Delivered 0 [ans "+COPS: 1" 0 false false; ans "+COPS: 2" 0 false false] (ans "OK" 0 false true) ].
Proof.
  destruct (exec_all tt0 run85 (init 2)) as [s|] eqn:E; [|vm_compute in E; discriminate]. exists s. split.
  - apply run_exec0; [|exact E]. clear E s. let r := eval vm_compute in run85 in change run85 with r.
    let s0 := eval vm_compute in (init 2) in change (init 2) with s0.
    repeat (step_run; [unfold conforming_runs, tidy_runs; split; [split; [label_ok|split; label_ok]|conf_ok]|]). exact I.
  - vm_compute in E. injection E as <-. reflexivity.
Qed.
Example c85_ex : exists s, run tt0 (conforming_runs tt0 pfx0) (init 2) run85 s /\ length (log s) = 4%nat /\
  calls run85 = [q_multi; q_data; q_plain] /\ emitted run85 (0%nat, false) = [ans "+COPS: 1" 0 false false; ans "+COPS: 2" 0 false false; ans "OK" 0 false true] /\
  emitted run85 (1%nat, false) = [ans "OK" 1 false true] /\ emitted run85 (1%nat, true) = [ans "ERROR" 1 true true] /\ emitted run85 (2%nat, false) = [].
Proof. destruct run85_ok as (s & R & L). exists s. split; [exact R|]. rewrite L. repeat split. Qed.
(** A state in which a thread waits for an answer that is completely on the way: the first 13 labels of the run and the rest of the answer. *)
Definition run85b : list label := start 0 q_multi ++ [LEmit (ans "+COPS: 1" 0 false false); LEmit (ans "OK" 0 false true)].
Example c85_wait_ex : exists s, run tt0 (conforming_runs tt0 pfx0) (init 1) run85b s /\ nth_error (ths s) 0 = Some (Wait {| c_id := 0; c_req := q_multi |}) /\
  awaits (Wait {| c_id := 0; c_req := q_multi |}) (0%nat, false) /\ emitted run85b (0%nat, false) = [ans "+COPS: 1" 0 false false] ++ [ans "OK" 0 false true] /\ queue s = None /\ length (wire s) = 2%nat.
Proof.
  destruct (exec_all tt0 run85b (init 1)) as [s|] eqn:E; [|vm_compute in E; discriminate]. exists s. split.
  - apply run_exec0; [|exact E]. clear E s. let r := eval vm_compute in run85b in change run85b with r.
    let s0 := eval vm_compute in (init 1) in change (init 1) with s0.
    repeat (step_run; [unfold conforming_runs, tidy_runs; split; [split; [label_ok|split; label_ok]|conf_ok]|]). exact I.
  - vm_compute in E. injection E as <-. repeat split. eexists. left. split; reflexivity.
Qed.

(** ** C81 *)
(** A thread is waiting for a status. *)
Definition waits (s : state) (c : call) : Prop := exists i, nth_error (ths s) i = Some (Wait c) \/ nth_error (ths s) i = Some (DataWait c).
(** The reader thread takes no step (it is inside a callback, or has ended), and a receive from the queue does not time out while there
    is something in the queue. *)
Definition reader_stopped (s : state) (lb : label) : Prop :=
  match lb with
  | LReader | LCbReturns _ | LUndef _ _ => False
  | LTimeout _ => queue s = None
  | _ => True
  end.
Definition unanswered (c : call) (st : pkt_status) (o : option qitem) : Prop :=
  o = None /\ st <> PKT_OK /\ (can_send (c_req c) -> rq_kind (c_req c) <> KToken None -> st = PKT_TIMED_OUT).
Definition stopped_pc (p : tpc) : Prop :=
  match p with
  | Reset c st o | Unhook c st o | Release c st o => unanswered c st o
  | Data1 _ | Data2 _ | DataWait _ | DataReset _ _ _ => False
  | _ => True
  end.
Definition waiting_pc (p : tpc) : bool := match p with Wait _ | DataWait _ => true | _ => false end.
Record Stopped (m : nat) (dl : list nat) (s : state) : Prop := {
  d_inv : Inv s;
  d_queue : queue s = None \/ exists c, waits s c /\ (c_id c < m)%nat;
  d_next : (m <= next s)%nat;
  d_pc : forall i p c, nth_error (ths s) i = Some p -> call_of p = Some c -> (m <= c_id c)%nat -> stopped_pc p;
  d_log : forall c st o, In (Returned c st o) (log s) -> (m <= c_id c)%nat -> unanswered c st o;
  d_del : delivered_ids (log s) = dl }.
Lemma waits_set s s' i p p' c : nth_error (ths s) i = Some p -> waiting_pc p = false -> ths s' = set_nth (ths s) i p' -> waits s c -> waits s' c.
Proof.
  intros EP WP TS (j & W). exists j. rewrite TS. assert (i <> j) by (intros ->; destruct W as [W|W]; rewrite EP in W; injection W as ->; discriminate).
  rewrite nth_set_neq by assumption. exact W.
Qed.
Lemma stopped_move m dl s s' i p p' c : Stopped m dl s -> Inv s' -> nth_error (ths s) i = Some p -> call_of p = Some c -> call_of p' = Some c -> ths s' = set_nth (ths s) i p' ->
  (queue s' = queue s /\ waiting_pc p = false \/ queue s' = None) -> next s' = next s -> log s' = log s ->
  ((m <= c_id c)%nat -> stopped_pc p -> stopped_pc p') -> Stopped m dl s'.
Proof.
  intros [V A B C D L0] V' EP CO CO' TS Q NX LG H. split; [exact V'| |lia| |rewrite LG; exact D|rewrite LG; exact L0].
  - destruct Q as [(Q & WP)|Q]; [|left; exact Q]. rewrite Q. destruct A as [A|(d & W & LT)]; [left; exact A|right]. exists d. split; [eapply waits_set; eassumption|exact LT].
  - intros j q d EJ CJ LE. rewrite TS in EJ. apply nth_set_cases in EJ. destruct EJ as [[<- ->]|[_ EJ]]; [|eauto]. rewrite CO' in CJ. injection CJ as <-. apply H; eauto.
Qed.
(** A call made while the reader is stopped finds the queue empty when it waits. *)
Lemma new_finds_empty m dl s i p c : Stopped m dl s -> nth_error (ths s) i = Some p -> call_of p = Some c -> holding p = true -> (m <= c_id c)%nat -> queue s = None.
Proof.
  intros [V A B C D L0] EP CO HO LE. destruct A as [A|(d & (j & W) & LT)]; [exact A|exfalso].
  pose proof (inv_excl s V i p EP HO) as M1.
  assert (M2 : mtx s = Some j) by (destruct W as [W|W]; exact (inv_excl s V j _ W eq_refl)). rewrite M1 in M2. injection M2 as <-.
  destruct W as [W|W]; rewrite EP in W; injection W as ->; injection CO as <-; lia.
Qed.
Lemma exec_stopped tt m dl lb s s' : Stopped m dl s -> reader_stopped s lb -> exec tt lb s = Some s' -> Stopped m dl s'.
Proof.
  intros DD RDD E. assert (V' : Inv s') by (eapply exec_inv; [exact (d_inv _ _ _ DD)|exact E]). pose proof DD as [V A B C D L0].
  destruct lb as [i r|i|i|i|i| |st|a k|l|g]; cbn [exec reader_stopped] in *; try contradiction.
  - destruct (nth_error (ths s) i) as [[]|] eqn:EP; try discriminate.
    destruct (rq_kind r) as [|[t|]| | |] eqn:K; injection E as <-.
    3: { split; auto; try (cbn; lia); try exact L0. intros c st o [[= <- <- <-]|I0] LE; [|eauto]. split; [reflexivity|]. split; [discriminate|]. cbn. intros _ NN. congruence. }
    all: split; auto; try (cbn; lia); try exact D; try exact L0.
    all: try (intros j p c EJ CJ LE; apply nth_set_cases in EJ; destruct EJ as [[<- ->]|[_ EJ]]; [exact I|eauto]).
    all: destruct A as [A|(dd & W & LT)]; [left; exact A|right; exists dd; split; [eapply (waits_set s _ i Idle); [exact EP|reflexivity|reflexivity|exact W]|exact LT]].
  - unfold thread_step in E. destruct (nth_error (ths s) i) as [p|] eqn:EP; [|discriminate].
    destruct p as [|c|c|c|c|c|c|c st o|c st o|c|c|c|c st o|c st o]; try discriminate.
    + destruct (mtx s); [discriminate|]. injection E as <-. eapply (stopped_move m dl s _ i _ (Hook c) c DD V' EP); auto.
    + injection E as <-. eapply (stopped_move m dl s _ i _ (Setup c) c DD V' EP); auto; try (destruct (rq_kind (c_req c)); auto).
    + destruct (rq_cmd (c_req c)) eqn:RC; injection E as <-.
      * eapply (stopped_move m dl s _ i _ (SendA c) c DD V' EP); auto.
      * eapply (stopped_move m dl s _ i _ (Unhook c PKT_BAD_REQUEST None) c DD V' EP); auto. intros _ _. split; [reflexivity|]. split; [discriminate|]. intros (cmd & Q & _). congruence.
    + destruct (rq_cmd (c_req c)) as [cmd|] eqn:RC; [|discriminate]. destruct (send_check _ _ _) as [st|e] eqn:SC; injection E as <-.
      * eapply send_check_cannot in SC; [|exact RC|reflexivity|reflexivity]; destruct SC as (CS & ->). eapply (stopped_move m dl s _ i _ (Reset c PKT_BAD_PARAM None) c DD V' EP); auto. cbn. intros _ _. split; [reflexivity|]. split; [discriminate|]. intro Q. contradiction.
      * eapply (stopped_move m dl s _ i _ (SendB c) c DD V' EP); auto; try (destruct e; auto).
    + injection E as <-. eapply (stopped_move m dl s _ i _ (Wait c) c DD V' EP); auto.
    + destruct (queue s) as [q|] eqn:QQ; [|discriminate]. injection E as <-. eapply (stopped_move m dl s _ i _ (Reset c (q_st q) (Some q)) c DD V' EP); auto.
      intros LE _. pose proof (new_finds_empty _ _ _ _ _ c DD EP eq_refl eq_refl LE). congruence.
    + injection E as <-. eapply (stopped_move m dl s _ i _ (Unhook c st o) c DD V' EP); auto.
    + injection E as <-. assert (X : call_of (after_command c st o) = Some c) by (unfold after_command; destruct (data_of _), st; reflexivity).
      eapply (stopped_move m dl s _ i _ (after_command c st o) c DD V' EP); auto; try (destruct (rq_kind (c_req c)); auto; fail).
      cbn [stopped_pc]. intros _ U. pose proof U as (_ & NO & _). unfold after_command. destruct (data_of _), st; try exact U. congruence.
    + destruct (data_of _) as [d|]; [|discriminate]. destruct (d_data d); injection E as <-.
      * eapply (stopped_move m dl s _ i _ (Data2 c) c DD V' EP); auto.
      * eapply (stopped_move m dl s _ i _ (Release c PKT_BAD_REQUEST None) c DD V' EP); auto. intros _ [].
    + injection E as <-. eapply (stopped_move m dl s _ i _ (DataWait c) c DD V' EP); auto.
    + destruct (queue s) as [q|] eqn:QQ; [|discriminate]. injection E as <-. eapply (stopped_move m dl s _ i _ (DataReset c (q_st q) (Some q)) c DD V' EP); auto.
    + injection E as <-. eapply (stopped_move m dl s _ i _ (Release c st o) c DD V' EP); auto. intros _ [].
    + injection E as <-. split; auto.
      * destruct A as [A|(d & W & LT)]; [left; exact A|right; exists d; split; [eapply (waits_set s _ i (Release c st o)); [exact EP|reflexivity|reflexivity|exact W]|exact LT]].
      * intros j q d EJ CJ LE. apply nth_set_cases in EJ. destruct EJ as [[<- ->]|[_ EJ]]; [discriminate|eauto].
      * intros d st' o' [[= <- <- <-]|I0] LE; [|eauto]. exact (C i _ c EP eq_refl LE).
  - destruct (nth_error (ths s) i) as [[]|] eqn:EP; try discriminate; injection E as <-.
    + eapply (stopped_move m dl s _ i _ (Reset c PKT_TIMED_OUT None) c DD V' EP); auto. cbn. intros _ _. split; [reflexivity|]. split; [discriminate|auto].
    + eapply (stopped_move m dl s _ i _ (DataReset c PKT_TIMED_OUT None) c DD V' EP); auto.
  - destruct (nth_error (ths s) i) as [[]|] eqn:EP; try discriminate; injection E as <-. eapply (stopped_move m dl s _ i _ (Wait c) c DD V' EP); auto.
  - destruct (nth_error (ths s) i) as [[]|] eqn:EP; try discriminate; injection E as <-. eapply (stopped_move m dl s _ i _ (Release c PKT_SEND_ERROR None) c DD V' EP); auto. intros _ [].
  - injection E as <-. split; auto.
  - injection E as <-. split; auto.
Qed.
Lemma stopped_init tt n before s0 : run tt anything (init n) before s0 -> (queue s0 = None \/ exists c, waits s0 c) -> Stopped (next s0) (delivered_ids (log s0)) s0.
Proof.
  intros R0 Q. pose proof (run_ids _ _ _ _ _ R0) as ID. split; auto.
  - exact (run_inv _ _ _ _ _ R0).
  - destruct Q as [Q|(c & j & W)]; [left; exact Q|right]. exists c. split; [exists j; exact W|].
    assert (Z : nth_error (calls before) (c_id c) = Some (c_req c)) by (destruct W as [W|W]; exact (i_thr _ _ ID j _ c W eq_refl)).
    rewrite <- (i_len _ _ ID). apply nth_error_Some. congruence.
  - intros i p d EP CO L. exfalso. pose proof (i_thr _ _ ID i p d EP CO) as Z. assert (c_id d < length (calls before))%nat by (apply nth_error_Some; congruence). rewrite (i_len _ _ ID) in *. lia.
  - intros d st' o' I L. exfalso. destruct (i_ret _ _ ID d st' o' I) as (Z & _). assert (c_id d < length (calls before))%nat by (apply nth_error_Some; congruence). rewrite (i_len _ _ ID) in *. lia.
Qed.
(** From the moment the reader takes no step any more (because it is inside a callback), with no status left behind in the queue (either
    the queue is empty or a thread waits, for which the status is): every call made from then on that returns is reported as failed,
    whatever the modem answers, as timed out if its command could be transmitted; and no response callback is called. *)
Theorem c81_busy_reader : forall tt n before s0 after s, run tt anything (init n) before s0 ->
  (queue s0 = None \/ exists c, waits s0 c) -> run tt reader_stopped s0 after s ->
  (forall c st o, In (Returned c st o) (log s) -> (length (calls before) <= c_id c)%nat ->
    st <> PKT_OK /\ (can_send (c_req c) -> rq_kind (c_req c) <> KToken None -> st = PKT_TIMED_OUT)) /\
  delivered_ids (log s) = delivered_ids (log s0).
Proof.
  intros tt n before s0 after s R0 Q R. pose proof (i_len _ _ (run_ids _ _ _ _ _ R0)) as LEN. rewrite LEN.
  assert (DD : Stopped (next s0) (delivered_ids (log s0)) s).
  { pose proof (stopped_init _ _ _ _ R0 Q) as D0. clear R0 Q LEN. revert D0. generalize (next s0) (delivered_ids (log s0)). intros m dl D0.
    induction R as [s0|s0 lbs s1 lb s2 R IH OK E]; [exact D0|]. eapply exec_stopped; [apply IH; exact D0|exact OK|exact E]. }
  split; [|exact (d_del _ _ _ DD)]. intros c st o I0 LE. destruct (d_log _ _ _ DD c st o I0 LE) as (_ & X & Y). auto.
Qed.
Print Assumptions c81_busy_reader.
(** In runs whose time-outs leave nothing behind, no status is ever left behind in the queue: the theorem above applies to every such run. *)
Theorem c81_nothing_left_behind : forall tt pfxs n before s0, tables_ok (tokens_now tt None) -> (forall q, In q pfxs -> at_len_ok q) ->
  run tt (tidy_runs tt pfxs) (init n) before s0 -> queue s0 = None \/ exists c, waits s0 c.
Proof.
  intros tt pfxs n before s0 T P R. destruct (run_tidy tt pfxs T P n before s0 R) as (V & TD). destruct (queue s0) as [q|] eqn:Q; [right|left; reflexivity].
  destruct (c_queue _ _ _ s0 (t_core _ _ s0 TD) q Q) as (_ & _ & _ & tr & CU & _). apply cur_current in CU. destruct (current_call s0 _ CU) as (i & p & c & EP & _ & _ & [(-> & _)|(-> & _)]); exists c, i; auto.
Qed.
Print Assumptions c81_nothing_left_behind.
(** The modem answers request 0 and the reader is inside its response callback; the other thread's request is accepted and transmitted
    only after request 0 has timed out, is answered by the modem, and times out. *)
Definition cb_pfx : list label := start 0 q_multi ++ [LEmit (ans "OK" 0 false true)] ++ repeat LReader 8.
Definition cb_rest : list label := [LTimeout 0] ++ finish 0 ++ start 1 q_plain ++ [LEmit (ans "OK" 1 false true); LTimeout 1] ++ finish 1.
Example c81_ex : exists s0 s, run tt0 anything (init 2) cb_pfx s0 /\ queue s0 = None /\ (exists ls l, rd s0 = RInCB 0 ls l) /\ run tt0 reader_stopped s0 cb_rest s /\
  calls cb_pfx = [q_multi] /\ In (Returned {| c_id := 1; c_req := q_plain |} PKT_TIMED_OUT None) (log s) /\ can_send q_plain /\ length (delivered_ids (log s)) = 1%nat.
Proof.
  destruct (exec_all tt0 cb_pfx (init 2)) as [s0|] eqn:E0; [|vm_compute in E0; discriminate]. exists s0.
  destruct (exec_all tt0 cb_rest s0) as [s|] eqn:E; [|exfalso; vm_compute in E0; injection E0 as <-; vm_compute in E; discriminate]. exists s.
  split; [|split; [|split; [|split; [|split; [reflexivity|split; [|split]]]]]].
  - apply run_exec0; [|exact E0]. eapply all_anything; exact E0.
  - vm_compute in E0. injection E0 as <-. reflexivity.
  - vm_compute in E0. injection E0 as <-. eexists. eexists. reflexivity.
  - apply (run_of_exec reader_stopped tt0 cb_rest s0 [] s0); [constructor| |exact E]. vm_compute in E0. injection E0 as <-. clear E. let r := eval vm_compute in cb_rest in change cb_rest with r. repeat (step_run; [first [exact I|reflexivity]|]). exact I.
  - vm_compute in E0. injection E0 as <-. vm_compute in E. injection E as <-. left. reflexivity.
  - eexists. split; [reflexivity|]. split; [cbn; lia|]. split; [discriminate|]. intros [Q|[Q|Q]]; discriminate.
  - vm_compute in E0. injection E0 as <-. vm_compute in E. injection E as <-. reflexivity.
Qed.

(** ** C86 *)
(** Nobody starts a transmission: the request functions set up the reader for a response (of a command, of data) in these two steps. *)
Definition no_transmission (s : state) (lb : label) : Prop :=
  match lb with
  | LThread i => match nth_error (ths s) i with Some (SendA _) | Some (Data1 _) => False | _ => True end
  | _ => True
  end.
(** What may still come from the response completed last ([fin]: its lines and the line that completed it), if any: its lines are delivered
    once, its status is posted. Nothing else is delivered or posted. *)
Definition at_most_its_own (fin : option (list line * line)) (s0 s : state) : Prop :=
  (delivered_ids (log s) = delivered_ids (log s0) \/
   exists id ls l, fin = Some (ls, l) /\ In (Delivered id ls l) (log s) /\ delivered_ids (log s) = id :: delivered_ids (log s0)) /\
  (forall q, queue s = Some q -> queue s0 = Some q \/ exists ls, fin = Some (ls, q_line q)).
Definition finishing (p : rpc) : bool := match p with RDone _ _ _ | RHandle _ _ _ | RCall _ _ | RInCB _ _ _ | RPost _ _ _ _ | RCrashed => true | _ => false end.
Record Between (fin : option (list line * line)) (s0 s : state) : Prop := {
  b_typ : match rd s with RDone _ _ _ => True | _ => typ s = T_NO_COMMAND end;
  b_rd : match rd s with
         | RDone _ ls l | RHandle _ ls l | RCall ls l => fin = Some (ls, l) /\ delivered_ids (log s) = delivered_ids (log s0)
         | RInCB _ _ l | RPost _ l _ _ => exists ls, fin = Some (ls, l)
         | RTyp _ _ => False
         | RCrashed => fin <> None
         | RMsg _ mt => mt <> AT_SOLICITED
         | _ => True
         end;
  b_resp : finishing (rd s) = false -> resp s = None;
  b_own : at_most_its_own fin s0 s }.
Lemma between_frame fin s0 s s' : Between fin s0 s -> rd s' = rd s -> (typ s' = typ s \/ typ s' = T_NO_COMMAND) -> resp s' = resp s -> (queue s' = queue s \/ queue s' = None) ->
  (log s' = log s \/ exists c st o, log s' = Returned c st o :: log s) -> Between fin s0 s'.
Proof.
  intros [A B C (D1 & D2)] R T RS Q LG. assert (DL : delivered_ids (log s') = delivered_ids (log s)) by (destruct LG as [->|(c & st & o & ->)]; reflexivity).
  split.
  - rewrite R. destruct (rd s); try exact I; destruct T; congruence.
  - rewrite R, DL. exact B.
  - rewrite R, RS. exact C.
  - split.
    + rewrite DL. destruct D1 as [D1|(id & ls & l & F & I0 & D1)]; [left; exact D1|right]. exists id, ls, l. split; [exact F|]. split; [|exact D1]. destruct LG as [->|(c & st & o & ->)]; [exact I0|right; exact I0].
    + intros q E. destruct Q as [Q|Q]; [|congruence]. apply D2. congruence.
Qed.
Lemma exec_between tt fin s0 lb s s' : Between fin s0 s -> no_transmission s lb -> exec tt lb s = Some s' -> Between fin s0 s'.
Proof.
  intros BB NT E. destruct lb as [i r|i|i|i|i| |st|a k|x|g]; cbn [exec no_transmission] in *.
  - destruct (nth_error (ths s) i) as [[]|] eqn:EP; try discriminate. destruct (rq_kind r) as [|[t|]| | |] eqn:K; injection E as <-; (eapply between_frame; [exact BB|auto..]); cbn; eauto 6.
  - unfold thread_step in E. destruct (nth_error (ths s) i) as [p|] eqn:EP; [|discriminate].
    destruct p as [|c|c|c|c|c|c|c st o|c st o|c|c|c|c st o|c st o]; try discriminate; try contradiction.
    all: repeat match goal with H : match ?x with _ => _ end = Some _ |- _ => destruct x eqn:?; try discriminate end.
    all: injection E as <-; try (destruct (rq_kind (c_req c))); (eapply between_frame; [exact BB|auto..]); cbn; eauto 6.
  - destruct (nth_error (ths s) i) as [[]|] eqn:EP; try discriminate; injection E as <-; (eapply between_frame; [exact BB|auto..]).
  - destruct (nth_error (ths s) i) as [[]|] eqn:EP; try discriminate; injection E as <-; (eapply between_frame; [exact BB|auto..]).
  - destruct (nth_error (ths s) i) as [[]|] eqn:EP; try discriminate; injection E as <-; (eapply between_frame; [exact BB|auto..]).
  - destruct BB as [A B C (D1 & D2)]. unfold reader_step in E. destruct (rd s) as [|y|y u|y mt|y t|y|ok ls' y|ok ls' y|ls' y|id ls' y|st y ok c|] eqn:RD; try discriminate; try contradiction.
    + destruct (wire s); [discriminate|]. injection E as <-. split; [exact A|exact I|exact C|split; assumption].
    + injection E as <-. split; [exact A|exact I|exact C|split; assumption].
    + injection E as <-. split; [exact A| |exact C|split; assumption]. cbn. intro Q. exact (solicited_typ _ _ _ _ Q A).
    + destruct mt; try congruence; injection E as <-; (split; [exact A|exact I|exact C|split; assumption]).
    + injection E as <-. split; [reflexivity|exact B|discriminate|split; assumption].
    + destruct ok; [destruct (cb s)|]; injection E as <-; (split; [exact A|cbn; first [exact B|exists ls'; apply B]|discriminate|split; assumption]).
    + destruct B as (F & B). destruct (cb s) as [id|]; injection E as <-.
      * split; [exact A|exists ls'; exact F|discriminate|]. split; [|exact D2]. right. exists id, ls', y. split; [exact F|]. split; [left; reflexivity|]. change (id :: delivered_ids (log s) = id :: delivered_ids (log s0)). rewrite B. reflexivity.
      * split; [exact A|cbn; rewrite F; discriminate|discriminate|split; assumption].
    + destruct (queue s) eqn:Q; injection E as <-; (split; [exact A|exact I|reflexivity|split; [exact D1|]]).
      * cbn. rewrite Q. exact D2.
      * cbn. intros q [= <-]. right. exact B.
  - destruct BB as [A B C (D1 & D2)]. destruct (rd s); try discriminate. injection E as <-. split; [exact A|exact B|discriminate|split; assumption].
  - destruct BB as [A B C (D1 & D2)]. destruct (rd s) eqn:RD; try discriminate. destruct a; injection E as <-; (split; [first [exact A|reflexivity]|exact I|first [exact C|reflexivity]|split; assumption]).
  - injection E as <-. eapply between_frame; [exact BB|auto..].
  - injection E as <-. eapply between_frame; [exact BB|auto..].
Qed.
(** Whatever the modem sends, and whatever calls are made and time out: from the moment a response is complete until the next transmission
    is set up, no line is collected for a response, no response is delivered and no status posted except this response's. *)
Theorem c86_no_response_between_requests : forall tt s0 ok ls l after s, rd s0 = RDone ok ls l -> run tt no_transmission s0 after s ->
  at_most_its_own (Some (ls, l)) s0 s /\ (rd s = RIdle -> resp s = None).
Proof.
  intros tt s0 ok ls l after s RD R. assert (BB : Between (Some (ls, l)) s0 s).
  { assert (B0 : Between (Some (ls, l)) s0 s0) by (split; [rewrite RD; exact I|rewrite RD; auto|rewrite RD; discriminate|split; auto]).
    clear RD. revert B0. generalize s0 at 1 3. intros r B0. induction R as [s0|s0 lbs s1 lb s2 R IH OK E]; [exact B0|]. eapply exec_between; [apply IH; exact B0|exact OK|exact E]. }
  split; [exact (b_own _ _ _ BB)|]. intro RI. apply (b_resp _ _ _ BB). rewrite RI. reflexivity.
Qed.
Print Assumptions c86_no_response_between_requests.
(** Before the first transmission nothing is delivered, posted or collected. *)
Theorem c86_no_response_before_the_first_request : forall tt n lbs s, run tt no_transmission (init n) lbs s ->
  delivered_ids (log s) = [] /\ queue s = None /\ resp s = None.
Proof.
  intros tt n lbs s R. assert (BB : Between None (init n) s).
  { assert (B0 : Between None (init n) (init n)) by (split; [reflexivity|exact I|reflexivity|split; auto]).
    remember (init n) as s0 eqn:E0. clear E0. revert B0. generalize s0 at 1 3. intros r B0. induction R as [s0|s0 lbs s1 lb s2 R IH OK E]; [exact B0|]. eapply exec_between; [apply IH; exact B0|exact OK|exact E]. }
  destruct BB as [A B C (D1 & D2)]. split; [destruct D1 as [D1|(id & ls & l & F & _)]; [exact D1|discriminate]|]. split.
  - destruct (queue s) as [q|]; [|reflexivity]. destruct (D2 q eq_refl) as [Q|(ls & F)]; discriminate.
  - apply C. destruct (rd s); try reflexivity; cbn in B; first [destruct B as (? & ?); discriminate|contradiction].
Qed.
Print Assumptions c86_no_response_before_the_first_request.
(** After the complete answer the modem goes on: a second OK is refused as an unexpected line, before the waiting thread has run. *)
Definition done_pfx : list label := start 0 q_multi ++ [LEmit (ans "OK" 0 false true)] ++ repeat LReader 5.
Definition done_rest : list label := repeat LReader 3 ++ [LCbReturns PKT_OK; LReader; LEmit (ans "OK" 0 false true)] ++ repeat LReader 4 ++ [LUndef true 0].
Example c86_ex : exists s0 s ls l, run tt0 anything (init 1) done_pfx s0 /\ rd s0 = RDone true ls l /\ run tt0 no_transmission s0 done_rest s /\
  rd s = RIdle /\ delivered_ids (log s) = [0%nat] /\ queue s <> None.
Proof.
  destruct (exec_all tt0 done_pfx (init 1)) as [s0|] eqn:E0; [|vm_compute in E0; discriminate]. exists s0.
  destruct (exec_all tt0 done_rest s0) as [s|] eqn:E; [|exfalso; vm_compute in E0; injection E0 as <-; vm_compute in E; discriminate]. exists s.
  assert (R0 : run tt0 anything (init 1) done_pfx s0) by (apply run_exec0; [|exact E0]; eapply all_anything; exact E0).
  assert (R1 : run tt0 no_transmission s0 done_rest s).
  { apply (run_of_exec no_transmission tt0 done_rest s0 [] s0); [constructor| |exact E]. vm_compute in E0. injection E0 as <-. clear E R0. let r := eval vm_compute in done_rest in change done_rest with r. repeat (step_run; [exact I|]). exact I. }
  vm_compute in E0. injection E0 as <-. vm_compute in E. injection E as <-. eexists. eexists. split; [exact R0|]. split; [reflexivity|]. split; [exact R1|]. split; [reflexivity|]. split; [reflexivity|discriminate].
Qed.

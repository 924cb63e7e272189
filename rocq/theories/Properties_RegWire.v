(** C97: registration reports on the wire reach the registration callback. *)
From Coq Require Import String List NArith ZArith Bool Arith Lia.
From Verif Require Import Bytes AtCore AtMem Status SpecAt AtProofs Pktio SpecPktio PktioLine PktHandler SpecUrc UrcProofs RegStatus SpecReg RegProofs SpecStream PktioStream G3pp Wire SpecWire SpecTimed PktioTimed RegWire SpecRegWire RegWireProofs.
From Verif Require Import SpecG3ppApi Properties_Pktio Properties_Urc Properties_Reg.
Import ListNotations.
Local Open Scope string_scope.
Local Open Scope list_scope.

(** Bytes in any chunks, any other commands set up, answered and timed out meanwhile: the record of the registration and the events the
    application gets are those the lines say, in order, each report counting once.  If a line is refused, the reports behind it in the
    same chunk are not among them (the part missing from the full claim); without refusal the lines are all lines of the stream. *)
Theorem c97_reports_reach_the_application_partial : forall bits alloc tbl who cb cap fuel env t cs t' h' s', (32 <= bits)%Z ->
  increasing (map fst tbl) -> alloc_ok alloc -> memory_available alloc -> reg_table tbl who -> text_env env -> no_reg_query env ->
  execution cap fuel env t [] (rx0 cap) cs t' h' s' ->
  exists kept, survive cap [] cs kept /\ (~ In EvDrop h' -> kept = fst (capped_lines cap [] (concat cs))) /\
    forall d d' evs, story cb d kept d' evs -> exists tl, urc_events bits alloc tbl who cb h' d = Ok (d', tl) /\ reg_told tl = evs.
Proof.
  intros bits alloc tbl who cb cap fuel env t cs t' h' s' HB HI HA HM HT HE HQ RUN.
  pose proof (text_complete cap env HE _ _ _ _ _ _ RUN) as TP.
  destruct (chunks_told bits alloc tbl who cb HB HI HA HM HT cap env HQ _ _ _ _ _ _ _ TP (Forall_nil _)) as (x & kept & -> & SV & KE & K).
  exists kept. auto.
Qed.
Print Assumptions c97_reports_reach_the_application_partial.

(** The stream decides, not its fragmentation: two executions that receive the same bytes in different chunks, with other commands going
    on, tell the application the same. *)
Theorem c97_fragmentation_partial : forall bits alloc tbl who cb cap fuel1 env1 t1 cs1 t1' h1 s1 fuel2 env2 t2 cs2 t2' h2 s2 d d' evs, (32 <= bits)%Z ->
  increasing (map fst tbl) -> alloc_ok alloc -> memory_available alloc -> reg_table tbl who ->
  text_env env1 -> no_reg_query env1 -> execution cap fuel1 env1 t1 [] (rx0 cap) cs1 t1' h1 s1 -> ~ In EvDrop h1 ->
  text_env env2 -> no_reg_query env2 -> execution cap fuel2 env2 t2 [] (rx0 cap) cs2 t2' h2 s2 -> ~ In EvDrop h2 ->
  concat cs1 = concat cs2 -> story cb d (fst (capped_lines cap [] (concat cs1))) d' evs ->
  exists tl1 tl2, urc_events bits alloc tbl who cb h1 d = Ok (d', tl1) /\ urc_events bits alloc tbl who cb h2 d = Ok (d', tl2) /\ reg_told tl1 = evs /\ reg_told tl2 = evs.
Proof.
  intros bits alloc tbl who cb cap fuel1 env1 t1 cs1 t1' h1 s1 fuel2 env2 t2 cs2 t2' h2 s2 d d' evs HB HI HA HM HT E1 Q1 R1 N1 E2 Q2 R2 N2 EQ ST.
  destruct (c97_reports_reach_the_application_partial bits alloc tbl who cb cap fuel1 env1 t1 cs1 t1' h1 s1 HB HI HA HM HT E1 Q1 R1) as (k1 & _ & K1 & F1).
  destruct (c97_reports_reach_the_application_partial bits alloc tbl who cb cap fuel2 env2 t2 cs2 t2' h2 s2 HB HI HA HM HT E2 Q2 R2) as (k2 & _ & K2 & F2).
  rewrite (K1 N1) in F1. rewrite (K2 N2), <- EQ in F2. destruct (F1 _ _ _ ST) as (tl1 & A1 & B1). destruct (F2 _ _ _ ST) as (tl2 & A2 & B2). exists tl1, tl2. auto.
Qed.
Print Assumptions c97_fragmentation_partial.

(** The sample table, its registration handlers, enough memory. *)
Definition sample_who (h : nat) : option reg_type := match h with 0%nat => Some REG_CEREG | 1%nat => Some REG_CGREG | 2%nat => Some REG_CREG | _ => None end.
Definition plenty (n : nat) : option (list N) := Some (repeat 0%N n).
Lemma sample_reg_table : reg_table sample_urcs sample_who.
Proof.
  split.
  - intros [] H; [exists 2%nat|exists 1%nat|exists 0%nat|contradiction H; reflexivity]; (split; [cbn; tauto|reflexivity]).
  - intros name h rt I W. cbn in I. repeat destruct I as [I|I]; try discriminate; try (injection I as <- <-; injection W as <-; split; [discriminate|reflexivity]).
    + injection I as <- <-. discriminate.
    + destruct I.
Qed.
Lemma plenty_ok : alloc_ok plenty /\ memory_available plenty.
Proof. split; [intros n d [= <-]; apply repeat_length|intros n _; discriminate]. Qed.

Definition reg_line : str := s2b "+CREG:" ++ sample_raw.
Lemma reg_line_ok : reg_urc REG_CREG reg_line [1; 65534; 54637837; 8]%Z.
Proof.
  split; [discriminate|]. split; [split; [discriminate|cbn; lia]|]. exists sample_raw, sample_texts, []. split; [reflexivity|]. rewrite app_nil_r.
  split; [exact sample_line|]. split; [exact sample_fields|]. split; [discriminate|left; reflexivity].
Qed.
Lemma urc_line_ok : reg_urc REG_CREG (s2b "+CREG: 1") [1]%Z.
Proof.
  split; [discriminate|]. split; [split; [discriminate|cbn; lia]|]. exists (s2b " 1"), [s2b "1"], []. split; [reflexivity|]. rewrite app_nil_r. split.
  - split; [split; [discriminate|cbn; lia]|]. split; [unfold no_nul; cbn; lia|]. split; [cbn; without_tac|repeat constructor; cbn; lia].
  - split; [|split; [discriminate|left; reflexivity]]. repeat constructor; cbn [field_base field_range s2b]; unfold int32_range; try lia. numeral [1]%N.
Qed.
Lemma not_reg (l : str) : (forall rt, rt <> REG_UNKNOWN -> starts (43%N :: reg_name rt) l = false /\ starts (reg_name rt) l = false /\ starts [43%N; 58%N] l = false) -> other_line l.
Proof.
  intro H. right. intros rt p RU. destruct (H rt RU) as (A & B & C). split; [|split]; intros ->.
  - assert (X : starts (43%N :: reg_name rt) (43%N :: reg_name rt ++ 58%N :: p) = true) by (apply starts_iff; exists (58%N :: p); reflexivity). congruence.
  - assert (X : starts (reg_name rt) (reg_name rt) = true) by (apply starts_iff; exists []; rewrite app_nil_r; reflexivity). congruence.
  - assert (X : starts [43%N; 58%N] (43%N :: 58%N :: p) = true) by (apply starts_iff; exists p; reflexivity). congruence.
Qed.
Lemma plain_env_ok cmd prefix : prefix_usable prefix -> text_env (always (sample_view cmd prefix None)).
Proof. intros P t h. cbn. repeat (split; [reflexivity|]). split; [exact sample_tables|]. split; [exact P|reflexivity]. Qed.
Lemma cops_no_query : no_reg_query (always (sample_view T_WITH_PREFIX (Some (s2b "+COPS")) None)).
Proof. intros t h rt p RU. right. intros (q & E & (r & X)). injection E as <-. destruct rt; cbn in X; discriminate X. Qed.

(** The hypotheses are met: a registration report in three pieces while "AT+COPS?" is in flight, then its answer. *)
Definition sample_stream97 : list str := [crlf ++ s2b "+CR"; s2b "EG: 1," ++ [34%N] ++ s2b "FFFE" ++ [34%N] ++ s2b "," ++ [34%N] ++ s2b "341B"; s2b "50D" ++ [34%N] ++ s2b ",8" ++ crlf ++ s2b "+COPS: 0" ++ crlf ++ s2b "OK" ++ crlf].
Example c97_ex : text_env (always (sample_view T_WITH_PREFIX (Some (s2b "+COPS")) None)) /\ no_reg_query (always (sample_view T_WITH_PREFIX (Some (s2b "+COPS")) None)) /\
  fst (capped_lines code_cap [] (concat sample_stream97)) = [reg_line; s2b "+COPS: 0"; s2b "OK"] /\
  exists t s, execution code_cap 2000 (always (sample_view T_WITH_PREFIX (Some (s2b "+COPS")) None)) 0 [] (rx0 code_cap) sample_stream97 t [EvUrc reg_line; EvResp true [s2b "+COPS: 0"]] s /\
  exists d evs, story true at_data0 [reg_line; s2b "+COPS: 0"; s2b "OK"] d evs /\ length evs = 1%nat /\ d_cs d = 1%Z /\ d_cellId d = 54637837%Z.
Proof.
  split. { apply plain_env_ok. intros p [= <-]. split; [discriminate|cbn; lia]. }
  split; [exact cops_no_query|]. split; [vm_compute; reflexivity|]. eexists _, _. split.
  - unfold sample_stream97.
    change (crlf ++ s2b "+CR") with (chunk (crlf ++ s2b "+CR") (offered code_cap (rx0 code_cap))).
    eapply ex_read; [apply chunk_contract|left; vm_compute; discriminate|vm_compute; reflexivity|].
    match goal with |- execution _ _ _ _ _ ?s (?c :: _) _ _ _ => change c with (chunk c (offered code_cap s)) end.
    eapply ex_read; [apply chunk_contract|left; vm_compute; discriminate|vm_compute; reflexivity|].
    match goal with |- execution _ _ _ _ _ ?s (?c :: _) _ _ _ => change c with (chunk c (offered code_cap s)) end.
    eapply ex_read; [apply chunk_contract|left; vm_compute; discriminate|vm_compute; reflexivity|apply ex_nil].
  - eexists _, _. split; [eapply st_reg; [exact reg_line_ok|]; eapply st_other; [|eapply st_other; [|apply st_nil]]; apply not_reg; intros [] RU; vm_compute; try tauto; contradiction RU; reflexivity|].
    vm_compute. auto.
Qed.

(** Missing from the full claim: a line that is refused takes the report behind it with it; *)
Theorem c97_report_lost_refuted : exists t s d evs,
  execution code_cap 2000 (always (sample_view T_NO_COMMAND None None)) 0 [] (rx0 code_cap) [junk_then_urc] t [EvUndef (s2b "junk"); EvDrop] s /\
  story true at_data0 (fst (stream_lines [] junk_then_urc)) d evs /\ length evs = 1%nat /\
  urc_events 64 plenty sample_urcs sample_who true [EvUndef (s2b "junk"); EvDrop] at_data0 = Ok (at_data0, []).
Proof.
  eexists _, _, _, _. split; [|split; [|split]].
  - match goal with |- context [[junk_then_urc]] => change [junk_then_urc] with [chunk (s2b "junk" ++ crlf ++ s2b "+CREG: 1" ++ crlf) (offered code_cap (rx0 code_cap))] end.
    eapply ex_read; [apply chunk_contract|left; vm_compute; discriminate|vm_compute; reflexivity|apply ex_nil].
  - change (fst (stream_lines [] junk_then_urc)) with [s2b "junk"; s2b "+CREG: 1"].
    eapply st_other; [apply not_reg; intros [] RU; vm_compute; try tauto; contradiction RU; reflexivity|]. eapply st_reg; [|apply st_nil].
    exact urc_line_ok.
  - vm_compute. reflexivity.
  - reflexivity.
Qed.
Print Assumptions c97_report_lost_refuted.
(** and without memory for the copy of its line a report is dropped silently. *)
Theorem c97_no_memory_refuted : reg_urc REG_CREG (s2b "+CREG: 1") [1]%Z /\ due_events true REG_CREG at_data0 (recorded REG_CREG [1]%Z at_data0) <> [] /\
  urc_events 64 (fun _ => None) sample_urcs sample_who true [EvUrc (s2b "+CREG: 1")] at_data0 = Ok (at_data0, []).
Proof. split; [exact urc_line_ok|]. split; [vm_compute; discriminate|vm_compute; reflexivity]. Qed.
Print Assumptions c97_no_memory_refuted.

(** ** C84, on the wire *)
(** While "AT+CREG?" is in flight the modem answers (technology 0, GSM), then reports LTE (7) for the packet domain, then completes the
    answer with OK.  The URC is recorded when it comes, the answer when it is complete: the technology of the earlier line stays. *)
Definition creg_env : environment := always (sample_view T_MULTI_WITH_PREFIX (Some (s2b "+CREG")) None).
Definition creg_answer : str := s2b "+CREG: 2,1,a,b,0".
Definition cgreg_report : str := s2b "+CGREG: 1,a,b,7".
Definition creg_stream : str := crlf ++ creg_answer ++ crlf ++ cgreg_report ++ crlf ++ s2b "OK" ++ crlf.
Theorem c84_report_overtaken_by_older_answer_refuted : forall lib v, lib_ok lib -> exists t s d1 told1 d2 ev2,
  execution code_cap 2000 creg_env 0 [] (rx0 code_cap) [creg_stream] t [EvUrc cgreg_report; EvResp true [creg_answer]] s /\
  urc_events 64 plenty sample_urcs sample_who true [EvUrc cgreg_report] at_data0 = Ok (d1, told1) /\ GetCurrentRat lib d1 (Some v) = (C_SUCCESS, Some 7%Z) /\
  RecvFuncGetNetworkReg 64 true [creg_answer] REG_CREG d1 = Ok (PKT_OK, d2, ev2) /\ GetCurrentRat lib d2 (Some v) = (C_SUCCESS, Some 0%Z).
Proof.
  intros lib v LO. assert (RAT : forall d, GetCurrentRat lib d (Some v) = (C_SUCCESS, Some (d_rat d))) by (intro d; unfold GetCurrentRat; unfold lib_ok in LO; rewrite LO; reflexivity).
  eexists _, _, _, _, _, _. split; [|split; [|split; [|split]]].
  - match goal with |- context [[creg_stream]] => change [creg_stream] with [chunk creg_stream (offered code_cap (rx0 code_cap))] end.
    eapply ex_read; [apply chunk_contract|left; vm_compute; discriminate|vm_compute; reflexivity|apply ex_nil].
  - vm_compute. reflexivity.
  - rewrite RAT. reflexivity.
  - vm_compute. reflexivity.
  - rewrite RAT. reflexivity.
Qed.
Print Assumptions c84_report_overtaken_by_older_answer_refuted.

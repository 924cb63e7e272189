(** Property theorems: network registration (C36-C40, C70). *)
From Coq Require Import String List NArith ZArith Bool Lia.
From Verif Require Import Bytes AtCore SpecAt AtProofs Status RegStatus SpecReg RegProofs.
Import ListNotations.
Local Open Scope Z_scope.
Local Open Scope string_scope.
Local Open Scope list_scope.

(** Sample report: <stat>=1, area FFFE, cell 341B50D, AcT 8. *)
Definition sample_texts : list str := [s2b "1"; s2b "FFFE"; s2b "341B50D"; s2b "8"].
Definition sample_raw : str := s2b " 1," ++ [34%N] ++ s2b "FFFE" ++ [34%N] ++ s2b "," ++ [34%N] ++ s2b "341B50D" ++ [34%N] ++ s2b ",8".
Ltac lst_tac := repeat (rewrite <- ?app_assoc; cbn [app]); reflexivity.
Ltac numeral ds := exists [], []; eexists _, ds, []; rewrite app_nil_r; cbn [app]; split; [reflexivity|split; [constructor|split; [discriminate|split;
  [repeat constructor; unfold alnum_value; cbn; lia|split; [repeat constructor; lia|split; [left; reflexivity|left; split; [left; reflexivity|reflexivity]]]]]]].
Lemma sample_fields : fields_text (layout REG_CREG) sample_texts [1; 65534; 54637837; 8].
Proof.
  unfold sample_texts; repeat constructor; cbn [field_base field_range s2b]; unfold int32_range; try lia.
  - numeral [1]%N.
  - numeral [15;15;15;14]%N.
  - numeral [3;4;1;11;5;0;13]%N.
  - numeral [8]%N.
Qed.
Ltac without_tac := repeat first
  [ apply without_nil
  | apply without_drop; [unfold ignored_char, space_char; lia|]
  | apply without_keep; [unfold ignored_char, space_char; lia|] ].
Lemma sample_line : report_line sample_raw sample_texts.
Proof.
  split; [split; [discriminate|cbn; lia]|]. split; [unfold no_nul; cbn; lia|]. split.
  - unfold sample_raw, sample_texts. cbn [s2b app join Ascii.N_of_ascii]. cbn. without_tac.
  - repeat constructor; cbn; lia.
Qed.

(** C36: a well-formed report (every field up to the last one carries a value in range; quotes and white space anywhere;
    further fields after the complete layout ignored) is recorded exactly, with the right event. *)
Theorem c36_report_is_recorded_partial : forall bits cb rt isUrc raw pre ts vs extra d, 32 <= bits -> rt <> REG_UNKNOWN ->
  leading isUrc pre -> report_line raw (pre ++ ts ++ extra) -> fields_text (layout rt) ts vs -> pre ++ ts <> [] ->
  (extra = [] \/ length ts = length (layout rt)) ->
  ParseRegStatus bits cb (Some raw) isUrc rt d = Ok (PKT_OK, recorded rt vs d, due_events cb rt d (recorded rt vs d)).
Proof. exact parse_good. Qed.
Print Assumptions c36_report_is_recorded_partial.
(** The same through the URC handlers: a +CREG/+CGREG/+CEREG URC has its first field as <stat>. *)
Theorem c36_urc_is_recorded_partial : forall bits cb rt raw ts vs extra d, 32 <= bits -> rt <> REG_UNKNOWN ->
  report_line raw (ts ++ extra) -> fields_text (layout rt) ts vs -> ts <> [] -> (extra = [] \/ length ts = length (layout rt)) ->
  UrcProcessReg bits cb rt (Some raw) d = Ok (PKT_OK, recorded rt vs d, due_events cb rt d (recorded rt vs d)).
Proof. intros bits cb rt raw ts vs extra d Hb Hrt HR HF HN HX. exact (parse_good bits cb rt true raw [] ts vs extra d Hb Hrt leading_urc HR HF HN HX). Qed.
Print Assumptions c36_urc_is_recorded_partial.
(** Before the first report: searching in both domains, no reject cause, location and RAT unknown. *)
Theorem c36_initial : d_cs at_data0 = 2 /\ d_ps at_data0 = 2 /\ d_csRejType at_data0 = 0 /\ d_csRejCause at_data0 = 0 /\
  d_psRejType at_data0 = 0 /\ d_psRejCause at_data0 = 0 /\ d_rat at_data0 = 255 /\ d_lac at_data0 = 65535 /\
  d_cellId at_data0 = 4294967295 /\ d_rac at_data0 = 255 /\ d_tac at_data0 = 0.
Proof. repeat split. Qed.
Print Assumptions c36_initial.
(** Missing for the full property: reports that leave an optional field empty; they are refused (next theorem), although the
    standard allows them. *)

(** A field that is not a numeral (in particular an empty one that is not the very last) or out of range is not recorded: the
    report is refused there.  The fields before it have been recorded. *)
Theorem c36_bad_field_is_refused : forall bits cb rt isUrc raw pre ts vs f bad after d, 32 <= bits -> rt <> REG_UNKNOWN ->
  leading isUrc pre -> report_line raw (pre ++ ts ++ bad :: after) -> fields_text (layout rt) ts vs ->
  nth_error (layout rt) (length ts) = Some f -> field_bad f bad -> (bad <> [] \/ after <> []) ->
  ParseRegStatus bits cb (Some raw) isUrc rt d = Ok (PKT_FAILURE, recorded rt vs d, due_events cb rt d (recorded rt vs d)).
Proof. exact parse_bad. Qed.
Print Assumptions c36_bad_field_is_refused.

(** The standard's "+CREG: <stat>,,,<AcT>" (area code and cell id left empty) is refused and its AcT not recorded. *)
Theorem c36_empty_optional_field_refuted : forall bits cb d, 32 <= bits ->
  exists d' ev, ParseRegStatus bits cb (Some (s2b "1,,,8")) true REG_CREG d = Ok (PKT_FAILURE, d', ev) /\ d_rat d' = d_rat d.
Proof.
  intros bits cb d Hb. eexists _, _. split.
  - apply (parse_bad bits cb REG_CREG true (s2b "1,,,8") [] [s2b "1"] [1] F_AREA [] [[]; s2b "8"] d); auto.
    + discriminate.
    + constructor.
    + split; [split; [discriminate|cbn; lia]|]. split; [unfold no_nul; cbn; lia|]. split; [cbn; without_tac|repeat constructor; cbn; lia].
    + repeat constructor; cbn [field_base field_range s2b]; unfold int32_range; try lia. numeral [1]%N.
    + left. intros sp sg c d0 tl H. destruct sp; [|discriminate]. destruct sg; discriminate.
    + right; discriminate.
  - reflexivity.
Qed.
Print Assumptions c36_empty_optional_field_refuted.
Example c36_ex : ParseRegStatus 64 true (Some sample_raw) true REG_CREG at_data0 =
  Ok (PKT_OK, {| d_rat := 8; d_cs := 1; d_ps := 2; d_csRejType := 0; d_csRejCause := 0; d_psRejType := 0; d_psRejCause := 0;
                 d_cellId := 54637837; d_lac := 65534; d_rac := 255; d_tac := 0 |},
      [{| ev_kind := EV_CS; ev_rat := 8; ev_cs := 1; ev_ps := 2; ev_csRejCause := 0; ev_csRejType := 0; ev_psRejCause := 0; ev_psRejType := 0 |}]).
Proof.
  rewrite (parse_good 64 true REG_CREG true sample_raw [] sample_texts [1; 65534; 54637837; 8] [] at_data0); try discriminate; auto.
  - constructor.
  - rewrite app_nil_r. apply sample_line.
  - apply sample_fields.
Qed.

(** C37: for every payload whatsoever, the events delivered are exactly the due ones (one with the new values iff a callback
    is registered and the status of that domain changed). *)
Theorem c37_event_iff_status_changed : forall bits cb payload isUrc rt d, rt <> REG_UNKNOWN ->
  exists st d' ev, ParseRegStatus bits cb payload isUrc rt d = Ok (st, d', ev) /\ ev = due_events cb rt d d'.
Proof.
  intros bits cb payload isUrc rt d Hrt. destruct (parse_total bits cb payload isUrc rt d) as (st & d' & ev & E).
  exists st, d', ev. split; [exact E|]. eapply parse_events; eauto.
Qed.
Print Assumptions c37_event_iff_status_changed.
Example c37_ex : forall d, d_cs d = 1 -> due_events true REG_CREG d (recorded REG_CREG [1; 65534; 54637837; 8] d) = []
  /\ due_events true REG_CREG at_data0 (recorded REG_CREG [1] at_data0) <> [].
Proof. intros d H. unfold due_events, domain_status, recorded, given. cbn. rewrite H. split; [reflexivity|discriminate]. Qed.

(** C38: for every payload, a line of one domain leaves status and reject information of the other domain alone, and changes
    the reject information of its own domain only if that domain ends up denied (status 3). *)
Theorem c38_domains_are_independent : forall bits cb payload isUrc rt d st d' ev, rt <> REG_UNKNOWN ->
  ParseRegStatus bits cb payload isUrc rt d = Ok (st, d', ev) ->
  (rt = REG_CREG -> d_ps d' = d_ps d /\ d_psRejType d' = d_psRejType d /\ d_psRejCause d' = d_psRejCause d) /\
  (rt = REG_CGREG \/ rt = REG_CEREG -> d_cs d' = d_cs d /\ d_csRejType d' = d_csRejType d /\ d_csRejCause d' = d_csRejCause d) /\
  (d_cs d' <> 3 -> d_csRejType d' = d_csRejType d /\ d_csRejCause d' = d_csRejCause d) /\
  (d_ps d' <> 3 -> d_psRejType d' = d_psRejType d /\ d_psRejCause d' = d_psRejCause d).
Proof.
  intros bits cb payload isUrc rt d st d' ev Hrt H. pose proof (parse_frame _ _ _ _ _ _ _ _ _ Hrt H) as F.
  pose proof (parse_reject _ _ _ _ _ _ _ _ _ Hrt H) as R. unfold rej_part, domain_status, cs_part, ps_part in *.
  destruct rt; try congruence; cbn [is_cs] in *; inversion F; (repeat split; intros; try discriminate; try congruence;
    try (destruct H0; discriminate));
    try (destruct R as [R|R]; [inversion R; congruence|congruence]).
Qed.
Print Assumptions c38_domains_are_independent.
Example c38_ex : exists d' ev, ParseRegStatus 64 true (Some (s2b "3,1A2B,00FF,7,0,11")) true REG_CEREG at_data0 = Ok (PKT_OK, d', ev) /\
  d_ps d' = 3 /\ d_psRejCause d' = 11 /\ d_cs d' = 2 /\ d_csRejCause d' = 0.
Proof. eexists _, _. split; [vm_compute; reflexivity|repeat split; reflexivity]. Qed.

(** C39 refuted: a refused line can have changed the recorded status and delivered an event. *)
Theorem c39_refused_line_changes_state_refuted : exists payload d' ev,
  ParseRegStatus 64 true (Some payload) true REG_CREG at_data0 = Ok (PKT_FAILURE, d', ev) /\ d_cs d' <> d_cs at_data0 /\ ev <> [].
Proof. exists (s2b "1,XYZ"). eexists _, _. split; [vm_compute; reflexivity|split; discriminate]. Qed.
Print Assumptions c39_refused_line_changes_state_refuted.
(** What does hold: a line refused for its <stat> field changes nothing (missing: lines refused for a later field, false). *)
Theorem c39_refused_status_changes_nothing_partial : forall bits cb rt isUrc raw pre bad after d, 32 <= bits -> rt <> REG_UNKNOWN ->
  leading isUrc pre -> report_line raw (pre ++ bad :: after) -> field_bad F_STAT bad -> (bad <> [] \/ after <> []) ->
  ParseRegStatus bits cb (Some raw) isUrc rt d = Ok (PKT_FAILURE, d, []).
Proof.
  intros bits cb rt isUrc raw pre bad after d Hb Hrt HL HR HB HE.
  rewrite (parse_bad bits cb rt isUrc raw pre [] [] F_STAT bad after d); auto.
  - rewrite <- (apply_recorded rt [] d Hrt) by (cbn; lia).
    replace (apply_fields rt (layout rt) [] d) with d by (destruct (layout rt); reflexivity).
    unfold due_events. rewrite Z.eqb_refl, andb_false_r. reflexivity.
  - constructor.
  - destruct rt; reflexivity.
Qed.
Print Assumptions c39_refused_status_changes_nothing_partial.
Example c39_ex : field_bad F_STAT (s2b "9") /\ report_line (s2b "9,FFFE") ([] ++ s2b "9" :: [s2b "FFFE"]).
Proof.
  split.
  - right. exists 9. split; [cbn; numeral [9]%N|]. unfold int32_range. cbn [field_range]. lia.
  - split; [split; [discriminate|cbn; lia]|]. split; [unfold no_nul; cbn; lia|]. split; [cbn; without_tac|repeat constructor; cbn; lia].
Qed.

(** C40 refuted for the tracking area code: an LTE "not registered" report leaves it as it was. *)
Theorem c40_tracking_area_code_refuted : forall bits cb d, 32 <= bits ->
  exists d' ev, ParseRegStatus bits cb (Some (s2b "0")) true REG_CEREG d = Ok (PKT_OK, d', ev) /\ d_ps d' = 0 /\ d_tac d' = d_tac d.
Proof.
  intros bits cb d Hb. eexists _, _. split.
  - apply (parse_good bits cb REG_CEREG true (s2b "0") [] [s2b "0"] [0] [] d); auto; try discriminate.
    + constructor.
    + split; [split; [discriminate|cbn; lia]|]. split; [unfold no_nul; cbn; lia|]. split; [cbn; without_tac|repeat constructor; cbn; lia].
    + repeat constructor; cbn [field_base field_range s2b]; unfold int32_range; try lia. numeral [0]%N.
  - split; reflexivity.
Qed.
Print Assumptions c40_tracking_area_code_refuted.
(** What does hold: area code, cell id, RAT and routing area are reset to "unknown" unless the line provides them (missing: the
    tracking area code, false). *)
Theorem c40_deregistration_clears_location_partial : forall bits cb rt isUrc raw pre ts stat vs extra d, 32 <= bits -> rt <> REG_UNKNOWN ->
  leading isUrc pre -> report_line raw (pre ++ ts ++ extra) -> fields_text (layout rt) ts (stat :: vs) ->
  (extra = [] \/ length ts = length (layout rt)) -> stat <> 1 -> stat <> 5 ->
  exists d' ev, ParseRegStatus bits cb (Some raw) isUrc rt d = Ok (PKT_OK, d', ev) /\
    d_cellId d' = match given rt (stat :: vs) F_CELL with Some v => v | None => 4294967295 end /\
    d_lac d' = match (if is_eps rt then None else given rt (stat :: vs) F_AREA) with Some v => v | None => 65535 end /\
    d_rat d' = match given rt (stat :: vs) F_ACT with Some v => known_act v | None => 255 end /\
    d_rac d' = match given rt (stat :: vs) F_RAC with Some v => v | None => 255 end.
Proof.
  intros bits cb rt isUrc raw pre ts stat vs extra d Hb Hrt HL HR HF HE N1 N5.
  eexists _, _. split.
  - apply (parse_good bits cb rt isUrc raw pre ts (stat :: vs) extra d); auto.
    inversion HF; subst. intro Q. apply app_eq_nil in Q. destruct Q; discriminate.
  - assert (NR : not_registered rt (stat :: vs) = true).
    { unfold not_registered, given. apply Z.eqb_neq in N1. apply Z.eqb_neq in N5.
      destruct rt; try congruence; cbn [layout lookup reg_field_eqb]; rewrite N1, N5; reflexivity. }
    unfold recorded. rewrite NR. cbn [d_cellId d_lac d_rat d_rac reset_or]. unfold or_else. repeat split.
    destruct (given rt (stat :: vs) F_ACT); reflexivity.
Qed.
Print Assumptions c40_deregistration_clears_location_partial.
Example c40_ex : exists d' ev, ParseRegStatus 64 true (Some (s2b "0")) true REG_CREG (recorded REG_CREG [1; 65534; 54637837; 8] at_data0) = Ok (PKT_OK, d', ev) /\
  d_lac d' = 65535 /\ d_cellId d' = 4294967295 /\ d_rat d' = 255.
Proof. eexists _, _. split; [vm_compute; reflexivity|repeat split; reflexivity]. Qed.

(** C70: answers of AT+CREG?/CGREG?/CEREG? and registration URCs that arrive in between share the prefix.  A line is taken as a
    URC exactly when it has no comma or its first comma is directly followed by a quote; then its text after the prefix is
    processed as a report, otherwise the whole line is processed as an answer "<prefix><n>,<stat>,...". *)
Definition urc_shaped (payload : str) : Prop :=
  ~ In 44%N payload \/ exists a b, payload = a ++ 44%N :: 34%N :: b /\ ~ In 44%N a.
Lemma strchr_first s c a b : s = a ++ c :: b -> ~ In c a -> strchr s c = Some (length a).
Proof.
  intros -> H. induction a as [|x a IH]; cbn [app strchr length].
  - rewrite N.eqb_refl. reflexivity.
  - destruct (N.eqb_spec x c); [subst; exfalso; apply H; left; reflexivity|].
    rewrite IH; [reflexivity|]. intro Q; apply H; right; exact Q.
Qed.
Lemma strchr_absent s c : ~ In c s -> strchr s c = None.
Proof.
  induction s as [|x s IH]; intro H; cbn [strchr]; [reflexivity|].
  destruct (N.eqb_spec x c); [subst; exfalso; apply H; left; reflexivity|].
  rewrite IH; [reflexivity|]. intro Q; apply H; right; exact Q.
Qed.
Lemma first_comma p : In 44%N p -> exists a b, p = a ++ 44%N :: b /\ ~ In 44%N a.
Proof.
  induction p as [|x p IH]; intro H; [destruct H|].
  destruct (N.eq_dec x 44) as [->|Hx]; [exists [], p; split; [reflexivity|intros []]|].
  destruct H as [H|H]; [congruence|]. destruct (IH H) as (a & b & -> & Ha).
  exists (x :: a), b. split; [reflexivity|]. intros [Q|Q]; [congruence|exact (Ha Q)].
Qed.

Lemma query_line_single bits cb (l : str) rt d :
  (do r <- ParseRegStatus bits cb (Some l) false rt d;
   let '(st, d', ev) := r in
   match st with
   | PKT_OK => do r2 <- Ok (PKT_OK, d', []); let '(st2, d2, ev2) := r2 in Ok (st2, d2, ev ++ ev2)
   | _ => Ok (st, d', ev)
   end) =
  (do r <- ParseRegStatus bits cb (Some l) false rt d; let '(st, d', ev) := r in Ok (st, d', ev)).
Proof.
  destruct (parse_total bits cb (Some l) false rt d) as (st & d' & ev & E). rewrite E. cbn [bind].
  destruct st; cbn [bind]; rewrite ?app_nil_r; reflexivity.
Qed.
Theorem c70_query_line_interpretation : forall bits cb rt pfx payload d, ~ In 44%N pfx -> ~ In 58%N pfx ->
  at_len_ok (pfx ++ 58%N :: payload) ->
  RecvFuncGetNetworkReg bits cb [pfx ++ 58%N :: payload] rt d =
    (do r <- (if regResponseIsUrc (pfx ++ 58%N :: payload) then ParseRegStatus bits cb (Some payload) true rt d
              else ParseRegStatus bits cb (Some (pfx ++ 58%N :: payload)) false rt d);
     let '(st, d', ev) := r in Ok (st, d', ev)) /\
  (regResponseIsUrc (pfx ++ 58%N :: payload) = true <-> urc_shaped payload).
Proof.
  intros bits cb rt pfx payload d H1 H2 HL.
  assert (NP : ~ In 44%N (pfx ++ [58%N])) by (intro Q; apply in_app_or in Q; destruct Q as [Q|[Q|[]]]; [exact (H1 Q)|discriminate]).
  split.
  - cbn [RecvFuncGetNetworkReg]. destruct (regResponseIsUrc (pfx ++ 58%N :: payload)) eqn:U.
    + unfold ATRemovePrefix. replace (is_valid (pfx ++ 58%N :: payload)) with true by (symmetry; apply AtProofs.is_valid_iff; exact HL).
      change chCOLON with 58%N. rewrite (strchr_first _ 58 pfx payload eq_refl H2).
      replace (skipn (S (length pfx)) (pfx ++ 58%N :: payload)) with payload.
      2:{ rewrite skipn_app, skipn_all2 by lia. replace (S (length pfx) - length pfx)%nat with 1%nat by lia. reflexivity. }
      destruct (parse_total bits cb (Some payload) true rt d) as (st & d' & ev & E). rewrite E. cbn [bind].
      destruct st; cbn [bind]; rewrite ?app_nil_r; reflexivity.
    + apply query_line_single.
  - unfold regResponseIsUrc, urc_shaped. destruct (in_dec N.eq_dec 44%N payload) as [HI|HI].
    + destruct (first_comma _ HI) as (a & b & -> & Ha).
      rewrite (strchr_first _ chCOMMA ((pfx ++ [58%N]) ++ a) b); [|lst_tac|].
      2:{ intro Q. apply in_app_or in Q. destruct Q; contradiction. }
      replace (nth (S (length ((pfx ++ [58%N]) ++ a))) (pfx ++ 58%N :: a ++ 44%N :: b) 0%N) with (nth 0 b 0%N).
      2:{ replace (pfx ++ 58%N :: a ++ 44%N :: b) with (((pfx ++ [58%N]) ++ a) ++ 44%N :: b) by lst_tac.
          rewrite (app_nth2 ((pfx ++ [58%N]) ++ a)) by lia.
          replace (S (length ((pfx ++ [58%N]) ++ a)) - length ((pfx ++ [58%N]) ++ a))%nat with 1%nat by lia. reflexivity. }
      split.
      * intro Q. apply N.eqb_eq in Q. right. destruct b as [|x b]; [discriminate|]. cbn [nth] in Q. unfold chDQ in Q. subst x. eauto.
      * intros [Q|(a' & b' & E & Ha')]; [contradiction|].
        assert (AB : strchr (a ++ 44%N :: b) 44 = strchr (a' ++ 44%N :: 34%N :: b') 44) by (rewrite E; reflexivity).
        rewrite (strchr_first _ 44 a b eq_refl Ha), (strchr_first _ 44 a' (34%N :: b') eq_refl Ha') in AB. inversion AB as [LE].
        assert (SK : skipn (length a) (a ++ 44%N :: b) = skipn (length a') (a' ++ 44%N :: 34%N :: b')) by (rewrite E, LE; reflexivity).
        rewrite !skipn_app, !skipn_all, !Nat.sub_diag in SK. cbn [app skipn] in SK. inversion SK. reflexivity.
    + rewrite strchr_absent; [|intro Q; apply in_app_or in Q; destruct Q as [Q|[Q|Q]]; [exact (H1 Q)|discriminate|exact (HI Q)]].
      split; auto.
Qed.
Print Assumptions c70_query_line_interpretation.
(** Refuted: a URC with white space between comma and quote (allowed by the standard) is taken for a query answer: here the
    device is registered, roaming (5), and "not registered, searching" (2, the area code!) gets recorded. *)
Theorem c70_spaced_urc_misread_refuted : exists d' ev,
  RecvFuncGetNetworkReg 64 true [s2b "+CREG: 5, " ++ [34%N] ++ s2b "0002" ++ [34%N]] REG_CREG at_data0 = Ok (PKT_OK, d', ev) /\ d_cs d' = 2.
Proof. eexists _, _. split; [vm_compute; reflexivity|reflexivity]. Qed.
Print Assumptions c70_spaced_urc_misread_refuted.
Example c70_ex : exists d' ev,
  RecvFuncGetNetworkReg 64 true [s2b "+CREG: 5," ++ [34%N] ++ s2b "0002" ++ [34%N]; s2b "+CREG: 2,1"] REG_CREG at_data0 = Ok (PKT_OK, d', ev) /\ d_cs d' = 1 /\ length ev = 2%nat.
Proof. eexists _, _. split; [vm_compute; reflexivity|split; reflexivity]. Qed.

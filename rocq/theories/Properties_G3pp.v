(** Property theorems: the 3GPP API layer, power saving, eDRX, SIM, identity, IP address, time, operator, PDN (C54-C66, C71-C73). *)
From Coq Require Import String List NArith ZArith Bool Lia.
From Verif Require Import Bytes AtCore SpecAt AtProofs Status Pktio SendCmd Socket RegStatus SpecReg SpecG3pp G3pp SpecG3ppApi
  G3ppProofs G3ppCmds G3ppIdent G3ppTime G3ppCops G3ppService G3ppHonest G3ppInfo.
Import ListNotations.
Local Open Scope Z_scope.
Local Open Scope string_scope.
Local Open Scope list_scope.

(** An open library; a modem that answers every request with the given lines. *)
Definition opened : option lib_flags := Some {| bLibOpened := true; bLibShutdown := false; bLibClosing := false |}.
Definition says (l : string) : modem := fun _ => Answered [s2b l].
Ltac numeral ds := exists [], []; eexists _, ds, []; rewrite app_nil_r; cbn [app]; split; [reflexivity|split; [constructor|split; [discriminate|split;
  [repeat constructor; unfold alnum_value; cbn; lia|split; [repeat constructor; lia|split; [left; reflexivity|left; split; [left; reflexivity|reflexivity]]]]]]].
Ltac notin := unfold not; cbn; lia.
Ltac without_tac := repeat first
  [ apply without_nil
  | apply without_drop; [unfold is_quote, quote_or_space, ignored_char, space_char; lia|]
  | apply without_keep; [unfold is_quote, quote_or_space, ignored_char, space_char; lia|] ].
Ltac line p := exists (s2b p); split; [reflexivity|split; [notin|split; [unfold no_nul; notin|cbn; lia]]].
Ltac fields := split; [cbn [s2b join app Ascii.N_of_ascii]; cbn; without_tac|repeat constructor; notin].

(** * C54: timers *)

(** Every octet the standard defines, in the units the decoder knows (all but "320 hours"); after white space and with
    anything that is not a letter or digit behind it. *)
Theorem c54_t3412_partial : forall bits f unit value old, 32 <= bits -> octet_field f unit value -> unit <> 6%N ->
  parseT3412TimerValue bits f old = (AT_SUCCESS, in_seconds (gprs_timer3 unit value)).
Proof. exact t3412_ok. Qed.
Print Assumptions c54_t3412_partial.
Theorem c54_t3324_partial : forall bits f unit value old, 32 <= bits -> octet_field f unit value -> (unit <= 2 \/ unit = 7)%N ->
  parseT3324TimerValue bits f old = (AT_SUCCESS, in_seconds (gprs_timer2 unit value)).
Proof. exact t3324_ok. Qed.
Print Assumptions c54_t3324_partial.
(** A field that is no binary numeral is refused, and the output left alone. *)
Theorem c54_not_binary_is_refused : forall bits f old, no_numeral 2 f ->
  parseT3412TimerValue bits f old = (AT_ERROR, old) /\ parseT3324TimerValue bits f old = (AT_ERROR, old).
Proof. intros. split; [apply t3412_bad|apply t3324_bad]; assumption. Qed.
Print Assumptions c54_not_binary_is_refused.
(** Refuted: unit 6 of T3412 is "multiples of 320 hours" in the standard, but refused; units 3 to 6 of T3324 "shall be
    interpreted as multiples of 1 minute", but refused; and a nine-bit field is accepted, its top bit dropped. *)
Theorem c54_320_hours_refuted : forall bits f value old, 32 <= bits -> octet_field f 6 value ->
  parseT3412TimerValue bits f old = (AT_ERROR, old) /\ gprs_timer3 6 value = Seconds (value * 1152000).
Proof. intros. split; [eapply t3412_reserved; eassumption|reflexivity]. Qed.
Print Assumptions c54_320_hours_refuted.
Theorem c54_other_units_refuted : forall bits f unit value old, 32 <= bits -> octet_field f unit value -> (3 <= unit <= 6)%N ->
  parseT3324TimerValue bits f old = (AT_ERROR, old) /\ gprs_timer2 unit value = Seconds (value * 60).
Proof.
  intros bits f u v old Hb Ho Hu. split; [eapply t3324_reserved; eassumption|].
  assert (C : (u = 3 \/ u = 4 \/ u = 5 \/ u = 6)%N) by lia. destruct C as [-> |[-> |[-> | -> ]]]; reflexivity.
Qed.
Print Assumptions c54_other_units_refuted.
Theorem c54_wide_field_refuted : parseT3412TimerValue 64 (s2b "100000011") 0 = (AT_SUCCESS, 1800%N).
Proof. vm_compute. reflexivity. Qed.
Print Assumptions c54_wide_field_refuted.
Example c54_ex : octet_field (s2b "01000111") 2 7 /\ octet_field (s2b "00100100") 1 4 /\ octet_field (s2b "11000001") 6 1 /\
  parseT3412TimerValue 64 (s2b "01000111") 0 = (AT_SUCCESS, 252000%N) /\ parseT3324TimerValue 32 (s2b "00100100") 9 = (AT_SUCCESS, 240%N) /\
  parseT3412TimerValue 64 (s2b "x") 5 = (AT_ERROR, 5%N) /\ no_numeral 2 (s2b "x").
Proof.
  repeat split; try lia; try (vm_compute; reflexivity).
  - numeral [0;1;0;0;0;1;1;1]%N.
  - numeral [0;0;1;0;0;1;0;0]%N.
  - numeral [1;1;0;0;0;0;0;1]%N.
  - intros sp sg c d tl E Hs Hg Ha. assert (L : length (s2b "x") = length (sp ++ sg ++ c :: tl)) by (rewrite E; reflexivity).
    rewrite !app_length in L. cbn [length s2b] in L. destruct sp; [|cbn in L; lia]. destruct sg; [|cbn in L; lia].
    cbn in E. inversion E; subst. unfold alnum_value in Ha. cbn in Ha. lia.
Qed.

(** * C55: the PSM command *)

(** Every settings structure: the exact command, decimal mode, each timer empty for 0 and else eight binary digits between
    quotes; it is sent once, the result is the modem's, and it fits the buffer of 200 bytes. *)
Theorem c55_command_partial : forall lib m s, lib_ok lib -> (ps_mode s < 256)%N ->
  (ps_rau s < 256)%N -> (ps_rdy s < 256)%N -> (ps_tau s < 256)%N -> (ps_act s < 256)%N ->
  exists r md f1 f2 f3 f4, SetPsmSettings lib m (Some s) = Ok {| sent := [r]; ret := done_with (m [r]); out := tt |} /\
    rq_cmd r = s2b "AT+CPSMS=" ++ md ++ s2b "," ++ f1 ++ s2b "," ++ f2 ++ s2b "," ++ f3 ++ s2b "," ++ f4 /\
    rq_type r = T_NO_RESULT /\ (length (rq_cmd r) < 200)%nat /\ decimal_text (ps_mode s) md /\
    Forall2 (fun f v => (v = 0%N /\ f = []) \/ (v <> 0%N /\ exists b, f = s2b """" ++ b ++ s2b """" /\ binary_text 8 v b))
      [f1; f2; f3; f4] [ps_rau s; ps_rdy s; ps_tau s; ps_act s].
Proof.
  intros lib m s HL Hm H1 H2 H3 H4. destruct (psm_command_text s Hm) as [E L]. destruct (dec_spec _ Hm) as (D & _).
  exists {| rq_cmd := psm_command s; rq_type := T_NO_RESULT; rq_prefix := None |}, (dec (ps_mode s)), (psm_field (ps_rau s)), (psm_field (ps_rdy s)), (psm_field (ps_tau s)), (psm_field (ps_act s)).
  split; [unfold SetPsmSettings; rewrite HL; apply simple_request|]. cbn [rq_cmd rq_type]. split; [exact E|]. split; [reflexivity|]. split; [lia|]. split; [exact D|].
  assert (K : forall v, (v < 256)%N -> (v = 0%N /\ psm_field v = []) \/ (v <> 0%N /\ exists b, psm_field v = s2b """" ++ b ++ s2b """" /\ binary_text 8 v b)).
  { intros v Hv. unfold psm_field. destruct (N.eqb_spec v 0); [left; auto|right]. split; [assumption|]. exists (bin8 v). split; [reflexivity|].
    pose proof (bin8_spec v) as B. rewrite N.mod_small in B by exact Hv. exact B. }
  repeat (apply Forall2_cons; [apply K; assumption|]). apply Forall2_nil.
Qed.
Print Assumptions c55_command_partial.
(** Missing: timer values of 256 and more (the members are 32 bits wide).  Refuted: they are truncated, e.g. 256 is sent as
    "00000000", and this for every value. *)
Theorem c55_wide_value_refuted : forall lib m s, lib_ok lib -> (ps_mode s < 256)%N ->
  exists r a z, SetPsmSettings lib m (Some s) = Ok {| sent := [r]; ret := done_with (m [r]); out := tt |} /\
    (ps_act s <> 0%N -> rq_cmd r = a ++ s2b """" ++ z ++ s2b """" /\ binary_text 8 (ps_act s mod 256) z).
Proof.
  intros lib m s HL Hm. destruct (psm_command_text s Hm) as [E L].
  exists {| rq_cmd := psm_command s; rq_type := T_NO_RESULT; rq_prefix := None |},
    (s2b "AT+CPSMS=" ++ dec (ps_mode s) ++ [44%N] ++ psm_field (ps_rau s) ++ [44%N] ++ psm_field (ps_rdy s) ++ [44%N] ++ psm_field (ps_tau s) ++ [44%N]), (bin8 (ps_act s)).
  split; [unfold SetPsmSettings; rewrite HL; apply simple_request|]. intro Hz. cbn [rq_cmd]. split; [|apply bin8_spec].
  rewrite E. replace (psm_field (ps_act s)) with (s2b """" ++ bin8 (ps_act s) ++ s2b """").
  - rewrite <- !app_assoc. reflexivity.
  - unfold psm_field. destruct (N.eqb_spec (ps_act s) 0); [contradiction|reflexivity].
Qed.
Print Assumptions c55_wide_value_refuted.
Example c55_ex : exists r, SetPsmSettings opened (fun _ => Answered []) (Some {| ps_mode := 1; ps_rau := 0; ps_rdy := 0; ps_tau := 7; ps_act := 33 |}) =
  Ok {| sent := [r]; ret := C_SUCCESS; out := tt |} /\ rq_cmd r = s2b "AT+CPSMS=1,,,""00000111"",""00100001""".
Proof. eexists. split; vm_compute; reflexivity. Qed.
Example c55_refuted_ex : exists r, SetPsmSettings opened (fun _ => Answered []) (Some {| ps_mode := 1; ps_rau := 0; ps_rdy := 0; ps_tau := 7; ps_act := 256 |}) =
  Ok {| sent := [r]; ret := C_SUCCESS; out := tt |} /\ rq_cmd r = s2b "AT+CPSMS=1,,,""00000111"",""00000000""".
Proof. eexists. split; vm_compute; reflexivity. Qed.

(** * C56: write back what was read *)

(** What the modem is told to configure when the timer value [n] is written: nothing, or the low 8 bits as an octet. *)
Definition configured (timer : N -> N -> duration) (n : N) : option duration :=
  if (n =? 0)%N then None else let o := (n mod 256)%N in Some (timer (o / 32)%N (o mod 32)%N).
(** Refuted, for every timer the modem can report: writing the value back configures the same duration only if the timer is
    deactivated. *)
Theorem c56_only_deactivated_survives_refuted : forall unit value, (unit < 8)%N -> (value < 32)%N ->
  (configured gprs_timer3 (in_seconds (gprs_timer3 unit value)) = Some (gprs_timer3 unit value) <-> gprs_timer3 unit value = Deactivated) /\
  (configured gprs_timer2 (in_seconds (gprs_timer2 unit value)) = Some (gprs_timer2 unit value) <-> gprs_timer2 unit value = Deactivated).
Proof.
  assert (K : forall timer, forallb (fun i => forallb (fun j => let u := N.of_nat i in let v := N.of_nat j in
      match configured timer (in_seconds (timer u v)), timer u v with
      | Some Deactivated, Deactivated => true | _, Deactivated => false | Some (Seconds a), Seconds b => negb (a =? b)%N | _, Seconds _ => true end)
      (seq 0 32)) (seq 0 8) = true ->
    forall unit value, (unit < 8)%N -> (value < 32)%N ->
      (configured timer (in_seconds (timer unit value)) = Some (timer unit value) <-> timer unit value = Deactivated)).
  { intros timer T u v Hu Hv. rewrite forallb_forall in T. specialize (T (N.to_nat u) ltac:(apply in_seq; lia)).
    rewrite forallb_forall in T. specialize (T (N.to_nat v) ltac:(apply in_seq; lia)). cbv zeta in T. rewrite !N2Nat.id in T.
    destruct (timer u v) as [b|]; destruct (configured timer _) as [[a|]|]; split; intro Q; try discriminate; try reflexivity.
    inversion Q; subst. rewrite N.eqb_refl in T. discriminate. }
  intros u v Hu Hv. split; apply K; auto; vm_compute; reflexivity.
Qed.
Print Assumptions c56_only_deactivated_survives_refuted.
(** On the API: one hour of TAU ("00100001") read and written back becomes 10 minutes times 16. *)
Theorem c56_round_trip_refuted : exists s r,
  GetPsmSettings 64 opened (says "+CPSMS: 1,,,""00100001"",""00000101""") (Some psm0) = Ok {| sent := [req_cpsms]; ret := C_SUCCESS; out := Some s |} /\
  SetPsmSettings opened (fun _ => Answered []) (Some s) = Ok {| sent := [r]; ret := C_SUCCESS; out := tt |} /\
  rq_cmd r = s2b "AT+CPSMS=1,,,""00010000"",""00001010""".
Proof. do 2 eexists. split; [vm_compute; reflexivity|]. split; vm_compute; reflexivity. Qed.
Print Assumptions c56_round_trip_refuted.
(** Proved: deactivated timers survive: for every settings structure with only deactivated and unset timers, the command
    written back carries "11111111" and empty fields. *)
Theorem c56_deactivated_partial : forall lib m s, lib_ok lib -> (ps_mode s < 256)%N ->
  Forall (fun v => v = 0%N \/ v = in_seconds Deactivated) [ps_rau s; ps_rdy s; ps_tau s; ps_act s] ->
  exists r md f1 f2 f3 f4, SetPsmSettings lib m (Some s) = Ok {| sent := [r]; ret := done_with (m [r]); out := tt |} /\
    rq_cmd r = s2b "AT+CPSMS=" ++ md ++ s2b "," ++ f1 ++ s2b "," ++ f2 ++ s2b "," ++ f3 ++ s2b "," ++ f4 /\ decimal_text (ps_mode s) md /\
    Forall2 (fun f v => (v = 0%N /\ f = []) \/ (v = in_seconds Deactivated /\ f = s2b """11111111""")) [f1; f2; f3; f4] [ps_rau s; ps_rdy s; ps_tau s; ps_act s].
Proof.
  intros lib m s HL Hm HF. destruct (psm_command_text s Hm) as [E L]. destruct (dec_spec _ Hm) as (D & _).
  exists {| rq_cmd := psm_command s; rq_type := T_NO_RESULT; rq_prefix := None |}, (dec (ps_mode s)), (psm_field (ps_rau s)), (psm_field (ps_rdy s)), (psm_field (ps_tau s)), (psm_field (ps_act s)).
  split; [unfold SetPsmSettings; rewrite HL; apply simple_request|]. split; [exact E|]. split; [exact D|].
  assert (K : forall v, v = 0%N \/ v = in_seconds Deactivated -> (v = 0%N /\ psm_field v = []) \/ (v = in_seconds Deactivated /\ psm_field v = s2b """11111111""")).
  { intros v [-> | -> ]; [left|right]; split; reflexivity. }
  repeat match goal with H : Forall _ (_ :: _) |- _ => inversion H; subst; clear H end. repeat (apply Forall2_cons; [apply K; assumption|]). apply Forall2_nil.
Qed.
Print Assumptions c56_deactivated_partial.
Example c56_ex : exists r, SetPsmSettings opened (fun _ => Answered []) (Some {| ps_mode := 1; ps_rau := 0; ps_rdy := 0; ps_tau := 4294967295; ps_act := 4294967295 |}) =
  Ok {| sent := [r]; ret := C_SUCCESS; out := tt |} /\ rq_cmd r = s2b "AT+CPSMS=1,,,""11111111"",""11111111""".
Proof. eexists. split; vm_compute; reflexivity. Qed.

(** * C57: reading PSM settings *)

(** Every response of one to five fields (quotes anywhere), each empty or well formed, the last not empty: success, exactly
    the values of the line. *)
Theorem c57_settings_partial : forall bits lib m old raw body fields more p, 32 <= bits -> lib_ok lib ->
  response_line raw body -> has_fields is_quote body fields -> (1 <= length fields <= 5)%nat -> last fields [0%N] <> [] -> psm_says fields p ->
  m [req_cpsms] = Answered (raw :: more) ->
  GetPsmSettings bits lib m (Some old) = Ok {| sent := [req_cpsms]; ret := C_SUCCESS; out := Some (psm_of p) |}.
Proof. exact psm_get_good. Qed.
Print Assumptions c57_settings_partial.
(** A malformed last field, or more than five fields, is reported. *)
Theorem c57_bad_last_field_is_reported : forall bits lib m old raw body fields t more, lib_ok lib ->
  response_line raw body -> has_fields is_quote body (fields ++ [t]) -> t <> [] -> (5 <= length fields)%nat \/ no_numeral 2 t ->
  m [req_cpsms] = Answered (raw :: more) ->
  exists o, GetPsmSettings bits lib m (Some old) = Ok {| sent := [req_cpsms]; ret := C_INTERNAL_FAILURE; out := Some o |}.
Proof. exact psm_get_bad_last. Qed.
Print Assumptions c57_bad_last_field_is_reported.
(** Refuted: a malformed field that is not the last one is not reported (all but the last are unreadable here); and a standard
    response whose trailing fields are empty is refused. *)
Theorem c57_bad_field_unreported_refuted :
  GetPsmSettings 64 opened (says "+CPSMS: x,y,z,""11000001"",""00000101""") (Some psm0) =
    Ok {| sent := [req_cpsms]; ret := C_SUCCESS; out := Some {| ps_mode := 255; ps_rau := 0; ps_rdy := 0; ps_tau := 0; ps_act := 10 |} |}.
Proof. vm_compute. reflexivity. Qed.
Print Assumptions c57_bad_field_unreported_refuted.
Theorem c57_empty_trailing_fields_refuted : exists o,
  GetPsmSettings 64 opened (says "+CPSMS: 0,,,,") (Some psm0) = Ok {| sent := [req_cpsms]; ret := C_INTERNAL_FAILURE; out := Some o |}.
Proof. eexists. vm_compute. reflexivity. Qed.
Print Assumptions c57_empty_trailing_fields_refuted.
Example c57_ex : exists fields p, response_line (s2b "+CPSMS: 1,,,""01000111"",""00100100""") (s2b " 1,,,""01000111"",""00100100""") /\
  has_fields is_quote (s2b " 1,,,""01000111"",""00100100""") fields /\ length fields = 5%nat /\ last fields [0%N] <> [] /\ psm_says fields p /\
  GetPsmSettings 64 opened (says "+CPSMS: 1,,,""01000111"",""00100100""") (Some psm0) = Ok {| sent := [req_cpsms]; ret := C_SUCCESS; out := Some (psm_of p) |}.
Proof.
  exists [s2b " 1"; []; []; s2b "01000111"; s2b "00100100"], {| pv_mode := 1; pv_rau := 0; pv_rdy := 0; pv_tau := 252000; pv_act := 240 |}.
  split; [line "+CPSMS"|]. split; [fields|]. split; [reflexivity|]. split; [discriminate|]. split; [|vm_compute; reflexivity].
  repeat split; cbn; try lia.
  - exists [32%N], []. eexists _, [1%N], []. rewrite app_nil_r. cbn [app]. split; [reflexivity|]. split; [repeat constructor; unfold space_char; lia|]. split; [discriminate|].
    split; [repeat constructor; unfold alnum_value; cbn; lia|]. split; [repeat constructor; lia|]. split; [left; reflexivity|left; split; [left; reflexivity|reflexivity]].
  - exists 2%N, 7%N. split; [|split; [lia|reflexivity]]. split; [lia|]. split; [lia|]. numeral [0;1;0;0;0;1;1;1]%N.
  - exists 1%N, 4%N. split; [|split; [lia|reflexivity]]. split; [lia|]. split; [lia|]. numeral [0;0;1;0;0;1;0;0]%N.
Qed.

(** * C58: eDRX list *)

(** One to four well-formed lines: the list is exactly the lines, in order. *)
Theorem c58_list_exact_partial : forall bits lib m o lines entries, 32 <= bits -> lib_ok lib -> m [req_cedrxs] = Answered lines ->
  Forall2 edrx_line lines entries -> (1 <= length lines <= 4)%nat ->
  GetEidrxSettings bits lib m (Some o) = Ok {| sent := [req_cedrxs]; ret := C_SUCCESS;
    out := Some {| e_list := entries ++ repeat (0, 0) (4 - length entries); e_count := N.of_nat (length entries) |} |}.
Proof. exact edrx_good. Qed.
Print Assumptions c58_list_exact_partial.
(** Up to four lines, whatever they contain: no memory error. *)
Theorem c58_four_lines_safe_partial : forall bits lib m o lines, m [req_cedrxs] = Answered lines -> (length lines <= 4)%nat ->
  exists r, GetEidrxSettings bits lib m (Some o) = Ok r.
Proof. exact edrx_total. Qed.
Print Assumptions c58_four_lines_safe_partial.
(** Refuted: five or more well-formed lines overrun the caller's list, always. *)
Theorem c58_fifth_line_overruns_refuted : forall bits lib m o lines entries, 32 <= bits -> lib_ok lib -> m [req_cedrxs] = Answered lines ->
  Forall2 edrx_line lines entries -> (5 <= length lines)%nat -> GetEidrxSettings bits lib m (Some o) = UB.
Proof. exact edrx_over. Qed.
Print Assumptions c58_fifth_line_overruns_refuted.
Definition edrx_sample : str := s2b "+CEDRXS: 4,""1001""".
Lemma edrx_sample_ok : edrx_line edrx_sample (4, 9).
Proof.
  exists (s2b " 4,""1001"""), (s2b " 4"), (s2b "1001"). split; [line "+CEDRXS"|]. split; [fields|]. cbn [fst snd]. split.
  - exists [32%N], []. eexists _, [4%N], []. rewrite app_nil_r. cbn [app]. split; [reflexivity|]. split; [repeat constructor; unfold space_char; lia|]. split; [discriminate|].
    split; [repeat constructor; unfold alnum_value; cbn; lia|]. split; [repeat constructor; lia|]. split; [left; reflexivity|left; split; [left; reflexivity|reflexivity]].
  - split; [numeral [1;0;0;1]%N|lia].
Qed.
Example c58_ex : Forall2 edrx_line [edrx_sample; edrx_sample] [(4, 9); (4, 9)] /\
  GetEidrxSettings 64 opened (fun _ => Answered [edrx_sample; edrx_sample]) (Some edrx0) =
    Ok {| sent := [req_cedrxs]; ret := C_SUCCESS; out := Some {| e_list := [(4, 9); (4, 9); (0, 0); (0, 0)]; e_count := 2 |} |} /\
  GetEidrxSettings 64 opened (fun _ => Answered (repeat edrx_sample 5)) (Some edrx0) = UB.
Proof. split; [repeat constructor; apply edrx_sample_ok|]. split; vm_compute; reflexivity. Qed.

(** * C59: SIM lock state *)

(** A +CPIN response (white space anywhere): READY exactly for the code READY. *)
Theorem c59_ready_partial : forall lib m o raw more code extra, lib_ok lib -> m [req_cpin] = Answered (raw :: more) ->
  spaced_line raw (join 44 (code :: extra)) -> no_nul raw -> code <> [] -> Forall (fun f => ~ In 44%N f) (code :: extra) ->
  exists st, GetSimCardLockStatus lib m (Some o) = Ok {| sent := [req_cpin]; ret := C_SUCCESS; out := Some st |} /\
    (code = s2b "READY" -> st = SIM_READY) /\ (code <> s2b "READY" -> st = SIM_LOCK_UNKNOWN).
Proof.
  intros lib m o raw more code extra HL HM H1 H2 H3 H4. eexists. split; [eapply lock_fields; eassumption|].
  destruct (str_eqb code (s2b "READY")) eqn:E; split; intro Q; try reflexivity; exfalso.
  - apply str_eqb_eq in E. contradiction.
  - assert (str_eqb code (s2b "READY") = true) by (apply str_eqb_eq; exact Q). congruence.
Qed.
Print Assumptions c59_ready_partial.
(** Refuted: no response whatever makes the function report a locked SIM. *)
Theorem c59_never_locked_refuted : forall lib m o r, GetSimCardLockStatus lib m (Some o) = Ok r -> ret r = C_SUCCESS ->
  out r = Some SIM_READY \/ out r = Some SIM_LOCK_UNKNOWN.
Proof. exact lock_success. Qed.
Print Assumptions c59_never_locked_refuted.
Theorem c59_sim_pin_refuted :
  GetSimCardLockStatus opened (says "+CPIN: SIM PIN") (Some SIM_INVALID) = Ok {| sent := [req_cpin]; ret := C_SUCCESS; out := Some SIM_LOCK_UNKNOWN |}.
Proof. vm_compute. reflexivity. Qed.
Print Assumptions c59_sim_pin_refuted.
Example c59_ex : spaced_line (s2b "+CPIN: READY") (join 44 [s2b "READY"]) /\
  GetSimCardLockStatus opened (says "+CPIN: READY") (Some SIM_INVALID) = Ok {| sent := [req_cpin]; ret := C_SUCCESS; out := Some SIM_READY |}.
Proof.
  split; [|vm_compute; reflexivity]. exists (s2b "+CPIN"). split; [cbn; without_tac|]. split; [notin|cbn; lia].
Qed.

(** * C60: home PLMN *)

(** Every MCC of three digits and MNC of two or three: the record encoding it, in the answer of the SIM, is decoded to it. *)
Theorem c60_hplmn_partial : forall lib m o l1 more1 t1 raw more sw1 sw2 mcc mnc tail extra l3 more3 t3, lib_ok lib ->
  m [req_cimi] = Answered (l1 :: more1) -> m [req_cimi; req_crsm] = Answered (raw :: more) -> m [req_cimi; req_crsm; req_ccid] = Answered (l3 :: more3) ->
  l1 <> [] -> (length l1 <= 256)%nat -> without space_char l1 t1 -> (length t1 <= 15)%nat -> spaced_line l3 t3 -> (length t3 <= 20)%nat ->
  crsm_line raw (sw1 :: sw2 :: (hplmn_record mcc mnc ++ tail) :: extra) -> last (sw1 :: sw2 :: (hplmn_record mcc mnc ++ tail) :: extra) [0%N] <> [] ->
  good_sw1 sw1 -> sw2 <> s2b "64" -> digit3 mcc -> digit23 mnc -> (3 <= length tail)%nat ->
  exists i, GetSimCardInfo lib m (Some o) = Ok {| sent := [req_cimi; req_crsm; req_ccid]; ret := C_SUCCESS; out := Some i |} /\
    holds (p_mcc (s_plmn i)) mcc /\ holds (p_mnc (s_plmn i)) mnc.
Proof.
  intros lib m o l1 more1 t1 raw more sw1 sw2 mcc mnc tail extra l3 more3 t3 HL M1 M2 M3 H1 H2 H3 H4 H5 H6 HC HE S1 S2 D1 D2 HT.
  destruct (hplmn_ok raw more sw1 sw2 mcc mnc tail extra HC HE S1 S2 D1 D2 HT) as (p & Ep & K1 & K2).
  destruct (sim_good lib m o l1 more1 t1 (raw :: more) p l3 more3 t3 HL M1 M2 M3 H1 H2 H3 H4 Ep H5 H6) as (i & E & _ & _ & Q).
  exists i. split; [exact E|]. rewrite Q. split; assumption.
Qed.
Print Assumptions c60_hplmn_partial.
(** Error status words (SW1 other than 144, 145, 146, or SW2 = 64) are rejected. *)
Theorem c60_read_error_is_reported : forall lib m o l1 more1 t1 raw more sw1 sw2 extra, lib_ok lib ->
  m [req_cimi] = Answered (l1 :: more1) -> m [req_cimi; req_crsm] = Answered (raw :: more) ->
  l1 <> [] -> (length l1 <= 256)%nat -> without space_char l1 t1 -> (length t1 <= 15)%nat ->
  crsm_line raw (sw1 :: sw2 :: extra) -> last (sw1 :: sw2 :: extra) [0%N] <> [] -> (sw2 <> [] \/ extra <> []) -> ~ good_sw1 sw1 \/ sw2 = s2b "64" ->
  exists i, GetSimCardInfo lib m (Some o) = Ok {| sent := [req_cimi; req_crsm]; ret := C_INTERNAL_FAILURE; out := Some i |}.
Proof.
  intros lib m o l1 more1 t1 raw more sw1 sw2 extra HL M1 M2 H1 H2 H3 H4 HC HE HN HB.
  pose proof (hplmn_rejects raw more sw1 sw2 extra (s_plmn sim_info0) HC HE HN HB) as E.
  destruct (imsi_ok l1 more1 t1 H1 H2 H3 H4) as (b & E1 & _).
  unfold GetSimCardInfo. rewrite HL. unfold request. cbn [app]. change (plain "AT+CIMI" T_WO_PREFIX) with req_cimi. rewrite M1.
  change (s_imsi sim_info0) with (repeat 0%N (S IMSI_MAX_SIZE)). rewrite E1. cbn [bind app s_plmn].
  change {| rq_cmd := s2b "AT+CRSM=176,28514,0,0,0"; rq_type := T_WITH_PREFIX; rq_prefix := Some (s2b "+CRSM") |} with req_crsm. rewrite M2.
  match goal with |- context [RecvFuncGetHplmn ?u ?v] => match type of E with _ = ?r => replace (RecvFuncGetHplmn u v) with r by (symmetry; exact E) end end.
  cbn [bind]. eexists. reflexivity.
Qed.
Print Assumptions c60_read_error_is_reported.
(** A record that is too short, or unused (all F), is not taken for a home PLMN. *)
Theorem c60_no_plmn_is_reported : forall lib m o l1 more1 t1 raw more sw1 sw2 rec extra, lib_ok lib ->
  m [req_cimi] = Answered (l1 :: more1) -> m [req_cimi; req_crsm] = Answered (raw :: more) ->
  l1 <> [] -> (length l1 <= 256)%nat -> without space_char l1 t1 -> (length t1 <= 15)%nat ->
  crsm_line raw (sw1 :: sw2 :: rec :: extra) -> last (sw1 :: sw2 :: rec :: extra) [0%N] <> [] -> good_sw1 sw1 -> sw2 <> s2b "64" -> rec <> [] ->
  (length rec < 9)%nat \/ (exists t, rec = s2b "FFFFFF" ++ t) ->
  exists i, GetSimCardInfo lib m (Some o) = Ok {| sent := [req_cimi; req_crsm]; ret := C_INTERNAL_FAILURE; out := Some i |}.
Proof.
  intros lib m o l1 more1 t1 raw more sw1 sw2 rec extra HL M1 M2 H1 H2 H3 H4 HC HE HS1 HS2 HN HB.
  pose proof (hplmn_none raw more sw1 sw2 rec extra (s_plmn sim_info0) HC HE HS1 HS2 HN HB) as E.
  destruct (imsi_ok l1 more1 t1 H1 H2 H3 H4) as (b & E1 & _).
  unfold GetSimCardInfo. rewrite HL. unfold request. cbn [app]. change (plain "AT+CIMI" T_WO_PREFIX) with req_cimi. rewrite M1.
  change (s_imsi sim_info0) with (repeat 0%N (S IMSI_MAX_SIZE)). rewrite E1. cbn [bind app s_plmn].
  change {| rq_cmd := s2b "AT+CRSM=176,28514,0,0,0"; rq_type := T_WITH_PREFIX; rq_prefix := Some (s2b "+CRSM") |} with req_crsm. rewrite M2.
  match goal with |- context [RecvFuncGetHplmn ?u ?v] => match type of E with _ = ?r => replace (RecvFuncGetHplmn u v) with r by (symmetry; exact E) end end.
  cbn [bind]. eexists. reflexivity.
Qed.
Print Assumptions c60_no_plmn_is_reported.

Definition sim_modem (crsm : string) : modem := fun h =>
  match h with
  | [_] => Answered [s2b "262017590001234"]
  | [_; _] => Answered [s2b crsm]
  | _ => Answered [s2b "+CCID: 89490200001234567890"]
  end.
(** Refuted: with a lower-case filler nibble (the TS 31.102 coding leaves the case of hex digits to the modem) a two-digit MNC becomes
    three characters. *)
Theorem c60_lower_case_refuted : exists i, GetSimCardInfo opened (sim_modem "+CRSM: 144,0,""62f210400f""") (Some sim_info0) =
    Ok {| sent := [req_cimi; req_crsm; req_ccid]; ret := C_SUCCESS; out := Some i |} /\
  holds (p_mcc (s_plmn i)) (s2b "262") /\ holds (p_mnc (s_plmn i)) (s2b "01f").
Proof. eexists. split; [vm_compute; reflexivity|]. split; [exists []|exists []]; reflexivity. Qed.
Print Assumptions c60_lower_case_refuted.
Example c60_ex : crsm_line (s2b "+CRSM: 144,0,""62F210400F""") [s2b "144"; s2b "0"; hplmn_record (s2b "262") (s2b "01") ++ s2b "400F"] /\
  exists i, GetSimCardInfo opened (sim_modem "+CRSM: 144,0,""62F210400F""") (Some sim_info0) = Ok {| sent := [req_cimi; req_crsm; req_ccid]; ret := C_SUCCESS; out := Some i |} /\
  holds (p_mcc (s_plmn i)) (s2b "262") /\ holds (p_mnc (s_plmn i)) (s2b "01").
Proof.
  split.
  - exists (s2b "144,0,""62F210400F"""). split; [|split; [fields|unfold no_nul; notin]].
    exists (s2b "+CRSM"). split; [cbn; without_tac|]. split; [notin|cbn; lia].
  - eexists. split; [vm_compute; reflexivity|]. split; [exists []|exists [0%N]]; reflexivity.
Qed.
Example c60_ex_error : crsm_line (s2b "+CRSM: 106,130") [s2b "106"; s2b "130"] /\ ~ good_sw1 (s2b "106") /\
  exists i, GetSimCardInfo opened (sim_modem "+CRSM: 106,130") (Some sim_info0) = Ok {| sent := [req_cimi; req_crsm]; ret := C_INTERNAL_FAILURE; out := Some i |}.
Proof.
  split; [|split; [intros [Q|[Q|Q]]; discriminate Q|eexists; vm_compute; reflexivity]].
  exists (s2b "106,130"). split; [|split; [fields|unfold no_nul; notin]].
  exists (s2b "+CRSM"). split; [cbn; without_tac|]. split; [notin|cbn; lia].
Qed.

(** * C61: identity strings *)

(** SIM: whenever the call succeeds, IMSI and ICCID are complete and NUL terminated inside the caller's structure. *)
Theorem c61_sim_complete : forall lib m o r, GetSimCardInfo lib m (Some o) = Ok r -> ret r = C_SUCCESS ->
  sent r = [req_cimi; req_crsm; req_ccid] /\
  exists l1 more1 t1 ls2 l3 more3 t3 i, m [req_cimi] = Answered (l1 :: more1) /\ m [req_cimi; req_crsm] = Answered ls2 /\
    m [req_cimi; req_crsm; req_ccid] = Answered (l3 :: more3) /\
    without space_char l1 t1 /\ spaced_line l3 t3 /\ out r = Some i /\ holds (s_imsi i) t1 /\ holds (s_iccid i) t3.
Proof.
  intros lib m o r H1 H2. destruct (sim_success lib m o r H1 H2) as (A & l1 & x1 & t1 & ls2 & l3 & x3 & t3 & i & K).
  split; [exact A|]. exists l1, x1, t1, ls2, l3, x3, t3, i. tauto.
Qed.
Print Assumptions c61_sim_complete.
(** And no answer whatever makes either function access memory outside its arrays. *)
Theorem c61_never_overruns : forall lib m, (forall p, exists r, GetSimCardInfo lib m p = Ok r) /\ (forall p, exists r, GetModemInfo lib m p = Ok r).
Proof. intros. split; intro; [apply sim_total|apply modem_total]. Qed.
Print Assumptions c61_never_overruns.
(** Modem: NUL terminated, but only the beginning of a longer string: exactly the first 32, 15, 10 and 20 characters. *)
Theorem c61_modem_partial : forall lib m o l1 more1 t1 l2 more2 t2 l3 more3 t3 l4 more4 t4, lib_ok lib ->
  m [req_cgmr] = Answered (l1 :: more1) -> m [req_cgmr; req_cgsn] = Answered (l2 :: more2) ->
  m [req_cgmr; req_cgsn; req_cgmm] = Answered (l3 :: more3) -> m [req_cgmr; req_cgsn; req_cgmm; req_cgmi] = Answered (l4 :: more4) ->
  padded l1 t1 -> (l2 <> [] /\ (length l2 <= 256)%nat /\ without space_char l2 t2 /\ t2 <> []) -> padded l3 t3 -> padded l4 t4 ->
  exists i, GetModemInfo lib m (Some o) = Ok {| sent := [req_cgmr; req_cgsn; req_cgmm; req_cgmi]; ret := C_SUCCESS; out := Some i |} /\
    holds (mi_fw i) (firstn 32 t1) /\ holds (mi_imei i) (firstn 15 t2) /\ holds (mi_model i) (firstn 10 t3) /\ holds (mi_manuf i) (firstn 20 t4).
Proof. exact modem_good. Qed.
Print Assumptions c61_modem_partial.
(** Refuted: a model name of 11 characters is cut without an error. *)
Theorem c61_truncated_refuted : exists i,
  GetModemInfo opened (fun h => match h with [_; _; _] => Answered [s2b "SARA-R412MX"] | _ => Answered [s2b "355000000000017"] end) (Some modem_info0) =
    Ok {| sent := [req_cgmr; req_cgsn; req_cgmm; req_cgmi]; ret := C_SUCCESS; out := Some i |} /\ holds (mi_model i) (s2b "SARA-R412M").
Proof. eexists. split; [vm_compute; reflexivity|]. exists []. reflexivity. Qed.
Print Assumptions c61_truncated_refuted.
Example c61_ex : padded (s2b " SARA-R4  ") (s2b "SARA-R4") /\
  (exists i, GetModemInfo opened (says "355000000000017") (Some modem_info0) =
    Ok {| sent := [req_cgmr; req_cgsn; req_cgmm; req_cgmi]; ret := C_SUCCESS; out := Some i |} /\ holds (mi_imei i) (s2b "355000000000017")) /\
  (exists r i, GetSimCardInfo opened (sim_modem "+CRSM: 144,0,""62F210400F""") (Some sim_info0) = Ok r /\ ret r = C_SUCCESS /\ out r = Some i /\
    holds (s_imsi i) (s2b "262017590001234") /\ holds (s_iccid i) (s2b "89490200001234567890")).
Proof.
  split; [|split].
  - exists [32%N], [32%N; 32%N]. split; [reflexivity|]. split; [repeat constructor; unfold space_char; lia|]. split; [repeat constructor; unfold space_char; lia|].
    split; [right; cbn; lia|]. split; [cbn; lia|]. split; [eexists _, _; split; [reflexivity|unfold space_char; cbn; lia]|].
    exists 52%N, (s2b "SARA-R"). split; [reflexivity|unfold space_char; lia].
  - eexists. split; [vm_compute; reflexivity|]. exists []. reflexivity.
  - do 2 eexists. split; [vm_compute; reflexivity|]. split; [reflexivity|]. split; [reflexivity|]. split; exists []; reflexivity.
Qed.

(** * C62: IP address *)

(** Every context id 1..16, every response and every buffer with room for the address and its terminator (up to 65535
    bytes): exactly the address, NUL terminated. *)
Theorem c62_address_partial : forall lib m cid b len raw more field addr, lib_ok lib -> (1 <= cid <= 16)%N -> (0 < len)%N ->
  (N.to_nat len <= length b)%nat -> m [req_cgpaddr cid] = Answered (raw :: more) ->
  response_line raw (field ++ 44%N :: addr) -> ~ In 44%N field -> (length addr < N.to_nat (len mod 65536))%nat ->
  exists b', GetIPAddress lib m cid (Some b) len = Ok {| sent := [req_cgpaddr cid]; ret := C_SUCCESS; out := Some b' |} /\ holds b' addr.
Proof. exact ip_good. Qed.
Print Assumptions c62_address_partial.
(** The command carries the decimal context id; ids outside 1..16 and missing buffers send nothing. *)
Theorem c62_request : forall cid, (1 <= cid <= 16)%N -> exists t, rq_cmd (req_cgpaddr cid) = s2b "AT+CGPADDR=" ++ t /\ decimal_text cid t.
Proof. intros cid H. exists (dec cid). split; [reflexivity|]. apply dec_spec. lia. Qed.
Print Assumptions c62_request.
Theorem c62_bad_arguments : forall lib m cid b len, lib_ok lib -> ~ (1 <= cid <= 16)%N \/ len = 0%N \/ b = None ->
  GetIPAddress lib m cid b len = Ok {| sent := []; ret := C_BAD_PARAMETER; out := b |}.
Proof.
  intros lib m cid b len HL H. unfold GetIPAddress. rewrite HL. destruct b as [b|]; [|reflexivity].
  destruct (N.eqb_spec len 0); [reflexivity|]. destruct H as [H|[H|H]]; [|contradiction|discriminate].
  unfold IsValidPdn, PDN_MAX, PDN_MIN. replace ((16 <? cid) || (cid <? 1))%N with true; [reflexivity|].
  symmetry. apply orb_true_iff. rewrite !N.ltb_lt. lia.
Qed.
Print Assumptions c62_bad_arguments.
(** No answer makes it write outside the buffer. *)
Theorem c62_never_overruns : forall lib m cid b len, (N.to_nat len <= length b)%nat -> exists r, GetIPAddress lib m cid (Some b) len = Ok r.
Proof. exact ip_total. Qed.
Print Assumptions c62_never_overruns.
(** Refuted: a buffer of exactly the address's length is filled without a terminator, and the call succeeds; a buffer of 65536 bytes
    is refused; quotes the modem sends around the address stay. *)
Theorem c62_no_terminator_refuted :
  GetIPAddress opened (says "+CGPADDR: 1,10.0.0.17") 1 (Some (repeat 255%N 9)) 9 =
    Ok {| sent := [req_cgpaddr 1]; ret := C_SUCCESS; out := Some (s2b "10.0.0.17") |}.
Proof. vm_compute. reflexivity. Qed.
Print Assumptions c62_no_terminator_refuted.
Theorem c62_buffer_64k_refuted : forall b m, m [req_cgpaddr 1] = Answered [s2b "+CGPADDR: 1,10.0.0.17"] ->
  GetIPAddress opened m 1 (Some b) 65536 = Ok {| sent := [req_cgpaddr 1]; ret := C_INTERNAL_FAILURE; out := Some b |}.
Proof.
  intros b m HM. unfold GetIPAddress. cbn [CheckLibraryStatus opened bLibOpened bLibShutdown bLibClosing negb orb].
  replace (65536 =? 0)%N with false by reflexivity. replace (IsValidPdn 1) with C_SUCCESS by reflexivity.
  unfold finish, request. cbn [app]. change (snprintf AT_CMD_TYPICAL_MAX_SIZE (s2b "AT+CGPADDR=" ++ dec 1)) with (s2b "AT+CGPADDR=" ++ dec 1).
  fold (req_cgpaddr 1). rewrite HM. reflexivity.
Qed.
Print Assumptions c62_buffer_64k_refuted.
Theorem c62_quotes_refuted : exists b, GetIPAddress opened (says "+CGPADDR: 1,""10.0.0.17""") 1 (Some (repeat 255%N 20)) 20 =
    Ok {| sent := [req_cgpaddr 1]; ret := C_SUCCESS; out := Some b |} /\ holds b (s2b """10.0.0.17""").
Proof. eexists. split; [vm_compute; reflexivity|]. eexists. reflexivity. Qed.
Print Assumptions c62_quotes_refuted.
Example c62_ex : response_line (s2b "+CGPADDR: 1,10.0.0.17") (s2b " 1" ++ 44%N :: s2b "10.0.0.17") /\
  exists b, GetIPAddress opened (says "+CGPADDR: 1,10.0.0.17") 1 (Some (repeat 255%N 16)) 16 = Ok {| sent := [req_cgpaddr 1]; ret := C_SUCCESS; out := Some b |} /\
  holds b (s2b "10.0.0.17").
Proof. split; [line "+CGPADDR"|]. eexists. split; [vm_compute; reflexivity|]. eexists. reflexivity. Qed.

(** * C63: network time *)

(** Every well-formed response (white space anywhere, quoted or not, either sign of the time zone, numbers of any width that
    fit the structure): exactly the time of the line. *)
Theorem c63_time_partial : forall bits lib m o raw more body q1 q2 s k, 32 <= bits -> lib_ok lib -> m [req_cclk] = Answered (raw :: more) ->
  response_line raw body -> without space_char body (q1 ++ s ++ q2) -> (q1 = [] \/ q1 = [34%N]) -> (q2 = [] \/ q2 = [34%N]) ->
  clock_text s k -> clock_range k ->
  GetNetworkTime bits lib m (Some o) = Ok {| sent := [req_cclk]; ret := C_SUCCESS; out := Some (ctime_of k) |}.
Proof. exact time_good. Qed.
Print Assumptions c63_time_partial.
(** Refuted: malformed responses accepted: no time of day at all, and nonsense values. *)
Theorem c63_malformed_accepted_refuted :
  GetNetworkTime 64 opened (says "+CCLK: 2+2/10/05") (Some ctime0) = Ok {| sent := [req_cclk]; ret := C_SUCCESS;
    out := Some {| t_tz := 2; t_year := 2; t_month := 10; t_day := 5; t_hour := 0; t_minute := 0; t_second := 0 |} |} /\
  GetNetworkTime 64 opened (says "+CCLK: ""22/99/77,55:66:88+999""") (Some ctime0) = Ok {| sent := [req_cclk]; ret := C_SUCCESS;
    out := Some {| t_tz := 999; t_year := 22; t_month := 99; t_day := 77; t_hour := 55; t_minute := 66; t_second := 88 |} |}.
Proof. split; vm_compute; reflexivity. Qed.
Print Assumptions c63_malformed_accepted_refuted.
(** A number that does not fit its member is an error. *)
Theorem c63_out_of_range_is_refused : forall bits lib m o raw more body q1 q2 s k, 32 <= bits -> lib_ok lib -> m [req_cclk] = Answered (raw :: more) ->
  response_line raw body -> without space_char body (q1 ++ s ++ q2) -> (q1 = [] \/ q1 = [34%N]) -> (q2 = [] \/ q2 = [34%N]) ->
  clock_text s k -> clock_numbers k -> ~ clock_range k ->
  exists t, GetNetworkTime bits lib m (Some o) = Ok {| sent := [req_cclk]; ret := C_INTERNAL_FAILURE; out := Some t |}.
Proof. exact time_bad. Qed.
Print Assumptions c63_out_of_range_is_refused.
Example c63_out_of_range_ex :
  (exists t, GetNetworkTime 64 opened (says "+CCLK: 65536/03/12,18:04:59-32") (Some ctime0) = Ok {| sent := [req_cclk]; ret := C_INTERNAL_FAILURE; out := Some t |}) /\
  (exists t, GetNetworkTime 64 opened (says "+CCLK: 65535/03/256,18:04:59-32") (Some ctime0) = Ok {| sent := [req_cclk]; ret := C_INTERNAL_FAILURE; out := Some t |}).
Proof. split; eexists; vm_compute; reflexivity. Qed.
Example c63_ex : response_line (s2b "+CCLK: ""21/03/12,18:04:59-32""") (s2b " ""21/03/12,18:04:59-32""") /\
  (exists s k, without space_char (s2b " ""21/03/12,18:04:59-32""") ([34%N] ++ s ++ [34%N]) /\ clock_text s k /\ clock_range k /\ k_zone k = -32) /\
  GetNetworkTime 64 opened (says "+CCLK: ""21/03/12,18:04:59-32""") (Some ctime0) = Ok {| sent := [req_cclk]; ret := C_SUCCESS;
    out := Some {| t_tz := -32; t_year := 21; t_month := 3; t_day := 12; t_hour := 18; t_minute := 4; t_second := 59 |} |}.
Proof.
  split; [line "+CCLK"|]. split; [|vm_compute; reflexivity].
  exists (s2b "21/03/12,18:04:59-32"), {| k_year := 21; k_month := 3; k_day := 12; k_hour := 18; k_minute := 4; k_second := 59; k_zone := -32 |}.
  split; [cbn; without_tac|]. split; [|split; [unfold clock_range, int32_range; cbn; lia|reflexivity]].
  assert (D : forall a b v, (a < 10)%N -> (b < 10)%N -> Z.of_N a * 10 + Z.of_N b = v -> digits [(48 + a)%N; (48 + b)%N] v).
  { intros a b v Ha Hb E. split; [discriminate|]. exists [a; b]. split; [reflexivity|]. split; [repeat constructor; assumption|]. cbn. lia. }
  exists (s2b "21"), (s2b "03"), (s2b "12"), (s2b "18"), (s2b "04"), (s2b "59"), 45%N, (s2b "32"), 32.
  split; [reflexivity|]. repeat split; cbn [k_year k_month k_day k_hour k_minute k_second k_zone].
  1,3,5,7,9,11,13: discriminate.
  - exact (proj2 (D 2%N 1%N 21 eq_refl eq_refl eq_refl)).
  - exact (proj2 (D 0%N 3%N 3 eq_refl eq_refl eq_refl)).
  - exact (proj2 (D 1%N 2%N 12 eq_refl eq_refl eq_refl)).
  - exact (proj2 (D 1%N 8%N 18 eq_refl eq_refl eq_refl)).
  - exact (proj2 (D 0%N 4%N 4 eq_refl eq_refl eq_refl)).
  - exact (proj2 (D 5%N 9%N 59 eq_refl eq_refl eq_refl)).
  - exact (proj2 (D 3%N 2%N 32 eq_refl eq_refl eq_refl)).
  - right. split; reflexivity.
Qed.

(** * C64: operator information *)

(** Every +COPS response with a numeric operator of 5 or 6 characters. *)
Theorem c64_operator_partial : forall bits lib m pl x raw more body fields mode act p, 32 <= bits -> lib_ok lib ->
  length (p_mcc pl) = 4%nat -> length (p_mnc pl) = 4%nat ->
  m [req_cops32] = Answered x -> m [req_cops32; req_cops] = Answered (raw :: more) ->
  response_line raw body -> has_fields quote_or_space body fields -> cops_fields fields mode act p ->
  exists r, GetRegisteredNetwork bits lib m true (Some pl) = Ok {| sent := [req_cops32; req_cops]; ret := C_SUCCESS; out := Some r |} /\
    holds (p_mcc r) (firstn 3 p) /\ holds (p_mnc r) (skipn 3 p).
Proof. exact network_good. Qed.
Print Assumptions c64_operator_partial.
(** Out-of-range mode, format or access technology, numeric operator of a wrong length, format without operator: refused, the caller's structure untouched. *)
Theorem c64_out_of_range_is_refused : forall bits lib m pl x raw more body fields, 32 <= bits -> lib_ok lib ->
  m [req_cops32] = Answered x -> m [req_cops32; req_cops] = Answered (raw :: more) ->
  response_line raw body -> has_fields quote_or_space body fields -> last fields [0%N] <> [] -> cops_out_of_range fields ->
  GetRegisteredNetwork bits lib m true (Some pl) = Ok {| sent := [req_cops32; req_cops]; ret := C_INTERNAL_FAILURE; out := Some pl |}.
Proof. exact network_bad. Qed.
Print Assumptions c64_out_of_range_is_refused.
(** No answer makes it access memory outside its arrays. *)
Theorem c64_never_overruns : forall bits lib m mem pl, length (p_mcc pl) = 4%nat -> length (p_mnc pl) = 4%nat ->
  exists r, GetRegisteredNetwork bits lib m mem (Some pl) = Ok r.
Proof. exact network_total. Qed.
Print Assumptions c64_never_overruns.
(** Refuted: "+COPS: 0" (no operator selected) is a success with an empty operator. *)
Theorem c64_no_operator_refuted : exists r,
  GetRegisteredNetwork 64 opened (says "+COPS: 0") true (Some {| p_mcc := s2b "262" ++ [0%N]; p_mnc := s2b "001" ++ [0%N] |}) =
    Ok {| sent := [req_cops32; req_cops]; ret := C_SUCCESS; out := Some r |} /\ holds (p_mcc r) [] /\ holds (p_mnc r) [].
Proof. eexists. split; [vm_compute; reflexivity|]. split; eexists; reflexivity. Qed.
Print Assumptions c64_no_operator_refuted.
(** Refuted too: an operator given by name (formats 0 and 1) is a success with an empty operator code. *)
Theorem c64_text_operator_refuted : forall f, f = "0" \/ f = "1" -> exists r,
  GetRegisteredNetwork 64 opened (says ("+COPS: 0," ++ f ++ ",""Vodafone"",7")%string) true (Some {| p_mcc := s2b "262" ++ [0%N]; p_mnc := s2b "001" ++ [0%N] |}) =
    Ok {| sent := [req_cops32; req_cops]; ret := C_SUCCESS; out := Some r |} /\ holds (p_mcc r) [] /\ holds (p_mnc r) [].
Proof. intros f [-> | ->]; (eexists; split; [vm_compute; reflexivity|]; split; eexists; reflexivity). Qed.
Print Assumptions c64_text_operator_refuted.
Ltac spaced ds := exists [], []; eexists _, ds, []; rewrite app_nil_r; cbn [app]; split; [reflexivity|split; [constructor|split; [discriminate|split;
  [repeat constructor; unfold alnum_value; cbn; lia|split; [repeat constructor; lia|split; [left; reflexivity|left; split; [left; reflexivity|reflexivity]]]]]]].
Lemma cops_sample : response_line (s2b "+COPS: 0,2,""26201"",7") (s2b " 0,2,""26201"",7") /\
  has_fields quote_or_space (s2b " 0,2,""26201"",7") [s2b "0"; s2b "2"; s2b "26201"; s2b "7"] /\ cops_fields [s2b "0"; s2b "2"; s2b "26201"; s2b "7"] 0 7 (s2b "26201").
Proof.
  split; [line "+COPS"|]. split; [fields|]. exists (s2b "0"), (s2b "2"), (s2b "7"). split; [reflexivity|].
  split; [split; [spaced [0%N]|lia]|]. split; [split; [spaced [2%N]|lia]|]. split; [split; [spaced [7%N]|lia]|]. left; reflexivity.
Qed.
Example c64_ex : cops_fields [s2b "0"; s2b "2"; s2b "26201"; s2b "7"] 0 7 (s2b "26201") /\
  exists r, GetRegisteredNetwork 64 opened (says "+COPS: 0,2,""26201"",7") true (Some {| p_mcc := repeat 9%N 4; p_mnc := repeat 9%N 4 |}) =
    Ok {| sent := [req_cops32; req_cops]; ret := C_SUCCESS; out := Some r |} /\ holds (p_mcc r) (s2b "262") /\ holds (p_mnc r) (s2b "01").
Proof. split; [apply cops_sample|]. eexists. split; [vm_compute; reflexivity|]. split; eexists; reflexivity. Qed.
Example c64_ex_bad : cops_out_of_range [s2b "0"; s2b "2"; s2b "26201"; s2b "12"] /\
  GetRegisteredNetwork 64 opened (says "+COPS: 0,2,""26201"",12") true (Some {| p_mcc := repeat 9%N 4; p_mnc := repeat 9%N 4 |}) =
    Ok {| sent := [req_cops32; req_cops]; ret := C_INTERNAL_FAILURE; out := Some {| p_mcc := repeat 9%N 4; p_mnc := repeat 9%N 4 |} |}.
Proof.
  split; [|vm_compute; reflexivity]. apply oor_act with (v := 0).
  - split; [spaced [0%N]|lia].
  - split; [spaced [2%N]|lia].
  - left; reflexivity.
  - exists 12. split; [spaced [1%N; 2%N]|]. unfold int32_range. lia.
Qed.

(** * C65: service status *)

(** All requests answered, reports handled meanwhile by the reader thread included ([env]): exactly what the answers say. *)
Theorem c65_status_partial : forall bits lib m env d0 s0 raw1 vs1 raw2 vs2 raw3 vs3 x raw more body fields mode act p hs, 32 <= bits -> lib_ok lib ->
  (32 <= length (sv_name s0))%nat ->
  m [req_creg] = Answered [raw1] -> query_answer REG_CREG raw1 vs1 ->
  m [req_creg; req_cgreg] = Answered [raw2] -> query_answer REG_CGREG raw2 vs2 ->
  let d1 := env [req_creg] (recorded REG_CREG vs1 d0) in
  let d2 := env [req_creg; req_cgreg] (recorded REG_CGREG vs2 d1) in
  (registered d2 = false -> m [req_creg; req_cgreg; req_cereg] = Answered [raw3] /\ query_answer REG_CEREG raw3 vs3) ->
  let d3 := if registered d2 then d2 else env [req_creg; req_cgreg; req_cereg] (recorded REG_CEREG vs3 d2) in
  hs = (if registered d2 then [req_creg; req_cgreg] else [req_creg; req_cgreg; req_cereg]) ->
  m (hs ++ [req_cops32]) = Answered x -> m (hs ++ [req_cops32; req_cops]) = Answered (raw :: more) ->
  response_line raw body -> has_fields quote_or_space body fields -> cops_fields fields mode act p ->
  exists s, GetServiceStatus bits lib m env d0 (Some s0) =
    Ok ({| sent := hs ++ [req_cops32; req_cops]; ret := C_SUCCESS; out := Some s |}, d3) /\ service_of d3 mode p s.
Proof. exact service_good. Qed.
Print Assumptions c65_status_partial.
(** Without an answer to the first registration query nothing about the registration is reported and the packet
    domain is not even asked about: those members keep what the caller had stored in them. *)
Theorem c65_no_registration_partial : forall bits lib m env d s0, (32 <= length (sv_name s0))%nat -> lib_ok lib ->
  (m [req_creg] = Refused \/ (exists t, m [req_creg] = NoAnswer t) \/ m [req_creg] = Answered []) ->
  exists h s, GetServiceStatus bits lib m env d (Some s0) = Ok ({| sent := h; ret := C_SUCCESS; out := Some s |}, env [req_creg] d) /\
    (h = [req_creg; req_cops32] \/ h = [req_creg; req_cops32; req_cops]) /\
    sv_rat s = sv_rat s0 /\ sv_cs s = sv_cs s0 /\ sv_ps s = sv_ps s0 /\ sv_csRejType s = sv_csRejType s0 /\ sv_csRejCause s = sv_csRejCause s0 /\
    sv_psRejType s = sv_psRejType s0 /\ sv_psRejCause s = sv_psRejCause s0.
Proof. exact service_no_creg. Qed.
Print Assumptions c65_no_registration_partial.
(** No answer and no concurrent report makes it access memory outside its arrays; and, refuting the property, it always succeeds. *)
Theorem c65_always_success_refuted : forall bits lib m env d s0, (32 <= length (sv_name s0))%nat -> lib_ok lib ->
  exists h s d', GetServiceStatus bits lib m env d (Some s0) = Ok ({| sent := h; ret := C_SUCCESS; out := Some s |}, d').
Proof. exact service_total. Qed.
Print Assumptions c65_always_success_refuted.
(** In particular when the modem is dead: the registration part of the caller's structure is then the garbage that was in it. *)
Theorem c65_dead_modem_refuted : forall bits lib env d s0 n, lib_ok lib -> sv_name s0 = repeat n 33 ->
  exists h s d', GetServiceStatus bits lib (fun _ => NoAnswer true) env d (Some s0) = Ok ({| sent := h; ret := C_SUCCESS; out := Some s |}, d') /\
    sv_rat s = sv_rat s0 /\ sv_cs s = sv_cs s0 /\ sv_ps s = sv_ps s0 /\
    sv_mode s = 0 /\ sv_fmt s = 0 /\ holds (sv_mcc s) [] /\ holds (sv_mnc s) [] /\ holds (sv_name s) [].
Proof.
  intros bits lib env d s0 n HL HN. unfold GetServiceStatus. rewrite HL. unfold QueryRegStatus, queryNetworkStatus, UpdateMccMnc, request.
  cbn [app bind TranslatePktStatus]. unfold array_str. cbn [o_name op_info0 cstr_list repeat NETWORK_NAME_MAX_SIZE]. cbn [N.eqb bind sv_name].
  change NETWORK_NAME_MAX_SIZE with 32%nat. rewrite HN. rewrite (strncpy_ok (repeat n 33) [] 32) by (rewrite repeat_length; lia). cbn [bind]. do 3 eexists. split; [reflexivity|]. repeat split; try reflexivity; eexists; cbn; reflexivity.
Qed.
Print Assumptions c65_dead_modem_refuted.
(** Refuted as well: an operator name of 32 characters leaves the caller's name without a terminator. *)
Theorem c65_name_unterminated_refuted : forall env, (forall h d, env h d = d) -> exists h s,
  GetServiceStatus 64 opened (fun h => match h with [_] => Refused | _ => Answered [s2b "+COPS: 0,0,""0123456789abcdef0123456789abcdef"",7"] end) env at_data0
    (Some {| sv_rat := 0; sv_mode := 0; sv_cs := 0; sv_ps := 0; sv_mcc := repeat 7%N 4; sv_mnc := repeat 7%N 4; sv_name := repeat 7%N 33; sv_fmt := 0;
             sv_csRejType := 0; sv_csRejCause := 0; sv_psRejType := 0; sv_psRejCause := 0 |}) = Ok ({| sent := h; ret := C_SUCCESS; out := Some s |}, at_data0) /\
  ~ In 0%N (sv_name s).
Proof.
  intros env He. unfold GetServiceStatus, QueryRegStatus. cbn [CheckLibraryStatus opened bLibOpened bLibShutdown bLibClosing negb orb].
  unfold queryNetworkStatus at 1. unfold request at 1. cbn [app bind TranslatePktStatus]. rewrite He.
  do 2 eexists. split; [vm_compute; reflexivity|]. vm_compute. intuition discriminate.
Qed.
Print Assumptions c65_name_unterminated_refuted.
Example c65_ex : query_answer REG_CREG (s2b "+CREG: 2,1") [1] /\ registered (recorded REG_CGREG [1] (recorded REG_CREG [1] at_data0)) = true /\
  exists s d, GetServiceStatus 64 opened (fun h => match h with
      | [_] => Answered [s2b "+CREG: 2,1"] | [_; _] => Answered [s2b "+CGREG: 2,1"] | _ => Answered [s2b "+COPS: 0,2,""26201"",7"] end) (fun _ d => d) at_data0
    (Some {| sv_rat := 0; sv_mode := 9; sv_cs := 0; sv_ps := 0; sv_mcc := repeat 7%N 4; sv_mnc := repeat 7%N 4; sv_name := repeat 7%N 33; sv_fmt := 0;
             sv_csRejType := 0; sv_csRejCause := 0; sv_psRejType := 0; sv_psRejCause := 0 |}) =
    Ok ({| sent := [req_creg; req_cgreg; req_cops32; req_cops]; ret := C_SUCCESS; out := Some s |}, d) /\ sv_cs s = 1 /\ sv_ps s = 1 /\ sv_mode s = 0 /\ holds (sv_mcc s) (s2b "262").
Proof.
  split; [|split; [reflexivity|do 2 eexists; split; [vm_compute; reflexivity|]; repeat split; try reflexivity; exists []; reflexivity]].
  exists (s2b "+CREG:2"), [s2b "1"], (s2b "+CREG: 2"), (s2b "1"). split; [discriminate|]. split.
  - split; [split; [discriminate|cbn; lia]|]. split; [unfold no_nul; notin|]. split; [cbn; without_tac|repeat constructor; notin].
  - split; [repeat constructor; cbn; unfold int32_range; try lia; numeral [1%N]|]. split; [reflexivity|]. split; [notin|discriminate].
Qed.

(** * C66: PDN configuration *)

(** Names of the three context types. *)
Definition pdn_type_name (t : Z) (name : string) : Prop := (t = 1 /\ name = "IP") \/ (t = 2 /\ name = "IPV6") \/ (t = 3 /\ name = "IPV4V6").
(** Every id 1..16, context type and APN of up to 64 characters: exactly the command, within its buffer. *)
Theorem c66_command : forall lib m cid c name, lib_ok lib -> (1 <= cid <= 16)%N -> pdn_type_name (pc_type c) name ->
  no_nul (pc_apn c) -> (length (pc_apn c) <= 64)%nat ->
  exists r id, SetPdnConfig lib m cid (Some c) = Ok {| sent := [r]; ret := done_with (m [r]); out := tt |} /\
    rq_cmd r = s2b "AT+CGDCONT=" ++ id ++ s2b ",""" ++ s2b name ++ s2b """,""" ++ pc_apn c ++ s2b """" /\ decimal_text cid id /\
    rq_type r = T_NO_RESULT /\ (length (rq_cmd r) < 200)%nat.
Proof.
  intros lib m cid c name HL Hc Ht Hn Ha. exists {| rq_cmd := s2b "AT+CGDCONT=" ++ dec cid ++ s2b ",""" ++ s2b name ++ s2b """,""" ++ pc_apn c ++ s2b """"; rq_type := T_NO_RESULT; rq_prefix := None |}, (dec cid).
  assert (HN : no_nul (s2b name) /\ (length (s2b name) <= 6)%nat) by (destruct Ht as [[_ -> ]|[[_ -> ]|[_ -> ]]]; (split; [unfold no_nul; notin|cbn; lia])).
  destruct (pdn_text cid name (pc_apn c) ltac:(lia) (proj1 HN) Hn (proj2 HN) Ha) as [E L].
  split; [|split; [reflexivity|split; [apply dec_spec; lia|split; [reflexivity|exact L]]]].
  unfold SetPdnConfig. rewrite (proj2 (pdn_range cid) Hc), HL.
  assert (ET : (if (pc_type c =? 1)%Z then Some "IP"%string else if (pc_type c =? 2)%Z then Some "IPV6"%string else if (pc_type c =? 3)%Z then Some "IPV4V6"%string else None) = Some name).
  { destruct Ht as [[-> -> ]|[[-> -> ]|[-> -> ]]]; reflexivity. }
  rewrite ET. rewrite E. apply simple_request.
Qed.
Print Assumptions c66_command.
(** Everything else is rejected and nothing is sent. *)
Theorem c66_rejects : forall lib m cid p, (p = None \/ (exists c, p = Some c /\ ~ 1 <= pc_type c <= 3) \/ ~ (1 <= cid <= 16)%N \/ ~ lib_ok lib) ->
  exists e, SetPdnConfig lib m cid p = Ok {| sent := []; ret := e; out := tt |} /\ e <> C_SUCCESS.
Proof.
  intros lib m cid p H. unfold SetPdnConfig, rejected. destruct p as [c|]; [|eexists; split; [reflexivity|discriminate]].
  destruct H as [H|[(c' & Q & H)|H]]; [discriminate| |].
  - inversion Q; subst. replace (pc_type c' =? 1)%Z with false by (symmetry; apply Z.eqb_neq; lia). replace (pc_type c' =? 2)%Z with false by (symmetry; apply Z.eqb_neq; lia).
    replace (pc_type c' =? 3)%Z with false by (symmetry; apply Z.eqb_neq; lia). eexists; split; [reflexivity|discriminate].
  - cbv zeta. match goal with |- context [match ?t with Some _ => _ | None => _ end] => destruct t; [|eexists; split; [reflexivity|discriminate]] end.
    destruct (IsValidPdn cid) eqn:EV; try (eexists; split; [reflexivity|discriminate]). destruct H as [H|H]; [destruct (H (proj1 (pdn_range cid) EV))|].
    unfold lib_ok in H. destruct (CheckLibraryStatus lib); try (eexists; split; [reflexivity|discriminate]). destruct (H eq_refl).
Qed.
Print Assumptions c66_rejects.
Example c66_ex : pdn_type_name 3 "IPV4V6" /\ exists r, SetPdnConfig opened (fun _ => Answered []) 12 (Some {| pc_type := 3; pc_apn := s2b "internet" |}) =
  Ok {| sent := [r]; ret := C_SUCCESS; out := tt |} /\ rq_cmd r = s2b "AT+CGDCONT=12,""IPV4V6"",""internet""".
Proof. split; [unfold pdn_type_name; auto|]. eexists. split; vm_compute; reflexivity. Qed.

(** * C71: the gate *)

(** Library not open (or closing, or NULL handle): no function sends anything, succeeds or touches the caller's object. *)
Theorem c71_closed_library_sends_nothing : forall bits lib m, ~ lib_ok lib -> exists e, e <> C_SUCCESS /\
  (forall p, GetNetworkTime bits lib m p = Ok {| sent := []; ret := e; out := p |}) /\
  (forall p, GetModemInfo lib m p = Ok {| sent := []; ret := e; out := p |}) /\
  (forall mem p, GetRegisteredNetwork bits lib m mem p = Ok {| sent := []; ret := e; out := p |}) /\
  (forall env d p, GetServiceStatus bits lib m env d p = Ok ({| sent := []; ret := e; out := p |}, d)) /\
  (forall cid b len, GetIPAddress lib m cid b len = Ok {| sent := []; ret := e; out := b |}) /\
  (forall p, GetEidrxSettings bits lib m p = Ok {| sent := []; ret := e; out := p |}) /\
  (forall p, SetEidrxSettings lib m p = Ok {| sent := []; ret := e; out := tt |}) /\
  RfOn lib m = Ok {| sent := []; ret := e; out := tt |} /\ RfOff lib m = Ok {| sent := []; ret := e; out := tt |} /\
  (forall p, GetSimCardLockStatus lib m p = Ok {| sent := []; ret := e; out := p |}) /\
  (forall p, GetSimCardInfo lib m p = Ok {| sent := []; ret := e; out := p |}) /\
  (forall p, SetPsmSettings lib m p = Ok {| sent := []; ret := e; out := tt |}) /\
  (forall p, GetPsmSettings bits lib m p = Ok {| sent := []; ret := e; out := p |}).
Proof.
  intros bits lib m H. unfold lib_ok in H. exists (CheckLibraryStatus lib). split; [exact H|].
  unfold GetNetworkTime, GetModemInfo, GetRegisteredNetwork, GetServiceStatus, GetIPAddress, GetEidrxSettings, SetEidrxSettings, RfOn, RfOff, RfCommand,
    GetSimCardLockStatus, GetSimCardInfo, SetPsmSettings, GetPsmSettings, rejected.
  destruct (CheckLibraryStatus lib); try (destruct (H eq_refl)); repeat split; intros; reflexivity.
Qed.
Print Assumptions c71_closed_library_sends_nothing.
(** A missing output object: BAD_PARAMETER, nothing sent. *)
Theorem c71_null_output : forall bits lib m, lib_ok lib ->
  GetNetworkTime bits lib m None = Ok {| sent := []; ret := C_BAD_PARAMETER; out := None |} /\
  GetModemInfo lib m None = Ok {| sent := []; ret := C_BAD_PARAMETER; out := None |} /\
  (forall mem, GetRegisteredNetwork bits lib m mem None = Ok {| sent := []; ret := C_BAD_PARAMETER; out := None |}) /\
  (forall env d, GetServiceStatus bits lib m env d None = Ok ({| sent := []; ret := C_BAD_PARAMETER; out := None |}, d)) /\
  (forall cid len, GetIPAddress lib m cid None len = Ok {| sent := []; ret := C_BAD_PARAMETER; out := None |}) /\
  GetEidrxSettings bits lib m None = Ok {| sent := []; ret := C_BAD_PARAMETER; out := None |} /\
  SetEidrxSettings lib m None = Ok {| sent := []; ret := C_BAD_PARAMETER; out := tt |} /\
  (forall cid, SetPdnConfig lib m cid None = Ok {| sent := []; ret := C_BAD_PARAMETER; out := tt |}) /\
  GetSimCardLockStatus lib m None = Ok {| sent := []; ret := C_BAD_PARAMETER; out := None |} /\
  GetSimCardInfo lib m None = Ok {| sent := []; ret := C_BAD_PARAMETER; out := None |} /\
  SetPsmSettings lib m None = Ok {| sent := []; ret := C_BAD_PARAMETER; out := tt |} /\
  GetPsmSettings bits lib m None = Ok {| sent := []; ret := C_BAD_PARAMETER; out := None |}.
Proof.
  intros bits lib m H. unfold GetNetworkTime, GetModemInfo, GetRegisteredNetwork, GetServiceStatus, GetIPAddress, GetEidrxSettings, SetEidrxSettings,
    SetPdnConfig, GetSimCardLockStatus, GetSimCardInfo, SetPsmSettings, GetPsmSettings, rejected. rewrite !H. repeat split; intros; reflexivity.
Qed.
Print Assumptions c71_null_output.
Example c71_ex : ~ lib_ok None /\ ~ lib_ok (Some {| bLibOpened := true; bLibShutdown := true; bLibClosing := false |}) /\ lib_ok opened.
Proof. repeat split; discriminate. Qed.

(** * C72: radio and eDRX commands *)
Theorem c72_radio : forall lib m, lib_ok lib ->
  (exists r, RfOn lib m = Ok {| sent := [r]; ret := done_with (m [r]); out := tt |} /\ rq_cmd r = s2b "AT+CFUN=1" /\ rq_type r = T_NO_RESULT) /\
  (exists r, RfOff lib m = Ok {| sent := [r]; ret := done_with (m [r]); out := tt |} /\ rq_cmd r = s2b "AT+CFUN=4" /\ rq_type r = T_NO_RESULT).
Proof.
  intros lib m HL. unfold RfOn, RfOff, RfCommand. rewrite HL. split; (eexists; split; [apply simple_request|split; reflexivity]).
Qed.
Print Assumptions c72_radio.
Theorem c72_set_edrx : forall lib m e, lib_ok lib -> (es_mode e < 256)%N -> (es_rat e < 256)%N -> (es_value e < 16)%N ->
  exists r md rt v, SetEidrxSettings lib m (Some e) = Ok {| sent := [r]; ret := done_with (m [r]); out := tt |} /\
    rq_cmd r = s2b "AT+CEDRXS=" ++ md ++ s2b "," ++ rt ++ s2b ",""" ++ v ++ s2b """" /\ rq_type r = T_NO_RESULT /\ (length (rq_cmd r) < 200)%nat /\
    decimal_text (es_mode e) md /\ decimal_text (es_rat e) rt /\ binary_text 4 (es_value e) v.
Proof.
  intros lib m e HL H1 H2 H3. destruct (eidrx_text (es_mode e) (es_rat e) (es_value e) H1 H2) as [E L].
  exists {| rq_cmd := s2b "AT+CEDRXS=" ++ dec (es_mode e) ++ [chCOMMA] ++ dec (es_rat e) ++ [chCOMMA; chDQ] ++ bin4 (es_value e) ++ [chDQ]; rq_type := T_NO_RESULT; rq_prefix := None |},
    (dec (es_mode e)), (dec (es_rat e)), (bin4 (es_value e)).
  split; [unfold SetEidrxSettings; rewrite HL, E; apply simple_request|]. split; [reflexivity|]. split; [reflexivity|]. split; [exact L|].
  split; [apply dec_spec; exact H1|]. split; [apply dec_spec; exact H2|]. pose proof (bin4_spec (es_value e)) as B. rewrite N.mod_small in B by exact H3. exact B.
Qed.
Print Assumptions c72_set_edrx.
Example c72_ex : exists r, SetEidrxSettings opened (fun _ => NoAnswer true) (Some {| es_mode := 1; es_rat := 4; es_value := 9 |}) = Ok {| sent := [r]; ret := C_TIMEOUT; out := tt |} /\
  rq_cmd r = s2b "AT+CEDRXS=1,4,""1001""".
Proof. eexists. split; vm_compute; reflexivity. Qed.

(** * C73: return values *)

(** For every function except Cellular_GetServiceStatus (see C65): the return value is honest about the requests. *)
Theorem c73_honest : forall bits lib m,
  (forall p r, GetNetworkTime bits lib m p = Ok r -> honest m (sent r) (ret r)) /\
  (forall p r, GetModemInfo lib m p = Ok r -> honest m (sent r) (ret r)) /\
  (forall mem p r, GetRegisteredNetwork bits lib m mem p = Ok r -> honest m (sent r) (ret r)) /\
  (forall cid b len r, GetIPAddress lib m cid b len = Ok r -> honest m (sent r) (ret r)) /\
  (forall p r, GetEidrxSettings bits lib m p = Ok r -> honest m (sent r) (ret r)) /\
  (forall p r, SetEidrxSettings lib m p = Ok r -> honest m (sent r) (ret r)) /\
  (forall r, RfOn lib m = Ok r -> honest m (sent r) (ret r)) /\ (forall r, RfOff lib m = Ok r -> honest m (sent r) (ret r)) /\
  (forall cid p r, SetPdnConfig lib m cid p = Ok r -> honest m (sent r) (ret r)) /\
  (forall p r, GetSimCardLockStatus lib m p = Ok r -> honest m (sent r) (ret r)) /\
  (forall p r, GetSimCardInfo lib m p = Ok r -> honest m (sent r) (ret r)) /\
  (forall p r, SetPsmSettings lib m p = Ok r -> honest m (sent r) (ret r)) /\
  (forall p r, GetPsmSettings bits lib m p = Ok r -> honest m (sent r) (ret r)).
Proof.
  intros. repeat apply conj; intros.
  - eapply honest_time; eassumption.
  - eapply honest_modem; eassumption.
  - eapply honest_network; eassumption.
  - eapply honest_ip; eassumption.
  - eapply honest_edrx; eassumption.
  - eapply honest_setedrx; eassumption.
  - eapply honest_rf; eassumption.
  - eapply honest_rf; eassumption.
  - eapply honest_pdn; eassumption.
  - eapply honest_lock; eassumption.
  - eapply honest_sim; eassumption.
  - eapply honest_setpsm; eassumption.
  - eapply honest_psm; eassumption.
Qed.
Print Assumptions c73_honest.
Example c73_ex : exists r, GetModemInfo opened (fun h => match h with [_; _; _] => NoAnswer true | _ => Answered [s2b "355000000000017"] end) (Some modem_info0) = Ok r /\
  ret r = C_TIMEOUT /\ sent r = [req_cgmr; req_cgsn; req_cgmm].
Proof. eexists. split; [vm_compute; reflexivity|]. split; reflexivity. Qed.

(** * C77: success of a query means the information came *)
(** For every query function (Cellular_GetServiceStatus: see C65): if it returns SUCCESS, every query it sent - that is every
    command but the mode setting AT+COPS=3,2 - was answered with a success code after at least one line of information. *)
Theorem c77_success_means_information : forall bits lib m,
  (forall p r, GetNetworkTime bits lib m p = Ok r -> ret r = C_SUCCESS -> informed m (sent r)) /\
  (forall p r, GetModemInfo lib m p = Ok r -> ret r = C_SUCCESS -> informed m (sent r)) /\
  (forall mem p r, GetRegisteredNetwork bits lib m mem p = Ok r -> ret r = C_SUCCESS -> informed m (sent r)) /\
  (forall cid b len r, GetIPAddress lib m cid b len = Ok r -> ret r = C_SUCCESS -> informed m (sent r)) /\
  (forall p r, GetEidrxSettings bits lib m p = Ok r -> ret r = C_SUCCESS -> informed m (sent r)) /\
  (forall p r, GetSimCardLockStatus lib m p = Ok r -> ret r = C_SUCCESS -> informed m (sent r)) /\
  (forall p r, GetSimCardInfo lib m p = Ok r -> ret r = C_SUCCESS -> informed m (sent r)) /\
  (forall p r, GetPsmSettings bits lib m p = Ok r -> ret r = C_SUCCESS -> informed m (sent r)).
Proof.
  intros. repeat apply conj; intros.
  - eapply info_time; eassumption.
  - eapply info_modem; eassumption.
  - eapply info_network; eassumption.
  - eapply info_ip; eassumption.
  - eapply info_edrx; eassumption.
  - eapply info_lock; eassumption.
  - eapply info_sim; eassumption.
  - eapply info_psm; eassumption.
Qed.
Print Assumptions c77_success_means_information.
(** Both cases occur: four informative answers; the second one empty. *)
Example c77_ex : (exists r, GetModemInfo opened (fun h => Answered [s2b "355000000000017"]) (Some modem_info0) = Ok r /\
    ret r = C_SUCCESS /\ sent r = [req_cgmr; req_cgsn; req_cgmm; req_cgmi]) /\
  (exists r, GetModemInfo opened (fun h => match h with [_; _] => Answered [] | _ => Answered [s2b "355000000000017"] end) (Some modem_info0) = Ok r /\
    ret r = C_INTERNAL_FAILURE /\ sent r = [req_cgmr; req_cgsn]).
Proof. split; eexists; (split; [vm_compute; reflexivity|split; reflexivity]). Qed.

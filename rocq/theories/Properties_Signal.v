(** Property theorems: signal conversions (C51-C53), library gate (C48), status translation (C67). *)
From Coq Require Import List NArith ZArith Bool Lia.
From Verif Require Import Bytes AtCore Status Signal SignalProofs.
Import ListNotations.
Local Open Scope Z_scope.

(** C48 *)
Theorem c48_api_gate_exact : forall ctx,
  (CheckLibraryStatus ctx = C_SUCCESS <->
     exists f, ctx = Some f /\ bLibOpened f = true /\ bLibShutdown f = false /\ bLibClosing f = false) /\
  (ctx = None -> CheckLibraryStatus ctx = C_INVALID_HANDLE).
Proof. exact gate_exact. Qed.
Print Assumptions c48_api_gate_exact.
Example c48_ex : CheckLibraryStatus (Some {| bLibOpened := true; bLibShutdown := false; bLibClosing := false |}) = C_SUCCESS
  /\ CheckLibraryStatus (Some {| bLibOpened := true; bLibShutdown := true; bLibClosing := false |}) = C_INTERNAL_FAILURE.
Proof. split; reflexivity. Qed.

(** C51: RSSI: 0..31 -> -113 .. -51 dBm in steps of 2, 99 -> invalid, all else rejected, output untouched *)
Theorem c51_csq_rssi_exact : forall csq old,
  (csq = 99 -> ConvertCsqSignalRssi csq (Some old) = (C_SUCCESS, Some (-32768))) /\
  (0 <= csq <= 31 -> ConvertCsqSignalRssi csq (Some old) = (C_SUCCESS, Some (2 * csq - 113))) /\
  (csq <> 99 -> csq < 0 \/ 31 < csq -> ConvertCsqSignalRssi csq (Some old) = (C_BAD_PARAMETER, Some old)) /\
  ConvertCsqSignalRssi csq None = (C_BAD_PARAMETER, None).
Proof. exact csq_rssi. Qed.
Print Assumptions c51_csq_rssi_exact.
(** BER: hundredths of a percent, 3GPP TS 45.008 assumed values *)
Theorem c51_csq_ber_exact : forall csq old,
  (csq = 99 -> ConvertCsqSignalBer csq (Some old) = Ok (C_SUCCESS, Some (-32768))) /\
  (forall v, In (csq, v) [(0,14);(1,28);(2,57);(3,113);(4,226);(5,453);(6,905);(7,1810)] ->
     ConvertCsqSignalBer csq (Some old) = Ok (C_SUCCESS, Some v)) /\
  (csq <> 99 -> csq < 0 \/ 7 < csq -> ConvertCsqSignalBer csq (Some old) = Ok (C_BAD_PARAMETER, Some old)) /\
  ConvertCsqSignalBer csq (Some old) <> UB /\ ConvertCsqSignalBer csq None = Ok (C_BAD_PARAMETER, None).
Proof. exact csq_ber. Qed.
Print Assumptions c51_csq_ber_exact.
Example c51_ex : ConvertCsqSignalRssi 31 (Some 7) = (C_SUCCESS, Some (-51)) /\ ConvertCsqSignalBer 7 (Some 7) = Ok (C_SUCCESS, Some 1810).
Proof. split; reflexivity. Qed.

(** C52 *)
Theorem c52_bars_monotone : forall r s1 s2 o1 o2,
  si_rssi s1 <= si_rssi s2 <= 0 -> si_rsrp s1 <= si_rsrp s2 <= 0 ->
  ComputeSignalBars r (Some s1) = (C_SUCCESS, Some o1) -> ComputeSignalBars r (Some s2) = (C_SUCCESS, Some o2) ->
  (1 <= si_bars o1 <= si_bars o2 /\ si_bars o2 <= 5)%N.
Proof. exact bars_monotone. Qed.
Print Assumptions c52_bars_monotone.
(** which RATs are supported, and what happens for the others and for positive levels; nothing but the bars changes *)
Theorem c52_bars_support : forall r s st o, ComputeSignalBars r (Some s) = (st, Some o) ->
  si_rssi o = si_rssi s /\ si_rsrp o = si_rsrp s /\
  (st = C_SUCCESS <-> In r [RAT_GSM; RAT_EDGE; RAT_LTE; RAT_CATM1; RAT_NBIOT]) /\
  (st <> C_SUCCESS -> si_bars o = 255%N) /\
  (st = C_SUCCESS -> 0 < si_rssi s -> 0 < si_rsrp s -> si_bars o = 255%N).
Proof. exact bars_support. Qed.
Print Assumptions c52_bars_support.
(** every RAT gets an answer; a NULL structure is refused *)
Theorem c52_bars_total : forall r, (forall s, exists st o, ComputeSignalBars r (Some s) = (st, Some o)) /\ ComputeSignalBars r None = (C_BAD_PARAMETER, None).
Proof. intros r. split; [intros s; destruct r; cbn; eauto|reflexivity]. Qed.
Print Assumptions c52_bars_total.
(** the level used is RSSI for GSM/EDGE and RSRP for the LTE family, with the documented thresholds *)
Theorem c52_bars_thresholds : forall r s o, ComputeSignalBars r (Some s) = (C_SUCCESS, Some o) ->
  exists v t1 t2 t3 t4,
  ((r = RAT_GSM \/ r = RAT_EDGE) /\ v = si_rssi s /\ (t1, t2, t3, t4) = (-104, -98, -89, -80) \/
   (r = RAT_LTE \/ r = RAT_CATM1 \/ r = RAT_NBIOT) /\ v = si_rsrp s /\ (t1, t2, t3, t4) = (-115, -105, -95, -85)) /\
  (v <= t1 -> si_bars o = 1%N) /\ (t1 < v <= t2 -> si_bars o = 2%N) /\ (t2 < v <= t3 -> si_bars o = 3%N) /\
  (t3 < v <= t4 -> si_bars o = 4%N) /\ (t4 < v <= 0 -> si_bars o = 5%N) /\ (0 < v -> si_bars o = 255%N).
Proof. exact bars_thresholds. Qed.
Print Assumptions c52_bars_thresholds.
Example c52_ex : ComputeSignalBars RAT_LTE (Some {| si_rssi := 0; si_rsrp := -100; si_bars := 0%N |})
  = (C_SUCCESS, Some {| si_rssi := 0; si_rsrp := -100; si_bars := 3%N |}).
Proof. reflexivity. Qed.

(** C53: refuted: the invalid value is shown as one bar, for every supported RAT *)
Theorem c53_invalid_signal_bars_refuted : forall r s st o,
  si_rssi s = -32768 -> si_rsrp s = -32768 ->
  In r [RAT_GSM; RAT_EDGE; RAT_LTE; RAT_CATM1; RAT_NBIOT] ->
  ComputeSignalBars r (Some s) = (st, Some o) -> st = C_SUCCESS /\ si_bars o = 1%N /\ si_bars o <> 255%N.
Proof. exact invalid_bars_refuted. Qed.
Print Assumptions c53_invalid_signal_bars_refuted.
(** What does hold: no other RAT shows bars for it.  Missing: the five supported RATs (false, see above). *)
Theorem c53_unsupported_rat_partial : forall r s, ~ In r [RAT_GSM; RAT_EDGE; RAT_LTE; RAT_CATM1; RAT_NBIOT] ->
  exists st o, ComputeSignalBars r (Some s) = (st, Some o) /\ st <> C_SUCCESS /\ si_bars o = 255%N.
Proof.
  intros r s H. destruct (proj1 (c52_bars_total r) s) as (st & o & E). exists st, o. split; [exact E|].
  destruct (c52_bars_support _ _ _ _ E) as (_ & _ & A & B & _). assert (st <> C_SUCCESS) by (intro Q; apply H, A, Q). auto.
Qed.
Print Assumptions c53_unsupported_rat_partial.
Example c53_ex : ComputeSignalBars RAT_GSM (Some {| si_rssi := -32768; si_rsrp := -32768; si_bars := 0%N |})
  = (C_SUCCESS, Some {| si_rssi := -32768; si_rsrp := -32768; si_bars := 1%N |}).
Proof. reflexivity. Qed.

(** C67 *)
Theorem c67_error_translation : forall p a,
  (TranslatePktStatus p = C_SUCCESS <-> p = PKT_OK) /\ (TranslatePktStatus p = C_TIMEOUT <-> p = PKT_TIMED_OUT) /\
  (p <> PKT_OK -> p <> PKT_TIMED_OUT -> TranslatePktStatus p = C_INTERNAL_FAILURE) /\
  (TranslateAtCoreStatus a = PKT_OK <-> a = AT_SUCCESS) /\
  (TranslatePktStatus (TranslateAtCoreStatus a) = C_SUCCESS <-> a = AT_SUCCESS) /\
  (TranslateAtCoreStatus a = PKT_BAD_PARAM <-> a = AT_BAD_PARAMETER) /\
  (a <> AT_SUCCESS -> TranslateAtCoreStatus a = PKT_BAD_PARAM \/ TranslateAtCoreStatus a = PKT_FAILURE).
Proof. exact translation. Qed.
Print Assumptions c67_error_translation.
Example c67_ex : TranslatePktStatus PKT_PENDING_DATA = C_INTERNAL_FAILURE. Proof. reflexivity. Qed.

(** Proofs for the signal conversions, library gate and status translation. *)
From Coq Require Import List NArith ZArith Bool Lia ZifyBool ZifyN.
From Verif Require Import Bytes AtCore Status Signal.
Import ListNotations.
Local Open Scope Z_scope.

Lemma gate_exact ctx :
  (CheckLibraryStatus ctx = C_SUCCESS <->
     exists f, ctx = Some f /\ bLibOpened f = true /\ bLibShutdown f = false /\ bLibClosing f = false) /\
  (ctx = None -> CheckLibraryStatus ctx = C_INVALID_HANDLE).
Proof.
  split; [|intros ->; reflexivity]. destruct ctx as [[o s c]|]; cbn.
  - destruct o, s, c; cbn; 
      (split; [intros H; first [discriminate|eexists; split; [reflexivity|auto]]
              |intros (f & [= <-] & H1 & H2 & H3); cbn in *; congruence]).
  - split; [discriminate|]. intros (f & ? & _). discriminate.
Qed.

Lemma csq_rssi csq old :
  (csq = 99 -> ConvertCsqSignalRssi csq (Some old) = (C_SUCCESS, Some (-32768))) /\
  (0 <= csq <= 31 -> ConvertCsqSignalRssi csq (Some old) = (C_SUCCESS, Some (2 * csq - 113))) /\
  (csq <> 99 -> csq < 0 \/ 31 < csq -> ConvertCsqSignalRssi csq (Some old) = (C_BAD_PARAMETER, Some old)) /\
  ConvertCsqSignalRssi csq None = (C_BAD_PARAMETER, None).
Proof.
  unfold ConvertCsqSignalRssi. split; [intros ->; reflexivity|]. split; [|split; [|reflexivity]].
  - intros. replace (csq =? 99) with false by lia. replace ((csq <? 0) || (31 <? csq)) with false by lia.
    do 2 f_equal. lia.
  - intros. replace (csq =? 99) with false by lia. now replace ((csq <? 0) || (31 <? csq)) with true by lia.
Qed.
Lemma csq_ber csq old :
  (csq = 99 -> ConvertCsqSignalBer csq (Some old) = Ok (C_SUCCESS, Some (-32768))) /\
  (forall v, In (csq, v) [(0,14);(1,28);(2,57);(3,113);(4,226);(5,453);(6,905);(7,1810)] ->
     ConvertCsqSignalBer csq (Some old) = Ok (C_SUCCESS, Some v)) /\
  (csq <> 99 -> csq < 0 \/ 7 < csq -> ConvertCsqSignalBer csq (Some old) = Ok (C_BAD_PARAMETER, Some old)) /\
  ConvertCsqSignalBer csq (Some old) <> UB /\ ConvertCsqSignalBer csq None = Ok (C_BAD_PARAMETER, None).
Proof.
  unfold ConvertCsqSignalBer. split; [intros ->; reflexivity|]. split; [|split; [|split; [|reflexivity]]].
  - intros v H. cbn in H. repeat (destruct H as [[= <- <-]|H]; [reflexivity|]). destruct H.
  - intros. replace (csq =? 99) with false by lia. now replace ((csq <? 0) || (7 <? csq)) with true by lia.
  - destruct (csq =? 99); [discriminate|]. destruct ((csq <? 0) || (7 <? csq)) eqn:E; [discriminate|].
    destruct (nth_error rxEqualValueToBerTable (Z.to_nat csq)) eqn:En; [discriminate|].
    apply nth_error_None in En. cbn in En. lia.
Qed.

Ltac thr := repeat match goal with |- context [if ?a <=? ?b then _ else _] => destruct (Z.leb_spec a b) end.

Lemma bars_thresholds r s o : ComputeSignalBars r (Some s) = (C_SUCCESS, Some o) ->
  exists v t1 t2 t3 t4,
  ((r = RAT_GSM \/ r = RAT_EDGE) /\ v = si_rssi s /\ (t1, t2, t3, t4) = (-104, -98, -89, -80) \/
   (r = RAT_LTE \/ r = RAT_CATM1 \/ r = RAT_NBIOT) /\ v = si_rsrp s /\ (t1, t2, t3, t4) = (-115, -105, -95, -85)) /\
  (v <= t1 -> si_bars o = 1%N) /\ (t1 < v <= t2 -> si_bars o = 2%N) /\ (t2 < v <= t3 -> si_bars o = 3%N) /\
  (t3 < v <= t4 -> si_bars o = 4%N) /\ (t4 < v <= 0 -> si_bars o = 5%N) /\ (0 < v -> si_bars o = 255%N).
Proof.
  intros H.
  assert (G : (r = RAT_GSM \/ r = RAT_EDGE) /\ si_bars o = bars_lookup gsmSignalBarsTable (si_rssi s) \/
              (r = RAT_LTE \/ r = RAT_CATM1 \/ r = RAT_NBIOT) /\ si_bars o = bars_lookup lteCATMSignalBarsTable (si_rsrp s)).
  { destruct r; cbn in H; try discriminate; injection H as <-; cbn [si_bars]; auto. }
  destruct G as [[Hr Hb]|[Hr Hb]].
  - exists (si_rssi s), (-104), (-98), (-89), (-80). split; [left; auto|]. rewrite Hb.
    unfold gsmSignalBarsTable. cbn [bars_lookup]. thr; repeat split; intros; (lia || reflexivity).
  - exists (si_rsrp s), (-115), (-105), (-95), (-85). split; [right; auto|]. rewrite Hb.
    unfold lteCATMSignalBarsTable. cbn [bars_lookup]. thr; repeat split; intros; (lia || reflexivity).
Qed.
Lemma bars_monotone r s1 s2 o1 o2 :
  si_rssi s1 <= si_rssi s2 <= 0 -> si_rsrp s1 <= si_rsrp s2 <= 0 ->
  ComputeSignalBars r (Some s1) = (C_SUCCESS, Some o1) -> ComputeSignalBars r (Some s2) = (C_SUCCESS, Some o2) ->
  (1 <= si_bars o1 <= si_bars o2 /\ si_bars o2 <= 5)%N.
Proof.
  intros Ha Hb H1 H2. apply bars_thresholds in H1, H2.
  destruct H1 as (v & t1 & t2 & t3 & t4 & Hc & G1 & G2 & G3 & G4 & G5 & _).
  destruct H2 as (w & u1 & u2 & u3 & u4 & Hd & K1 & K2 & K3 & K4 & K5 & _).
  assert (E : t1 = u1 /\ t2 = u2 /\ t3 = u3 /\ t4 = u4 /\ v <= w <= 0 /\ t1 < t2 /\ t2 < t3 /\ t3 < t4 /\ t4 < 0).
  { destruct Hc as [(Hr & -> & [= -> -> -> ->])|(Hr & -> & [= -> -> -> ->])];
    destruct Hd as [(Hr' & -> & [= -> -> -> ->])|(Hr' & -> & [= -> -> -> ->])]; try lia;
      exfalso; intuition congruence. }
  destruct E as (-> & -> & -> & -> & E & L).
  assert (C1 : (si_bars o1 = 1%N /\ v <= u1) \/ (si_bars o1 = 2%N /\ u1 < v <= u2) \/ (si_bars o1 = 3%N /\ u2 < v <= u3)
            \/ (si_bars o1 = 4%N /\ u3 < v <= u4) \/ (si_bars o1 = 5%N /\ u4 < v)).
  { destruct (Z.le_gt_cases v u1); [left; auto|]. destruct (Z.le_gt_cases v u2); [right; left; auto|].
    destruct (Z.le_gt_cases v u3); [right; right; left; auto|].
    destruct (Z.le_gt_cases v u4); [do 3 right; left; auto|]. do 4 right. split; [apply G5|]; lia. }
  assert (C2 : (si_bars o2 = 1%N /\ w <= u1) \/ (si_bars o2 = 2%N /\ u1 < w <= u2) \/ (si_bars o2 = 3%N /\ u2 < w <= u3)
            \/ (si_bars o2 = 4%N /\ u3 < w <= u4) \/ (si_bars o2 = 5%N /\ u4 < w)).
  { destruct (Z.le_gt_cases w u1); [left; auto|]. destruct (Z.le_gt_cases w u2); [right; left; auto|].
    destruct (Z.le_gt_cases w u3); [right; right; left; auto|].
    destruct (Z.le_gt_cases w u4); [do 3 right; left; auto|]. do 4 right. split; [apply K5|]; lia. }
  clear G1 G2 G3 G4 G5 K1 K2 K3 K4 K5 Hc Hd Ha Hb.
  destruct C1 as [[-> ?]|[[-> ?]|[[-> ?]|[[-> ?]|[-> ?]]]]], C2 as [[-> ?]|[[-> ?]|[[-> ?]|[[-> ?]|[-> ?]]]]]; lia.
Qed.
Lemma bars_support r s st o : ComputeSignalBars r (Some s) = (st, Some o) ->
  si_rssi o = si_rssi s /\ si_rsrp o = si_rsrp s /\
  (st = C_SUCCESS <-> In r [RAT_GSM; RAT_EDGE; RAT_LTE; RAT_CATM1; RAT_NBIOT]) /\
  (st <> C_SUCCESS -> si_bars o = 255%N) /\
  (st = C_SUCCESS -> 0 < si_rssi s -> 0 < si_rsrp s -> si_bars o = 255%N).
Proof.
  intros H. split; [|split; [|split; [|split]]].
  - destruct r; cbn in H; injection H as <- <-; reflexivity.
  - destruct r; cbn in H; injection H as <- <-; reflexivity.
  - destruct r; cbn in H; injection H as <- <-; cbn; intuition discriminate.
  - destruct r; cbn in H; injection H as <- <-; cbn; intuition congruence.
  - intros -> H1 H2. apply bars_thresholds in H as (v & t1 & t2 & t3 & t4 & Hc & _ & _ & _ & _ & _ & K).
    apply K. destruct Hc as [(_ & -> & _)|(_ & -> & _)]; assumption.
Qed.
Lemma invalid_bars_refuted r s st o :
  si_rssi s = -32768 -> si_rsrp s = -32768 ->
  In r [RAT_GSM; RAT_EDGE; RAT_LTE; RAT_CATM1; RAT_NBIOT] ->
  ComputeSignalBars r (Some s) = (st, Some o) -> st = C_SUCCESS /\ si_bars o = 1%N /\ si_bars o <> 255%N.
Proof.
  intros H1 H2 Hr H. assert (Es : st = C_SUCCESS) by (apply bars_support in H; apply H, Hr). subst st.
  apply bars_thresholds in H as (v & t1 & t2 & t3 & t4 & Hc & K & _).
  assert (si_bars o = 1%N); [|split; [reflexivity|split; [assumption|lia]]].
  apply K. destruct Hc as [(_ & -> & [= -> _ _ _])|(_ & -> & [= -> _ _ _])]; lia.
Qed.
Lemma translation p a :
  (TranslatePktStatus p = C_SUCCESS <-> p = PKT_OK) /\ (TranslatePktStatus p = C_TIMEOUT <-> p = PKT_TIMED_OUT) /\
  (p <> PKT_OK -> p <> PKT_TIMED_OUT -> TranslatePktStatus p = C_INTERNAL_FAILURE) /\
  (TranslateAtCoreStatus a = PKT_OK <-> a = AT_SUCCESS) /\
  (TranslatePktStatus (TranslateAtCoreStatus a) = C_SUCCESS <-> a = AT_SUCCESS) /\
  (TranslateAtCoreStatus a = PKT_BAD_PARAM <-> a = AT_BAD_PARAMETER) /\
  (a <> AT_SUCCESS -> TranslateAtCoreStatus a = PKT_BAD_PARAM \/ TranslateAtCoreStatus a = PKT_FAILURE).
Proof. destruct p, a; cbn; intuition congruence. Qed.

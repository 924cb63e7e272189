(** Success of a query means that every query sent was answered with information (C77). *)
From Coq Require Import String List NArith ZArith Bool Lia Arith.
From Verif Require Import Bytes AtCore SpecAt Status Pktio SendCmd Socket RegStatus SpecReg G3pp SpecG3ppApi G3ppProofs G3ppHonest.
Import ListNotations.

(** The callback does not accept an answer without lines. *)
Definition wants {A} (cb : list str -> A -> res (pkt_status * A)) : Prop := forall a st a', cb [] a = Ok (st, a') -> st <> PKT_OK.
Ltac wants_tac := intros a st a' E; inversion E; discriminate.
Lemma wants_text n : wants (RecvFuncText n). Proof. wants_tac. Qed.
Lemma wants_imei : wants RecvFuncGetImei. Proof. wants_tac. Qed.
Lemma wants_imsi : wants RecvFuncGetImsi. Proof. wants_tac. Qed.
Lemma wants_iccid : wants RecvFuncGetIccid. Proof. wants_tac. Qed.
Lemma wants_hplmn : wants RecvFuncGetHplmn. Proof. wants_tac. Qed.
Lemma wants_lock : wants RecvFuncGetSimLockStatus. Proof. wants_tac. Qed.
Lemma wants_ip n : wants (RecvFuncIpAddress n). Proof. wants_tac. Qed.
Lemma wants_cops b : wants (RecvFuncUpdateMccMnc b). Proof. wants_tac. Qed.
Lemma wants_psm b : wants (RecvFuncGetPsmSettings b). Proof. wants_tac. Qed.
Lemma wants_edrx b : wants (RecvFuncGetEidrxSettings b). Proof. wants_tac. Qed.
Lemma wants_time b : wants (RecvFuncGetNetworkTime b). Proof. wants_tac. Qed.

Lemma informed_nil m : informed m [].
Proof. intros h1 q t E. destruct h1; discriminate. Qed.
Lemma informed_step {A} m h r cb (a : A) a' h' : informed m h -> (rq_type r = T_NO_RESULT \/ wants cb) ->
  request m h r cb a = Ok (PKT_OK, a', h') -> informed m h' /\ h' = h ++ [r].
Proof.
  intros I W H. unfold request in H. destruct (m (h ++ [r])) as [t| |ls] eqn:E; [destruct t; inversion H|inversion H|].
  destruct (cb ls a) as [[s b]| |] eqn:C; cbn [bind] in H; try discriminate. inversion H; subst; clear H. split; [|reflexivity].
  intros h1 q t Q NR. destruct t as [|z t].
  - apply app_inj_tail in Q as [<- <-]. destruct W as [W|W]; [congruence|]. rewrite E. destruct ls as [|l ls]; [destruct (W _ _ _ C eq_refl)|eauto].
  - destruct (snoc_split h r h1 q (z :: t) Q ltac:(discriminate)) as (t' & ->). exact (I h1 q t' eq_refl NR).
Qed.
Lemma translate_ok st : TranslatePktStatus st = C_SUCCESS -> st = PKT_OK.
Proof. destruct st; cbn; congruence. Qed.
Lemma finish_informed {A B} m r cb (a : A) (f : A -> B) x : wants cb -> finish (request m [] r cb a) f = Ok x -> ret x = C_SUCCESS ->
  informed m (sent x).
Proof.
  intros W H S1. unfold finish in H. destruct (request m [] r cb a) as [[[st a'] h']| |] eqn:E; cbn [bind] in H; try discriminate.
  inversion H; subst; clear H. cbn [sent ret] in *. apply translate_ok in S1. subst st.
  exact (proj1 (informed_step m [] r cb a a' h' (informed_nil m) (or_intror W) E)).
Qed.
Ltac refused H S1 := unfold rejected in H; inversion H; subst; clear H; cbn [sent ret] in S1; discriminate S1.
Ltac open_gate lib p H S1 := destruct (CheckLibraryStatus lib) eqn:?; try refused H S1; destruct p; try refused H S1.

Lemma info_time bits lib m p x : GetNetworkTime bits lib m p = Ok x -> ret x = C_SUCCESS -> informed m (sent x).
Proof. unfold GetNetworkTime. intros H S1. open_gate lib p H S1. exact (finish_informed _ _ _ _ _ _ (wants_time bits) H S1). Qed.
Lemma info_edrx bits lib m p x : GetEidrxSettings bits lib m p = Ok x -> ret x = C_SUCCESS -> informed m (sent x).
Proof. unfold GetEidrxSettings. intros H S1. open_gate lib p H S1. exact (finish_informed _ _ _ _ _ _ (wants_edrx bits) H S1). Qed.
Lemma info_lock lib m p x : GetSimCardLockStatus lib m p = Ok x -> ret x = C_SUCCESS -> informed m (sent x).
Proof. unfold GetSimCardLockStatus. intros H S1. open_gate lib p H S1. exact (finish_informed _ _ _ _ _ _ wants_lock H S1). Qed.
Lemma info_psm bits lib m p x : GetPsmSettings bits lib m p = Ok x -> ret x = C_SUCCESS -> informed m (sent x).
Proof. unfold GetPsmSettings. intros H S1. open_gate lib p H S1. exact (finish_informed _ _ _ _ _ _ (wants_psm bits) H S1). Qed.
Lemma info_ip lib m cid b n x : GetIPAddress lib m cid b n = Ok x -> ret x = C_SUCCESS -> informed m (sent x).
Proof.
  unfold GetIPAddress. intros H S1. open_gate lib b H S1. destruct (n =? 0)%N; [refused H S1|].
  unfold IsValidPdn in H. match type of H with context [if ?c then _ else _] => destruct c end; [refused H S1|].
  exact (finish_informed _ _ _ _ _ _ (wants_ip _) H S1).
Qed.
Ltac next H S1 I W :=
  match type of H with bind (request ?m ?h ?r ?cb ?a) _ = _ =>
    let st := fresh "st" in let a' := fresh "a'" in let h' := fresh "h'" in let E := fresh "E" in
    destruct (request m h r cb a) as [[[st a'] h']| |] eqn:E; cbn [bind] in H; try discriminate H;
    destruct st; try (inversion H; subst; cbn [sent ret] in *; discriminate S1);
    let J := fresh "I" in pose proof (proj1 (informed_step _ _ _ _ _ _ _ I W E)) as J; clear I; rename J into I end.
Lemma info_modem lib m p x : GetModemInfo lib m p = Ok x -> ret x = C_SUCCESS -> informed m (sent x).
Proof.
  unfold GetModemInfo. intros H S1. open_gate lib p H S1. cbv zeta in H. pose proof (informed_nil m) as I.
  next H S1 I (or_intror (rq_type (plain "AT+CGMR" T_WO_PREFIX) = T_NO_RESULT) (wants_text FW_VERSION_MAX_SIZE)).
  next H S1 I (or_intror (rq_type (plain "AT+CGSN" T_WO_PREFIX) = T_NO_RESULT) wants_imei).
  next H S1 I (or_intror (rq_type (plain "AT+CGMM" T_WO_PREFIX) = T_NO_RESULT) (wants_text MODEL_ID_MAX_SIZE)).
  next H S1 I (or_intror (rq_type (plain "AT+CGMI" T_WO_PREFIX) = T_NO_RESULT) (wants_text MANUFACTURE_ID_MAX_SIZE)).
  inversion H; subst. exact I.
Qed.
Lemma info_sim lib m p x : GetSimCardInfo lib m p = Ok x -> ret x = C_SUCCESS -> informed m (sent x).
Proof.
  unfold GetSimCardInfo. intros H S1. open_gate lib p H S1. cbv zeta in H. pose proof (informed_nil m) as I.
  next H S1 I (or_intror (rq_type (plain "AT+CIMI" T_WO_PREFIX) = T_NO_RESULT) wants_imsi).
  next H S1 I (or_intror (rq_type req_crsm = T_NO_RESULT) wants_hplmn).
  next H S1 I (or_intror (rq_type req_ccid = T_NO_RESULT) wants_iccid).
  inversion H; subst. exact I.
Qed.
Lemma info_network bits lib m mem p x : GetRegisteredNetwork bits lib m mem p = Ok x -> ret x = C_SUCCESS -> informed m (sent x).
Proof.
  unfold GetRegisteredNetwork. intros H S1. open_gate lib p H S1. destruct mem; [|refused H S1].
  destruct (UpdateMccMnc bits m [] op_info0) as [[[s o] h]| |] eqn:U; cbn [bind] in H; try discriminate H.
  assert (K : TranslatePktStatus s = C_SUCCESS -> informed m h).
  { intro Q. apply translate_ok in Q. subst s. unfold UpdateMccMnc in U. pose proof (informed_nil m) as I.
    match type of U with bind (request ?m ?h ?r ?cb ?a) _ = _ => destruct (request m h r cb a) as [[[s1 a1] h1]| |] eqn:E1; cbn [bind] in U; try discriminate U end.
    destruct s1; try (inversion U; discriminate).
    assert (I1 : informed m h1) by (eapply proj1, informed_step; [exact I|left|exact E1]; reflexivity).
    exact (proj1 (informed_step _ _ _ _ _ _ _ I1 (or_intror (wants_cops bits)) U)). }
  destruct (TranslatePktStatus s) eqn:T; try (inversion H; subst; discriminate S1). specialize (K eq_refl).
  destruct (o_rat o =? RATN_INVALID)%Z; [inversion H; subst; discriminate S1|].
  repeat match type of H with bind ?x _ = _ => destruct x; cbn [bind] in H; try discriminate H end.
  inversion H; subst. exact K.
Qed.

(** Parsing stays inside the text it was given (C92). *)
From Coq Require Import String List NArith ZArith Bool Arith Lia.
From Verif Require Import Bytes AtCore AtMem Status Pktio SendCmd Socket RegStatus RegProofs G3pp SpecG3pp G3ppIdent G3ppCops G3ppMem SpecMem G3ppMemProofs G3ppMemProofs2 G3ppMemProofs3.
Import ListNotations.
Local Open Scope string_scope. Local Open Scope list_scope.

Ltac lifted B L := apply (lift _ _ B); [reflexivity|reflexivity|reflexivity|reflexivity|intros; now apply L|assumption].

(** The outcome of a parser (status and everything it writes to the caller's object) is the one determined by the text of the
    lines alone, wherever they are stored and whatever surrounds them, and no byte outside the lines changes. *)
Theorem c92_outcome_depends_on_the_text_only : forall bits m ps ls, stored m ps ls ->
  (forall o, does (RecvFuncGetNetworkTime_m bits m ps o) m (in_lines ps ls) (RecvFuncGetNetworkTime bits ls o)) /\
  (forall n o, does (RecvFuncText_m n m ps o) m (in_lines ps ls) (RecvFuncText n ls o)) /\
  (forall o, does (RecvFuncGetImei_m m ps o) m (in_lines ps ls) (RecvFuncGetImei ls o)) /\
  (forall o, does (RecvFuncUpdateMccMnc_m bits m ps o) m (in_lines ps ls) (RecvFuncUpdateMccMnc bits ls o)) /\
  (forall n o, does (RecvFuncIpAddress_m n m ps o) m (in_lines ps ls) (RecvFuncIpAddress n ls o)) /\
  (forall o, does (RecvFuncGetEidrxSettings_m bits m ps o) m (in_lines ps ls) (RecvFuncGetEidrxSettings bits ls o)) /\
  (forall o, does (RecvFuncGetSimLockStatus_m m ps o) m (in_lines ps ls) (RecvFuncGetSimLockStatus ls o)) /\
  (forall o, does (RecvFuncGetHplmn_m m ps o) m (in_lines ps ls) (RecvFuncGetHplmn ls o)) /\
  (forall o, does (RecvFuncGetIccid_m m ps o) m (in_lines ps ls) (RecvFuncGetIccid ls o)) /\
  (forall o, does (RecvFuncGetImsi_m m ps o) m (in_lines ps ls) (RecvFuncGetImsi ls o)) /\
  (forall o, does (RecvFuncGetPsmSettings_m bits m ps o) m (in_lines ps ls) (RecvFuncGetPsmSettings bits ls o)) /\
  (forall cb rt d, does (RecvFuncGetNetworkReg_m bits cb m ps rt d) m (in_lines ps ls) (RecvFuncGetNetworkReg bits cb ls rt d)).
Proof.
  intros bits m ps ls S. repeat apply conj; intros.
  - lifted PKT_BAD_PARAM time_doesR.
  - lifted PKT_BAD_PARAM text_doesR.
  - lifted PKT_BAD_PARAM imei_doesR.
  - lifted PKT_FAILURE mccmnc_doesR.
  - apply (lift (RecvFuncIpAddress_m n) (RecvFuncIpAddress n) PKT_FAILURE); [reflexivity|reflexivity|reflexivity|reflexivity|intros; now apply ip_doesR|assumption].
  - destruct ls as [|s ls].
    + rewrite (stored_nil _ _ S). exists m. split; [reflexivity|apply ch_refl].
    + destruct (stored_cons _ _ _ _ S) as (p & ps' & ->). apply (eidrx_lines_does bits _ _ _ _ _ _ S). auto.
  - lifted PKT_BAD_PARAM simlock_doesR.
  - lifted PKT_BAD_PARAM hplmn_doesR.
  - lifted PKT_BAD_PARAM iccid_doesR.
  - lifted PKT_BAD_PARAM imsi_doesR.
  - lifted PKT_BAD_PARAM psm_doesR.
  - now apply reg_lines_does.
Qed.
Print Assumptions c92_outcome_depends_on_the_text_only.

Lemma does_within {A} (x : res (A * list N)) m R (y : res A) a : does x m R y -> y = Ok a -> within x m R.
Proof. intros H ->. destruct H as (m' & E & C). exists a, m'. auto. Qed.
Lemma reg_lines_total bits cb rt ls : forall d, exists st d' ev, RecvFuncGetNetworkReg bits cb ls rt d = Ok (st, d', ev).
Proof.
  induction ls as [|l ls IH]; intros d; cbn [RecvFuncGetNetworkReg]; [eauto|].
  assert (H : exists st d' ev, (if regResponseIsUrc l then match ATRemovePrefix (Some l) with
                 | (AT_SUCCESS, l') => ParseRegStatus bits cb l' true rt d
                 | (e, _) => Ok (TranslateAtCoreStatus e, d, [])
                 end
               else ParseRegStatus bits cb (Some l) false rt d) = Ok (st, d', ev)).
  { destruct (regResponseIsUrc l); [|apply parse_total]. destruct (ATRemovePrefix (Some l)) as [[] l']; eauto. apply parse_total. }
  destruct H as (st & d' & ev & ->). cbn [bind]. destruct st; eauto. destruct (IH d') as (s2 & d2 & e2 & ->). cbn [bind]. eauto.
Qed.
Lemma ip_cb_total n ls b : (N.to_nat n <= length b)%nat -> exists st b', RecvFuncIpAddress n ls b = Ok (st, b').
Proof.
  intros Hb. unfold RecvFuncIpAddress, cb_first. destruct ls as [|l ls]; [eauto|]. destruct (n =? 0)%N; [eauto|].
  destruct (ATRemovePrefix (Some l)) as [[] s1]; eauto. destruct (ATGetNextTok s1) as [[[] [rest|]] tk]; eauto. destruct rest as [|c rest].
  - unfold wr. rewrite repeat_length. cbn [Nat.add firstn app]. replace (Nat.leb (N.to_nat n) (length b)) with true by (symmetry; apply Nat.leb_le; lia). cbn [bind]. eauto.
  - rewrite strncpy_ok by lia. cbn [bind]. eauto.
Qed.

(** With the output objects the API hands them (cleared arrays of the declared sizes; any buffer for an IP address, of at least
    the length passed along), the parsers never do anything undefined, always end, and change nothing outside the lines: for any
    number of lines with any content.  (eDRX: see below.) *)
Theorem c92_parsers_stay_in_the_text : forall bits m ps ls, stored m ps ls ->
  (forall o, within (RecvFuncGetNetworkTime_m bits m ps o) m (in_lines ps ls)) /\
  (forall n, within (RecvFuncText_m n m ps (repeat 0%N (S n))) m (in_lines ps ls)) /\
  within (RecvFuncGetImei_m m ps (repeat 0%N (S IMEI_MAX_SIZE))) m (in_lines ps ls) /\
  within (RecvFuncUpdateMccMnc_m bits m ps op_info0) m (in_lines ps ls) /\
  (forall n b, (N.to_nat n <= length b)%nat -> within (RecvFuncIpAddress_m n m ps b) m (in_lines ps ls)) /\
  (forall o, within (RecvFuncGetSimLockStatus_m m ps o) m (in_lines ps ls)) /\
  within (RecvFuncGetHplmn_m m ps (s_plmn sim_info0)) m (in_lines ps ls) /\
  within (RecvFuncGetIccid_m m ps (repeat 0%N (S ICCID_MAX_SIZE))) m (in_lines ps ls) /\
  within (RecvFuncGetImsi_m m ps (repeat 0%N (S IMSI_MAX_SIZE))) m (in_lines ps ls) /\
  (forall o, within (RecvFuncGetPsmSettings_m bits m ps o) m (in_lines ps ls)) /\
  (forall cb rt d, within (RecvFuncGetNetworkReg_m bits cb m ps rt d) m (in_lines ps ls)).
Proof.
  intros bits m ps ls S. destruct (c92_outcome_depends_on_the_text_only bits m ps ls S) as (H1 & H2 & H3 & H4 & H5 & H6 & H7 & H8 & H9 & H10 & H11 & H12).
  repeat apply conj; intros.
  - assert (T : exists a, RecvFuncGetNetworkTime bits ls o = Ok a).
    { unfold RecvFuncGetNetworkTime, cb_first. destruct ls as [|l ls]; [eauto|]. destruct (ATRemovePrefix (Some l)) as [[] s1]; eauto.
      destruct (ATRemoveAllWhiteSpaces s1) as [[] s2]; eauto. }
    destruct T as [a E]. eapply does_within; [apply H1|exact E].
  - destruct (text_total n ls (Datatypes.S n)) as (st & b & E); [lia|]. eapply does_within; [apply H2|exact E].
  - destruct (imei_total ls (Datatypes.S IMEI_MAX_SIZE)) as (st & b & E); [lia|]. eapply does_within; [apply H3|exact E].
  - destruct (cops_cb_total bits ls op_info0 op_info0_sized) as (st & b & E & _). eapply does_within; [apply H4|exact E].
  - destruct (ip_cb_total n ls b H) as (st & b' & E). eapply does_within; [apply H5|exact E].
  - assert (T : exists a, RecvFuncGetSimLockStatus ls o = Ok a).
    { unfold RecvFuncGetSimLockStatus, cb_first. destruct ls as [|l ls]; [eauto|]. destruct (ATRemoveAllWhiteSpaces (Some l)) as [[] s1]; eauto.
      destruct (ATRemovePrefix s1) as [[] s2]; eauto. destruct (ATGetNextTok s2) as [[[] r] [t|]]; eauto. }
    destruct T as [a E]. eapply does_within; [apply H7|exact E].
  - destruct (hplmn_total ls) as (st & b & E). eapply does_within; [apply H8|exact E].
  - destruct (iccid_total ls (Datatypes.S ICCID_MAX_SIZE)) as (st & b & E); [lia|]. eapply does_within; [apply H9|exact E].
  - destruct (imsi_total ls (Datatypes.S IMSI_MAX_SIZE)) as (st & b & E); [lia|]. eapply does_within; [apply H10|exact E].
  - assert (T : exists a, RecvFuncGetPsmSettings bits ls o = Ok a).
    { unfold RecvFuncGetPsmSettings, cb_first. destruct ls as [|l ls]; [eauto|]. destruct (ATRemovePrefix (Some l)) as [[] s1]; eauto.
      destruct (ATRemoveAllDoubleQuote s1) as [[] s2]; eauto. destruct (ATGetNextTok s2) as [[[] r] [t|]]; eauto.
      destruct (psm_loop _ _ _ _ _) as [e s']. eauto. }
    destruct T as [a E]. eapply does_within; [apply H11|exact E].
  - destruct (reg_lines_total bits cb rt ls d) as (st & d' & ev & E). eapply does_within; [apply H12|exact E].
Qed.
Print Assumptions c92_parsers_stay_in_the_text.

(** eDRX answers: the same for up to four lines ... *)
Theorem c92_edrx_stays_in_the_text_partial : forall bits m ps ls, stored m ps ls -> (length ls <= 4)%nat ->
  within (RecvFuncGetEidrxSettings_m bits m ps edrx0) m (in_lines ps ls).
Proof.
  intros bits m ps ls S L. destruct (c92_outcome_depends_on_the_text_only bits m ps ls S) as (_ & _ & _ & _ & _ & H & _).
  assert (T : exists a, RecvFuncGetEidrxSettings bits ls edrx0 = Ok a).
  { unfold RecvFuncGetEidrxSettings, cb_first. destruct ls as [|y ls]; [eauto|].
    destruct (edrx_lines_total bits (y :: ls) 0 edrx0) as (st & e' & ->); [cbn [N.to_nat Nat.add edrx0 e_list]; rewrite repeat_length; exact L|cbn; lia|]. eauto. }
  destruct T as [a E]. eapply does_within; [apply H|exact E].
Qed.
Print Assumptions c92_edrx_stays_in_the_text_partial.

(** ... and not for more: five or more well-formed lines always overrun the caller's list (C58). *)
Theorem c92_fifth_edrx_line_overruns_refuted : forall bits m ps ls entries, (32 <= bits)%Z -> stored m ps ls ->
  Forall2 edrx_line ls entries -> (5 <= length ls)%nat -> RecvFuncGetEidrxSettings_m bits m ps edrx0 = UB.
Proof.
  intros bits m ps ls entries Hb S HF L. destruct (c92_outcome_depends_on_the_text_only bits m ps ls S) as (_ & _ & _ & _ & _ & H & _).
  specialize (H edrx0). assert (E : RecvFuncGetEidrxSettings bits ls edrx0 = UB).
  { unfold RecvFuncGetEidrxSettings, cb_first. destruct ls as [|y ls]; [cbn in L; lia|]. pose proof (Forall2_len _ _ _ HF) as FL.
    pose proof (edrx_lines_over bits _ _ Hb HF [] 4 ltac:(lia) ltac:(cbn; lia) 0%N) as E. exact E. }
  rewrite E in H. exact H.
Qed.
Print Assumptions c92_fifth_edrx_line_overruns_refuted.

(** A registration URC: [p] points to its text, after the prefix. *)
Theorem c92_registration_urc_stays_in_the_text : forall bits cb m p s isUrc rt d, cstr_get m p = Some s ->
  within (ParseRegStatus_m bits cb m (Some p) isUrc rt d) m (in_text p s) /\
  does (ParseRegStatus_m bits cb m (Some p) isUrc rt d) m (in_text p s) (ParseRegStatus bits cb (Some s) isUrc rt d).
Proof.
  intros bits cb m p s isUrc rt d H. destruct (line_text m p s H) as [T Z].
  assert (D : does (ParseRegStatus_m bits cb m (Some p) isUrc rt d) m (in_text p s) (ParseRegStatus bits cb (Some s) isUrc rt d)).
  { pose proof (parsereg_doesR _ _ bits cb m p s isUrc rt d T Z) as D. unfold doesR in D. unfold does.
    destruct (ParseRegStatus bits cb (Some s) isUrc rt d); auto. destruct D as (m' & E & [C _]). exists m'. auto. }
  split; [|exact D]. destruct (parse_total bits cb (Some s) isUrc rt d) as (st & d' & ev & E). eapply does_within; [exact D|exact E].
Qed.
Print Assumptions c92_registration_urc_stays_in_the_text.

(** A URC without text (NULL): nothing is touched. *)
Theorem c92_registration_urc_without_text : forall bits cb m isUrc rt d, ParseRegStatus_m bits cb m None isUrc rt d = Ok (PKT_BAD_PARAM, d, [], m).
Proof. reflexivity. Qed.
Print Assumptions c92_registration_urc_without_text.

(** Two answer lines in the middle of a buffer with other data around: the hypotheses hold. *)
Definition mem_line1 : str := s2b "+CREG: 2,1,1A2B,00FF".
Definition mem_line2 : str := s2b "+CREG: 5".
Definition mem_buffer : list N := [79; 75]%N ++ mem_line1 ++ [0%N] ++ mem_line2 ++ [0%N] ++ [13; 10; 79]%N.
Lemma mem_stored : stored mem_buffer [2; 23]%nat [mem_line1; mem_line2].
Proof.
  split; repeat constructor.
Qed.
Example c92_ex : exists st d ev m', RecvFuncGetNetworkReg_m 64 true mem_buffer [2; 23]%nat REG_CREG at_data0 = Ok (st, d, ev, m') /\
  st = PKT_OK /\ d_cs d = 5%Z /\ m' <> mem_buffer /\ firstn 2 m' = [79; 75]%N /\ skipn 32 m' = [13; 10; 79]%N.
Proof. vm_compute. do 4 eexists. split; [reflexivity|]. repeat split; try reflexivity. discriminate. Qed.

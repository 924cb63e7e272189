(** Proofs about Cellular_GetServiceStatus. *)
From Coq Require Import String List NArith ZArith Bool Lia Arith ZifyBool ZifyN ZifyNat.
From Verif Require Import Bytes AtCore AtMem SpecAt AtProofs AtProofs2 AtProofs3 Status Pktio SendCmd Socket RegStatus SpecReg RegProofs SpecG3pp G3pp SpecG3ppApi G3ppProofs G3ppCmds G3ppIdent G3ppCops.
Import ListNotations.
Local Open Scope Z_scope.
Local Arguments Nat.sub : simpl never.


Lemma strchr_at (a b : str) c : ~ In c a -> strchr (a ++ c :: b) c = Some (length a).
Proof.
  induction a as [|x a IH]; intro H; cbn [app strchr length].
  - rewrite N.eqb_refl. reflexivity.
  - destruct (N.eqb_spec x c); [subst; exfalso; apply H; now left|]. rewrite IH; [reflexivity|]. intro Q. apply H. now right.
Qed.
Lemma query_not_urc rt raw vs : query_answer rt raw vs -> regResponseIsUrc raw = false.
Proof.
  intros (n & ts & a & b & _ & _ & _ & -> & Ha & Hb). unfold regResponseIsUrc. change chCOMMA with 44%N. rewrite (strchr_at a b 44 Ha).
  rewrite app_nth2 by lia. replace (S (length a) - length a)%nat with 1%nat by lia. cbn [nth]. unfold chDQ.
  destruct b as [|x b]; cbn [nth hd] in *; apply N.eqb_neq; [discriminate|exact Hb].
Qed.

Lemma query_good bits m h cmd prefix rt d raw vs : 32 <= bits -> rt <> REG_UNKNOWN ->
  m (h ++ [{| rq_cmd := s2b cmd; rq_type := T_MULTI_WITH_PREFIX; rq_prefix := Some (s2b prefix) |}]) = Answered [raw] -> query_answer rt raw vs ->
  queryNetworkStatus bits m h cmd prefix rt d =
    Ok (C_SUCCESS, recorded rt vs d, h ++ [{| rq_cmd := s2b cmd; rq_type := T_MULTI_WITH_PREFIX; rq_prefix := Some (s2b prefix) |}]).
Proof.
  intros Hb Hrt HM HQ. pose proof (query_not_urc _ _ _ HQ) as NU. destruct HQ as (n & ts & a & b & Hn & HR & HF & _).
  unfold queryNetworkStatus, request. rewrite HM. unfold cb_first. cbn [RecvFuncGetNetworkReg]. rewrite NU.
  pose proof (parse_good bits false rt false raw [n] ts vs [] d Hb Hrt (leading_read n Hn)) as E. rewrite app_nil_r in E.
  rewrite E by (auto; try discriminate). reflexivity.
Qed.

Lemma recv_reg_total bits cb ls rt : forall d, exists st d' ev, RecvFuncGetNetworkReg bits cb ls rt d = Ok (st, d', ev).
Proof.
  induction ls as [|l ls IH]; intro d; cbn [RecvFuncGetNetworkReg]; [eauto|].
  assert (E : exists st d' ev, (if regResponseIsUrc l then match ATRemovePrefix (Some l) with
                 | (AT_SUCCESS, l') => ParseRegStatus bits cb l' true rt d
                 | (e, _) => Ok (TranslateAtCoreStatus e, d, [])
                 end else ParseRegStatus bits cb (Some l) false rt d) = Ok (st, d', ev)).
  { destruct (regResponseIsUrc l); [|apply parse_total]. destruct (ATRemovePrefix (Some l)) as [e s]; destruct e; try apply parse_total; eauto. }
  destruct E as (st & d' & ev & ->). cbn [bind]. destruct st; eauto.
  destruct (IH d') as (st2 & d2 & ev2 & ->). cbn [bind]. eauto.
Qed.
Lemma query_total bits m h cmd prefix rt d : exists e d' h', queryNetworkStatus bits m h cmd prefix rt d = Ok (e, d', h').
Proof.
  unfold queryNetworkStatus, request. destruct (m _) as [t| |ls]; cbn [bind]; eauto. unfold cb_first.
  destruct ls as [|l ls]; cbn [bind]; eauto. destruct (recv_reg_total bits false (l :: ls) rt d) as (st & d' & ev & ->). cbn [bind]. eauto.
Qed.
Lemma reg_total bits m env d s : exists e s' d' h, QueryRegStatus bits m env d s = Ok (e, s', d', h) /\ sv_name s' = sv_name s.
Proof.
  unfold QueryRegStatus. destruct (query_total bits m [] "AT+CREG?" "+CREG" REG_CREG d) as (e1 & d1 & h1 & ->). cbn [bind].
  assert (K : forall e : cell_error, match e with C_SUCCESS => True | _ => True end) by (destruct e; exact I).
  destruct e1; cbn [bind]; try (do 4 eexists; split; [reflexivity|reflexivity]).
  destruct (query_total bits m h1 "AT+CGREG?" "+CGREG" REG_CGREG (env h1 d1)) as (e2 & d2 & h2 & ->). cbn [bind].
  destruct (negb (d_ps (env h2 d2) =? 1) && negb (d_ps (env h2 d2) =? 5)); cbn [bind].
  - destruct (query_total bits m h2 "AT+CEREG?" "+CEREG" REG_CEREG (env h2 d2)) as (e3 & d3 & h3 & ->). cbn [bind].
    do 4 eexists. split; [reflexivity|]. destruct e3; reflexivity.
  - do 4 eexists. split; reflexivity.
Qed.

Lemma cstr_nul b n : nth n b 1%N = 0%N -> exists s, cstr_list b = Some s.
Proof.
  revert n. induction b as [|x b IH]; intros n H; [destruct n; discriminate|]. cbn [cstr_list].
  destruct (N.eqb_spec x 0); [eauto|]. destruct n as [|n]; [cbn in H; congruence|]. cbn [nth] in H.
  destruct (IH n H) as (s & ->). eauto.
Qed.

(** No memory error, whatever the modem answers and the reader does meanwhile; the return value is SUCCESS once the checks pass. *)
Lemma service_total bits lib m env d s0 : (32 <= length (sv_name s0))%nat -> lib_ok lib ->
  exists h s d', GetServiceStatus bits lib m env d (Some s0) = Ok ({| sent := h; ret := C_SUCCESS; out := Some s |}, d').
Proof.
  intros HN HL. unfold GetServiceStatus. rewrite HL. destruct (reg_total bits m env d s0) as (e & s1 & d1 & h1 & -> & N1). cbn [bind].
  destruct (update_total bits m h1 op_info0 op_info0_sized) as (st & o & h2 & -> & (_ & _ & L3 & L4)). cbn [bind].
  unfold array_str. destruct (cstr_nul _ _ L4) as (nm & ->). cbn [bind].
  destruct (strncpy_total (sv_name s1) nm NETWORK_NAME_MAX_SIZE) as (b & -> & _); [rewrite N1; unfold NETWORK_NAME_MAX_SIZE; lia|].
  cbn [bind]. eauto.
Qed.

Lemma service_good bits lib m env d0 s0 raw1 vs1 raw2 vs2 raw3 vs3 x raw more body fields mode act p hs : 32 <= bits -> lib_ok lib ->
  (32 <= length (sv_name s0))%nat ->
  m [req_creg] = Answered [raw1] -> query_answer REG_CREG raw1 vs1 ->
  m [req_creg; req_cgreg] = Answered [raw2] -> query_answer REG_CGREG raw2 vs2 ->
  let d1 := env [req_creg] (recorded REG_CREG vs1 d0) in
  let d2 := env [req_creg; req_cgreg] (recorded REG_CGREG vs2 d1) in
  (registered d2 = false -> m [req_creg; req_cgreg; req_cereg] = Answered [raw3] /\ query_answer REG_CEREG raw3 vs3) ->
  let d3 := if registered d2 then d2 else env [req_creg; req_cgreg; req_cereg] (recorded REG_CEREG vs3 d2) in
  hs = (if registered d2 then [req_creg; req_cgreg] else [req_creg; req_cgreg; req_cereg]) ->
  m (hs ++ [req_cops32]) = Answered x -> m (hs ++ [req_cops32; req_cops]) = Answered (raw :: more) ->
  response_line raw body -> has_fields quote_or_space body fields -> cops_fields fields mode act p ->
  exists s, GetServiceStatus bits lib m env d0 (Some s0) =
    Ok ({| sent := hs ++ [req_cops32; req_cops]; ret := C_SUCCESS; out := Some s |}, d3) /\ service_of d3 mode p s.
Proof.
  intros Hb HL HN M1 Q1 M2 Q2 d1 d2 M3 d3 Hh M4 M5 HR HF HC.
  unfold GetServiceStatus. rewrite HL.
  assert (E : QueryRegStatus bits m env d0 s0 =
     Ok (C_SUCCESS, {| sv_rat := d_rat d3; sv_mode := sv_mode s0; sv_cs := d_cs d3; sv_ps := d_ps d3; sv_mcc := sv_mcc s0; sv_mnc := sv_mnc s0;
                        sv_name := sv_name s0; sv_fmt := sv_fmt s0; sv_csRejType := d_csRejType d3; sv_csRejCause := d_csRejCause d3;
                        sv_psRejType := d_psRejType d3; sv_psRejCause := d_psRejCause d3 |}, d3, hs)).
  { unfold QueryRegStatus.
    rewrite (query_good bits m [] "AT+CREG?" "+CREG" REG_CREG d0 raw1 vs1 Hb ltac:(discriminate) M1 Q1). cbn [bind app].
    change {| rq_cmd := s2b "AT+CREG?"; rq_type := T_MULTI_WITH_PREFIX; rq_prefix := Some (s2b "+CREG") |} with req_creg. fold d1.
    rewrite (query_good bits m [req_creg] "AT+CGREG?" "+CGREG" REG_CGREG d1 raw2 vs2 Hb ltac:(discriminate) M2 Q2). cbn [bind app].
    change {| rq_cmd := s2b "AT+CGREG?"; rq_type := T_MULTI_WITH_PREFIX; rq_prefix := Some (s2b "+CGREG") |} with req_cgreg. fold d2.
    unfold d3. rewrite Hh. fold (orb (d_ps d2 =? 1) (d_ps d2 =? 5)). 
    replace (negb (d_ps d2 =? 1) && negb (d_ps d2 =? 5)) with (negb (registered d2)) by (unfold registered; destruct (d_ps d2 =? 1), (d_ps d2 =? 5); reflexivity).
    destruct (registered d2) eqn:RG; cbn [negb bind]; [reflexivity|]. destruct (M3 eq_refl) as [M3' Q3].
    rewrite (query_good bits m [req_creg; req_cgreg] "AT+CEREG?" "+CEREG" REG_CEREG d2 raw3 vs3 Hb ltac:(discriminate) M3' Q3). cbn [bind app]. reflexivity. }
  rewrite E. cbn [bind]. destruct (update_good bits m hs x raw more body fields mode act p Hb M4 M5 HR HF HC) as (a & b & -> & K1 & K2 & _ & _).
  cbn [bind]. unfold array_str. cbn [o_name op_info0 cstr_list repeat NETWORK_NAME_MAX_SIZE]. cbn [N.eqb].
  cbn [bind sv_name]. rewrite (strncpy_ok (sv_name s0) [] NETWORK_NAME_MAX_SIZE) by (unfold NETWORK_NAME_MAX_SIZE; lia). cbn [bind].
  eexists. split; [reflexivity|]. split; cbn [sv_rat sv_cs sv_ps sv_csRejType sv_csRejCause sv_psRejType sv_psRejCause sv_mode sv_fmt sv_mcc sv_mnc sv_name o_mode o_fmt o_mcc o_mnc]; auto.
  eexists. cbn. reflexivity.
Qed.

(** Without an answer to the first registration query the registration members stay as they were. *)
Lemma service_no_creg bits lib m env d s0 : (32 <= length (sv_name s0))%nat -> lib_ok lib ->
  (m [req_creg] = Refused \/ (exists t, m [req_creg] = NoAnswer t) \/ m [req_creg] = Answered []) ->
  exists h s, GetServiceStatus bits lib m env d (Some s0) = Ok ({| sent := h; ret := C_SUCCESS; out := Some s |}, env [req_creg] d) /\
    (h = [req_creg; req_cops32] \/ h = [req_creg; req_cops32; req_cops]) /\
    sv_rat s = sv_rat s0 /\ sv_cs s = sv_cs s0 /\ sv_ps s = sv_ps s0 /\ sv_csRejType s = sv_csRejType s0 /\ sv_csRejCause s = sv_csRejCause s0 /\
    sv_psRejType s = sv_psRejType s0 /\ sv_psRejCause s = sv_psRejCause s0.
Proof.
  intros HN HL HM. unfold GetServiceStatus. rewrite HL.
  assert (E : exists e, QueryRegStatus bits m env d s0 = Ok (e, s0, env [req_creg] d, [req_creg])).
  { unfold QueryRegStatus, queryNetworkStatus at 1, request. cbn [app].
    change {| rq_cmd := s2b "AT+CREG?"; rq_type := T_MULTI_WITH_PREFIX; rq_prefix := Some (s2b "+CREG") |} with req_creg.
    destruct HM as [HM|[(t & HM)|HM]]; rewrite HM; [|destruct t|]; cbn [bind cb_first TranslatePktStatus]; eauto. }
  destruct E as (e & ->). cbn [bind].
  destruct (update_total bits m [req_creg] op_info0 op_info0_sized) as (st & o & h2 & E2 & (_ & _ & L3 & L4)). rewrite E2. cbn [bind].
  unfold array_str. destruct (cstr_nul _ _ L4) as (nm & ->). cbn [bind].
  destruct (strncpy_total (sv_name s0) nm NETWORK_NAME_MAX_SIZE) as (b & -> & _); [unfold NETWORK_NAME_MAX_SIZE; lia|].
  cbn [bind]. do 2 eexists. split; [reflexivity|]. split; [|repeat split].
  revert E2. unfold UpdateMccMnc, request, plain, no_callback. cbn [app].
  change {| rq_cmd := s2b "AT+COPS=3,2"; rq_type := T_NO_RESULT; rq_prefix := None |} with req_cops32.
  change {| rq_cmd := s2b "AT+COPS?"; rq_type := T_WITH_PREFIX; rq_prefix := Some (s2b "+COPS") |} with req_cops.
  destruct (m [req_creg; req_cops32]) as [t| |ls]; [destruct t| |]; cbn [bind]; try (intro Q; inversion Q; subst; auto; fail).
  cbn [app]. destruct (m [req_creg; req_cops32; req_cops]) as [t| |ls2]; [destruct t| |]; cbn [bind]; try (intro Q; inversion Q; subst; auto; fail).
  destruct (RecvFuncUpdateMccMnc bits ls2 op_info0) as [[st' o']| |]; cbn [bind]; intro Q; inversion Q; subst; auto.
Qed.

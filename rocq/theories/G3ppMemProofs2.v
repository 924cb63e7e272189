(** The response callbacks at pointer level: the same outcome as on strings, and no change outside the line. *)
From Coq Require Import String List NArith ZArith Bool Arith Lia.
From Verif Require Import Bytes AtCore AtMem SpecAt AtProofs AtProofs2 AtProofs3 AtProofs4 Status Pktio SendCmd Socket RegStatus G3pp G3ppMem SpecMem G3ppMemProofs.
Import ListNotations.
Local Open Scope nat_scope.

Section Cases.
Variables lo hi : nat.
Notation text := (text lo hi).
Notation ch := (ch lo hi).

Ltac two := match goal with |- context [is_valid ?s] => destruct (is_valid s) end.
Ltac grab L H := let q := fresh "q" in let E := fresh "E" in let T := fresh "T" in destruct (L H) as (q & E & T).

Lemma prefix_c m a s : text m a s ->
  (exists q r, pRemovePrefix m (Some a) = Ok (AT_SUCCESS, Some q) /\ ATRemovePrefix (Some s) = (AT_SUCCESS, Some r) /\ text m q r)
  \/ (exists q s', pRemovePrefix m (Some a) = Ok (AT_BAD_PARAMETER, q) /\ ATRemovePrefix (Some s) = (AT_BAD_PARAMETER, s')).
Proof.
  intros H. destruct (pRemovePrefix_ok lo hi m (Some a) (Some s) H) as (q & E & T). rewrite E. clear E.
  unfold ATRemovePrefix in *. two; cbn [fst snd] in *; [|right; eauto].
  destruct (strchr s chCOLON); cbn [fst snd] in *; [|right; eauto]. destruct q; [|contradiction]. left; eauto.
Qed.
Lemma lead_c m a s : text m a s ->
  (exists q r, pLead m (Some a) = Ok (AT_SUCCESS, Some q) /\ ATRemoveLeadingWhiteSpaces (Some s) = (AT_SUCCESS, Some r) /\ text m q r)
  \/ (exists q s', pLead m (Some a) = Ok (AT_BAD_PARAMETER, q) /\ ATRemoveLeadingWhiteSpaces (Some s) = (AT_BAD_PARAMETER, s')).
Proof.
  intros H. destruct (pLead_ok lo hi m (Some a) (Some s) H) as (q & E & T). rewrite E. clear E.
  unfold ATRemoveLeadingWhiteSpaces in *. two; cbn [fst snd] in *; [|right; eauto]. destruct q; [|contradiction]. left; eauto.
Qed.
Lemma allws_c m a s : text m a s ->
  (exists m' r, pAllWs m (Some a) = Ok (AT_SUCCESS, m') /\ ATRemoveAllWhiteSpaces (Some s) = (AT_SUCCESS, Some r) /\ ch m m' /\ text m' a r)
  \/ (exists m' s', pAllWs m (Some a) = Ok (AT_BAD_PARAMETER, m') /\ ATRemoveAllWhiteSpaces (Some s) = (AT_BAD_PARAMETER, s') /\ ch m m').
Proof.
  intros H. destruct (pAllWs_ok lo hi m (Some a) (Some s) H) as (m' & E & C & T). rewrite E. clear E.
  unfold ATRemoveAllWhiteSpaces in *. two; cbn [fst snd] in *; [left|right]; eauto 6.
Qed.
Lemma alldq_c m a s : text m a s ->
  (exists m' r, pAllDq m (Some a) = Ok (AT_SUCCESS, m') /\ ATRemoveAllDoubleQuote (Some s) = (AT_SUCCESS, Some r) /\ ch m m' /\ text m' a r)
  \/ (exists m' s', pAllDq m (Some a) = Ok (AT_BAD_PARAMETER, m') /\ ATRemoveAllDoubleQuote (Some s) = (AT_BAD_PARAMETER, s') /\ ch m m').
Proof.
  intros H. destruct (pAllDq_ok lo hi m (Some a) (Some s) H) as (m' & E & C & T). rewrite E. clear E.
  unfold ATRemoveAllDoubleQuote in *. two; cbn [fst snd] in *; [left|right]; eauto 6.
Qed.
Lemma trail_c m a s : text m a s ->
  (exists m' r, pTrail m (Some a) = Ok (AT_SUCCESS, m') /\ ATRemoveTrailingWhiteSpaces (Some s) = (AT_SUCCESS, Some r) /\ ch m m' /\ text m' a r)
  \/ (exists m' s', pTrail m (Some a) = Ok (AT_BAD_PARAMETER, m') /\ ATRemoveTrailingWhiteSpaces (Some s) = (AT_BAD_PARAMETER, s') /\ ch m m').
Proof.
  intros H. destruct (pTrail_ok lo hi m (Some a) (Some s) H) as (m' & E & C & T). rewrite E. clear E.
  unfold ATRemoveTrailingWhiteSpaces in *. two; [|cbn [fst snd] in *; right; eauto 6]. left.
  destruct (2 <? length s); cbn [fst snd] in *; eauto 6.
Qed.
Lemma outer_c m a s : text m a s ->
  (exists q m' r, pOuter m (Some a) = Ok (AT_SUCCESS, Some q, m') /\ ATRemoveOutermostDoubleQuote (Some s) = (AT_SUCCESS, Some r) /\ ch m m' /\ text m' q r)
  \/ (exists q m' s', pOuter m (Some a) = Ok (AT_BAD_PARAMETER, q, m') /\ ATRemoveOutermostDoubleQuote (Some s) = (AT_BAD_PARAMETER, s') /\ ch m m').
Proof.
  intros H. destruct (pOuter_ok lo hi m (Some a) (Some s) H) as (q & m' & E & C & T). rewrite E. clear E.
  unfold ATRemoveOutermostDoubleQuote in *. two; [|cbn [fst snd] in *; right; eauto 7]. left.
  destruct (2 <? length s); cbn [fst snd] in *; (destruct q; [|contradiction]); eauto 8.
Qed.
Lemma tok_c d m a s : d <> 0%N -> text m a s ->
  (exists m' q t r k, pTok m (Some a) d = Ok (AT_SUCCESS, m', Some q, Some t) /\ ATGetSpecificNextTok (Some s) d = (AT_SUCCESS, Some r, Some k) /\
      ch m m' /\ text m' q r /\ text m' t k /\ length r < length s /\ length s <= 256)
  \/ (exists m' q, pTok m (Some a) d = Ok (AT_BAD_PARAMETER, m', Some q, None) /\ ATGetSpecificNextTok (Some s) d = (AT_BAD_PARAMETER, Some s, None) /\
      ch m m' /\ text m' q s).
Proof.
  intros Hd H. destruct (pTok_ok lo hi d m (Some a) (Some s) Hd H) as (m' & q & t & E & C & T1 & T2). rewrite E. clear E.
  unfold ATGetSpecificNextTok in *. destruct (is_valid s) eqn:Hv; cbn [fst snd] in *; [left|right].
  - destruct q; [|contradiction]. destruct t; [|contradiction]. do 5 eexists. split; [reflexivity|]. split; [reflexivity|].
    split; [exact C|]. split; [exact T1|]. split; [exact T2|]. apply is_valid_iff in Hv. destruct Hv as [V1 V2].
    split; [|lia]. assert (length s > 0) by (destruct s; [now elim V1|cbn; lia]).
    match goal with |- context [if ?b && ?c then _ else _] => destruct (b && c) end; [|cbn; lia].
    match goal with |- context [skipn (S ?n) s] => generalize n end. intros ?. rewrite skipn_length. lia.
  - destruct q; [|contradiction]. destruct t; [contradiction|]. eauto 8.
Qed.
Lemma nexttok_c m a s : text m a s ->
  (exists m' q t r k, pNextTok m (Some a) = Ok (AT_SUCCESS, m', Some q, Some t) /\ ATGetNextTok (Some s) = (AT_SUCCESS, Some r, Some k) /\
      ch m m' /\ text m' q r /\ text m' t k /\ length r < length s /\ length s <= 256)
  \/ (exists m' q, pNextTok m (Some a) = Ok (AT_BAD_PARAMETER, m', Some q, None) /\ ATGetNextTok (Some s) = (AT_BAD_PARAMETER, Some s, None) /\
      ch m m' /\ text m' q s).
Proof. apply tok_c. discriminate. Qed.

(** [x] has the outcome [y] and changes the object only inside the region. *)
Definition doesR {A} (x : res (A * list N)) m (y : res A) : Prop :=
  match y with Ok a => exists m', x = Ok (a, m') /\ ch m m' | UB => x = UB | Diverge => x = Diverge end.

Ltac fin := solve [eexists; split; [reflexivity|eauto using chR, chT]].
Ltac upd C C' := let C2 := fresh "C" in pose proof (chT _ _ _ _ _ C C') as C2; clear C C'; rename C2 into C.
Ltac op :=
  match goal with
  | T : text ?m ?a ?s |- context [pRead ?m (Some ?a)] => rewrite (pRead_ok lo hi m a s T); cbn [bind fst snd]
  | T : text ?m ?a ?s |- context [pRemovePrefix ?m (Some ?a)] =>
      let q := fresh "q" in let r := fresh "r" in let E := fresh "E" in let E2 := fresh "E" in let T' := fresh "T" in
      destruct (prefix_c m a s T) as [(q & r & E & E2 & T')|(q & r & E & E2)]; rewrite E, E2; clear E E2; cbn [bind fst snd]
  | T : text ?m ?a ?s |- context [pLead ?m (Some ?a)] =>
      let q := fresh "q" in let r := fresh "r" in let E := fresh "E" in let E2 := fresh "E" in let T' := fresh "T" in
      destruct (lead_c m a s T) as [(q & r & E & E2 & T')|(q & r & E & E2)]; rewrite E, E2; clear E E2; cbn [bind fst snd]
  | T : text ?m ?a ?s, C : ch ?m0 ?m |- context [pTrail ?m (Some ?a)] =>
      let q := fresh "m" in let r := fresh "r" in let E := fresh "E" in let E2 := fresh "E" in let T' := fresh "T" in let C' := fresh "C" in
      destruct (trail_c m a s T) as [(q & r & E & E2 & C' & T')|(q & r & E & E2 & C')]; rewrite E, E2; clear E E2; upd C C'; cbn [bind fst snd]
  | T : text ?m ?a ?s, C : ch ?m0 ?m |- context [pAllWs ?m (Some ?a)] =>
      let q := fresh "m" in let r := fresh "r" in let E := fresh "E" in let E2 := fresh "E" in let T' := fresh "T" in let C' := fresh "C" in
      destruct (allws_c m a s T) as [(q & r & E & E2 & C' & T')|(q & r & E & E2 & C')]; rewrite E, E2; clear E E2; upd C C'; cbn [bind fst snd]
  | T : text ?m ?a ?s, C : ch ?m0 ?m |- context [pAllDq ?m (Some ?a)] =>
      let q := fresh "m" in let r := fresh "r" in let E := fresh "E" in let E2 := fresh "E" in let T' := fresh "T" in let C' := fresh "C" in
      destruct (alldq_c m a s T) as [(q & r & E & E2 & C' & T')|(q & r & E & E2 & C')]; rewrite E, E2; clear E E2; upd C C'; cbn [bind fst snd]
  | T : text ?m ?a ?s, C : ch ?m0 ?m |- context [pOuter ?m (Some ?a)] =>
      let q := fresh "m" in let p := fresh "q" in let r := fresh "r" in let E := fresh "E" in let E2 := fresh "E" in let T' := fresh "T" in let C' := fresh "C" in
      destruct (outer_c m a s T) as [(p & q & r & E & E2 & C' & T')|(p & q & r & E & E2 & C')]; rewrite E, E2; clear E E2; upd C C'; cbn [bind fst snd]
  | T : text ?m ?a ?s, C : ch ?m0 ?m |- context [pNextTok ?m (Some ?a)] =>
      let q := fresh "m" in let p := fresh "q" in let t := fresh "t" in let k := fresh "k" in let r := fresh "r" in let E := fresh "E" in let E2 := fresh "E" in
      let T' := fresh "T" in let T2 := fresh "T" in let C' := fresh "C" in let L := fresh "L" in
      destruct (nexttok_c m a s T) as [(q & p & t & r & k & E & E2 & C' & T' & T2 & L & ?)|(q & p & E & E2 & C' & T')];
      rewrite E, E2; clear E E2; upd C C'; cbn [bind fst snd]
  | T : text ?m ?a ?s, C : ch ?m0 ?m |- context [pTok ?m (Some ?a) ?d] =>
      let q := fresh "m" in let p := fresh "q" in let t := fresh "t" in let k := fresh "k" in let r := fresh "r" in let E := fresh "E" in let E2 := fresh "E" in
      let T' := fresh "T" in let T2 := fresh "T" in let C' := fresh "C" in let L := fresh "L" in
      destruct (tok_c d m a s ltac:(first [discriminate|assumption]) T) as [(q & p & t & r & k & E & E2 & C' & T' & T2 & L & ?)|(q & p & E & E2 & C' & T')];
      rewrite E, ?E2; cbn [bind fst snd]; upd C C'
  end.
Ltac done := cbn [bind fst snd]; try fin.
Ltac ubres := match goal with |- context [do b <- ?x; _] => destruct x; cbn [bind]; [|reflexivity|reflexivity] end.

Variable bits : Z.

Lemma text_doesR n m a s buf : text m a s -> doesR (RecvFuncText_m n m [a] buf) m (RecvFuncText n [s] buf).
Proof.
  intros T. pose proof (chR lo hi m) as C. unfold RecvFuncText_m, RecvFuncText, cb_first_m, cb_first, doesR.
  op; [|fin]. op; [|fin]. op. ubres. fin.
Qed.
Lemma imei_doesR m a s buf : text m a s -> doesR (RecvFuncGetImei_m m [a] buf) m (RecvFuncGetImei [s] buf).
Proof.
  intros T. pose proof (chR lo hi m) as C. unfold RecvFuncGetImei_m, RecvFuncGetImei, cb_first_m, cb_first, doesR.
  op; [|fin]. op; [|fin]. op. ubres. fin.
Qed.
Lemma iccid_doesR m a s buf : text m a s -> doesR (RecvFuncGetIccid_m m [a] buf) m (RecvFuncGetIccid [s] buf).
Proof.
  intros T. pose proof (chR lo hi m) as C. unfold RecvFuncGetIccid_m, RecvFuncGetIccid, cb_first_m, cb_first, doesR.
  op; [|fin]. op; [|fin]. op. match goal with |- context [if ?b then _ else _] => destruct b end; [|fin]. ubres. fin.
Qed.
Lemma imsi_doesR m a s buf : text m a s -> doesR (RecvFuncGetImsi_m m [a] buf) m (RecvFuncGetImsi [s] buf).
Proof.
  intros T. pose proof (chR lo hi m) as C. unfold RecvFuncGetImsi_m, RecvFuncGetImsi, cb_first_m, cb_first, doesR.
  op; [|fin]. op. match goal with |- context [if ?b then _ else _] => destruct b end; [|fin]. ubres. fin.
Qed.
Lemma simlock_doesR m a s o : text m a s -> doesR (RecvFuncGetSimLockStatus_m m [a] o) m (RecvFuncGetSimLockStatus [s] o).
Proof.
  intros T. pose proof (chR lo hi m) as C. unfold RecvFuncGetSimLockStatus_m, RecvFuncGetSimLockStatus, cb_first_m, cb_first, doesR.
  op; [|fin]. op; [|fin]. op; [|fin]. op. fin.
Qed.
Lemma ip_doesR n m a s buf : text m a s -> doesR (RecvFuncIpAddress_m n m [a] buf) m (RecvFuncIpAddress n [s] buf).
Proof.
  intros T. pose proof (chR lo hi m) as C. unfold RecvFuncIpAddress_m, RecvFuncIpAddress, cb_first_m, cb_first, doesR.
  destruct (n =? 0)%N; [fin|]. op; [|fin]. op; [|fin].
  rename T1 into TR.
  pose proof (cstr_inv _ _ _ (proj1 TR)) as (pre & post & -> & <- & Hn).
  destruct r0 as [|c r0]; [rewrite ld_obj_nil|rewrite ld_obj_cons]; cbn [bind].
  - cbn [N.eqb negb]. ubres. fin.
  - apply no_nul_cons in Hn as [Hc Hn]. destruct (N.eqb_spec c 0); [congruence|]. cbn [negb].
    rewrite (pRead_ok lo hi _ _ _ TR). cbn [bind]. ubres. fin.
Qed.

Lemma number_m_eq m a s max set o : text m a s -> parseCopsNumber_m bits m (Some a) max set o = Ok (parseCopsNumber bits s max set o).
Proof. intros T. unfold parseCopsNumber_m. now rewrite (pRead_ok lo hi m a s T). Qed.
Lemma name_m_eq m a s o : text m a s -> parseCopsNetworkNameToken_m m (Some a) o = parseCopsNetworkNameToken s o.
Proof.
  intros T. unfold parseCopsNetworkNameToken_m, parseCopsNetworkNameToken. rewrite (pRead_ok lo hi m a s T). cbn [bind].
  destruct ((o_fmt o =? 0)%Z || (o_fmt o =? 1)%Z); [reflexivity|]. destruct (o_fmt o =? 2)%Z; [|reflexivity].
  match goal with |- context [if ?b || ?c then _ else _] => destruct (b || c) eqn:EL end; [|reflexivity].
  assert (T3 : text m (a + MCC_MAX_SIZE) (skipn MCC_MAX_SIZE s)).
  { apply orb_true_iff in EL. rewrite !Nat.eqb_eq in EL. change (MCC_MAX_SIZE + MNC_MAX_SIZE) with 6 in EL. change MCC_MAX_SIZE with 3.
    destruct T as (C & Lo & Hi). destruct (cstr_inv _ _ _ C) as (pre & post & -> & <- & Hn).
    destruct s as [|c1 [|c2 [|c3 s]]]; try (cbn in EL; lia). cbn [skipn]. split.
    - rewrite !obj_cons. replace (length pre + 3) with (length (((pre ++ [c1]) ++ [c2]) ++ [c3])) by (rewrite !app_length; cbn; lia).
      apply cstr_get_obj. repeat (apply no_nul_cons in Hn as [_ Hn]). exact Hn.
    - cbn [length] in Hi. lia. }
  rewrite (pRead_ok lo hi _ _ _ T3). reflexivity.
Qed.
Lemma cops_doesR m a s o : text m a s -> doesR (parseCops_m bits m (Some a) o) m (parseCops bits (Some s) o).
Proof.
  intros T. pose proof (chR lo hi m) as C. unfold parseCops_m, parseCops, doesR.
  op; [|fin]. rewrite (number_m_eq _ _ _ _ _ _ T1). cbn [bind]. destruct (parseCopsNumber bits k REG_MODE_MAX (set_omode o) o) as [[|] o1]; [|fin].
  op; [|fin]. rewrite (number_m_eq _ _ _ _ _ _ T3). cbn [bind]. destruct (parseCopsNumber bits k0 NAME_FORMAT_MAX (set_ofmt o1) o1) as [[|] o2]; [|fin].
  op; [|fin]. rewrite (name_m_eq _ _ _ _ T5). destruct (parseCopsNetworkNameToken k1 o2) as [[[|] o3]| |]; cbn [bind]; try reflexivity; [|fin].
  op; [|fin]. rewrite (number_m_eq _ _ _ _ _ _ T7). cbn [bind]. destruct (parseCopsNumber bits k2 RATN_MAX (set_orat o3) o3) as [[|] o4]; fin.
Qed.
Lemma mccmnc_doesR m a s o : text m a s -> doesR (RecvFuncUpdateMccMnc_m bits m [a] o) m (RecvFuncUpdateMccMnc bits [s] o).
Proof.
  intros T. pose proof (chR lo hi m) as C. unfold RecvFuncUpdateMccMnc_m, RecvFuncUpdateMccMnc, cb_first_m, cb_first, doesR.
  op; [|fin]. op; [|fin]. op; [|fin]. pose proof (cops_doesR _ _ _ o T2) as H. unfold doesR in H.
  destruct (parseCops bits (Some r1) o) as [[e o']| |].
  - destruct H as (m' & -> & C'). cbn [bind]. fin.
  - rewrite H. reflexivity.
  - rewrite H. reflexivity.
Qed.

Lemma hplmn_tok_m_eq m a s p : text m a s -> parseHplmn_m m (Some a) p = parseHplmn s p.
Proof.
  intros T. unfold parseHplmn_m, parseHplmn. rewrite (pRead_ok lo hi m a s T). cbn [bind].
  destruct ((length s <? CRSM_HPLMN_RAT_LENGTH) || has_prefix (s2b "FFFFFF") s) eqn:EL; [reflexivity|].
  apply orb_false_iff in EL as [EL _]. apply Nat.ltb_ge in EL. change CRSM_HPLMN_RAT_LENGTH with 9 in EL.
  destruct T as (C & _). destruct (cstr_inv _ _ _ C) as (pre & post & -> & <- & Hn).
  assert (LD : forall i, i < length s -> ld (obj pre s post) (length pre + i) = ld s i).
  { intros i Hi. unfold ld, obj. rewrite nth_error_app2 by lia. replace (length pre + i - length pre) with i by lia.
    now rewrite nth_error_app1. }
  pose proof (LD 0 ltac:(lia)) as L0. rewrite Nat.add_0_r in L0. rewrite L0, !LD by lia. reflexivity.
Qed.
Lemma hplmn_doesR m a s p : text m a s -> doesR (RecvFuncGetHplmn_m m [a] p) m (RecvFuncGetHplmn [s] p).
Proof.
  intros T. pose proof (chR lo hi m) as C. unfold RecvFuncGetHplmn_m, RecvFuncGetHplmn, cb_first_m, cb_first, doesR.
  op; [|fin]. op; [|fin]. op; [|fin]. op; [|fin]. op. destruct (checkCrsmReadStatus k); [|fin].
  op; [|fin]. op. destruct (checkCrsmMemoryStatus k0); [|fin]. op; [|fin].
  match goal with |- context [parseHplmn_m ?m (Some ?t) p] => match goal with H : text m t k1 |- _ => rewrite (hplmn_tok_m_eq m t k1 p H) end end.
  destruct (parseHplmn k1 p) as [[ok p']| |]; cbn [bind]; try reflexivity. fin.
Qed.

(** ** Network time *)
Lemma tok_int_c d m a s ok : d <> 0%N -> text m a s ->
  exists e m' q r v, tok_int_m bits m (Some a) d ok = Ok (e, m', Some q, v) /\ tok_int bits (Some s) d ok = (e, Some r, v) /\ ch m m' /\ text m' q r.
Proof.
  intros Hd T. unfold tok_int_m, tok_int. pose proof (chR lo hi m) as C.
  destruct (tok_c d m a s Hd T) as [(m' & q & t & r & k & E & E2 & C' & T' & T2 & _)|(m' & q & E & E2 & C' & T')]; rewrite E, E2; cbn [bind].
  - op. destruct (get_int bits k 10 ok) as [e v]. do 5 eexists. split; [reflexivity|]. split; [reflexivity|]. auto.
  - do 5 eexists. split; [reflexivity|]. split; [reflexivity|]. auto.
Qed.
Ltac ti := match goal with
  | T : text ?m ?a ?s, C : ch ?m0 ?m |- context [tok_int_m bits ?m (Some ?a) ?d ?ok] =>
      let e := fresh "e" in let m' := fresh "m" in let q := fresh "q" in let r := fresh "r" in let v := fresh "v" in
      let E := fresh "E" in let E2 := fresh "E" in let C' := fresh "C" in let T' := fresh "T" in
      destruct (tok_int_c d m a s ok ltac:(first [discriminate|assumption]) T) as (e & m' & q & r & v & E & E2 & C' & T');
      rewrite E, E2; clear E E2; upd C C'; cbn [bind]; destruct e
  end.

Lemma ymd_c m t k a s c : text m t k -> text m a s ->
  exists e m' q r c', parseYearMonthDay_m bits m (Some t) (Some a) c = Ok (e, m', Some q, c') /\ parseYearMonthDay bits k (Some s) c = (e, Some r, c')
    /\ ch m m' /\ text m' q r.
Proof.
  intros T1 T. pose proof (chR lo hi m) as C. unfold parseYearMonthDay_m, parseYearMonthDay. op.
  destruct (get_int bits k 10 uint16_ok) as [[] v]; try solve [do 5 eexists; split; [reflexivity|]; split; [reflexivity|]; split; [exact C|exact T]].
  ti; try solve [do 5 eexists; split; [reflexivity|]; split; [reflexivity|]; split; [exact C|eassumption]].
  ti; do 5 eexists; (split; [reflexivity|]); (split; [reflexivity|]); (split; [exact C|eassumption]).
Qed.
Lemma hms_doesR m t k neg a s c : text m t k -> text m a s ->
  doesR (parseTimeInCCLKResponse_m bits m (Some t) neg (Some a) c) m (Ok (parseTimeInCCLKResponse bits k neg (Some s) c)).
Proof.
  intros T1 T. pose proof (chR lo hi m) as C. unfold parseTimeInCCLKResponse_m, parseTimeInCCLKResponse, doesR. op.
  destruct (get_int bits k 10 uint8_ok) as [[] v]; try fin.
  ti; try fin. assert ((if neg then chMINUS else chPLUS) <> 0%N) by (destruct neg; discriminate).
  ti; fin.
Qed.
Lemma doesR_ch {A} (x : res (A * list N)) m m1 y : ch m m1 -> doesR x m1 y -> doesR x m y.
Proof. intros C H. destruct y; auto. destruct H as (m' & E & C'). exists m'. split; [exact E|]. eapply chT; eauto. Qed.
Lemma tzinfo_doesR m a s : text m a s -> doesR (parseTimeZoneInfo_m bits m (Some a)) m (Ok (parseTimeZoneInfo bits (Some s))).
Proof.
  intros T. pose proof (chR lo hi m) as C. unfold parseTimeZoneInfo_m, parseTimeZoneInfo.
  op; [|cbn [doesR]; fin]. unfold parseTimeZoneInCCLKResponse_m. op.
  destruct (parseTimeZoneInCCLKResponse bits r ctime0) as [[[] neg] t1]; try (cbn [doesR]; fin).
  destruct (tok_c 47 m0 q r ltac:(discriminate) T0) as [(m1 & q1 & t & r1 & k & E & E2 & C' & T' & T2 & _)|(m1 & q1 & E & E2 & C' & T')]; rewrite E, E2; cbn [bind].
  - upd C C'. destruct (ymd_c m1 t k q1 r1 t1 T2 T') as (e & m2 & q2 & r2 & c' & E3 & E4 & C2 & T4). rewrite E3, E4. cbn [bind]. upd C C2.
    destruct e; try (cbn [doesR]; fin).
    destruct (tok_c chCOLON m2 q2 r2 ltac:(discriminate) T4) as [(m3 & q3 & t3 & r3 & k3 & E5 & E6 & C3 & T5 & T6 & _)|(m3 & q3 & E5 & E6 & C3 & T5)];
      rewrite E5, E6; cbn [bind]; upd C C3; [|cbn [doesR]; fin].
    eapply doesR_ch; [exact C|]. now apply hms_doesR.
  - upd C C'. assert (V : is_valid r = false).
    { unfold ATGetSpecificNextTok in E2. destruct (is_valid r); [discriminate|reflexivity]. }
    destruct (tok_c chCOLON m1 q1 r ltac:(discriminate) T') as [(m3 & q3 & t3 & r3 & k3 & E5 & E6 & _)|(m3 & q3 & E5 & E6 & C3 & T5)].
    + unfold ATGetSpecificNextTok in E6. rewrite V in E6. discriminate.
    + rewrite E5. cbn [bind]. upd C C3. cbn [doesR]. fin.
Qed.
Lemma time_doesR m a s o : text m a s -> doesR (RecvFuncGetNetworkTime_m bits m [a] o) m (RecvFuncGetNetworkTime bits [s] o).
Proof.
  intros T. pose proof (chR lo hi m) as C. unfold RecvFuncGetNetworkTime_m, RecvFuncGetNetworkTime, cb_first_m, cb_first.
  op; [|cbn [doesR]; fin]. op; [|cbn [doesR]; fin]. eapply doesR_ch; [exact C|]. now apply tzinfo_doesR.
Qed.

(** ** Token loops *)
Lemma eidrx_loop_doesR f : forall m t q k r idx count l g, text m t k -> text m q r -> length r < f -> length r < g ->
  doesR (eidrx_loop_m bits f m (Some t) (Some q) idx count l) m (eidrx_loop bits (k :: tokens g (Some r)) idx count l).
Proof.
  induction f as [|f IH]; intros m t q k r idx count l g T1 T2 Hf Hg; [lia|]. destruct g as [|g]; [lia|].
  pose proof (chR lo hi m) as C. cbn [eidrx_loop_m eidrx_loop tokens]. unfold parseEidrxToken_m. rewrite (pRead_ok lo hi m t k T1). cbn [bind].
  destruct (parseEidrxToken bits k idx count l) as [x| |]; cbn [bind]; try reflexivity.
  destruct (nexttok_c m q r T2) as [(m' & q' & t' & r' & k' & E & E2 & C' & T' & T'' & L & _)|(m' & q' & E & E2 & C' & T')]; rewrite E, E2; cbn [bind].
  - eapply doesR_ch; [exact C'|]. apply IH; auto; lia.
  - cbn [eidrx_loop doesR]. fin.
Qed.
Lemma eidrx_line_doesR m a s count l : text m a s -> doesR (parseEidrxLine_m bits m a count l) m (parseEidrxLine bits s count l).
Proof.
  intros T. pose proof (chR lo hi m) as C. unfold parseEidrxLine_m, parseEidrxLine.
  op; [|cbn [doesR]; fin]. op; [|cbn [doesR]; fin].
  destruct (nexttok_c m0 q r0 T1) as [(m' & q' & t' & r' & k' & E & E2 & C' & T' & T'' & L & L2)|(m' & q' & E & E2 & C' & T')]; rewrite E, E2; cbn [bind]; upd C C'; [|cbn [doesR]; fin].
  pose proof (eidrx_loop_doesR TOK_FUEL m' t' q' k' r' 0%N count l TOK_FUEL T'' T' ltac:(unfold TOK_FUEL; lia) ltac:(unfold TOK_FUEL; lia)) as H.
  destruct (eidrx_loop bits (k' :: tokens TOK_FUEL (Some r')) 0 count l) as [l'| |]; cbn [doesR] in H.
  - destruct H as (m2 & -> & C2). cbn [bind doesR fst snd]. fin.
  - rewrite H. reflexivity.
  - rewrite H. reflexivity.
Qed.
Lemma psm_loop_doesR f : forall m t q k r idx e s g, text m t k -> text m q r -> length r < f -> length r < g ->
  doesR (psm_loop_m bits f m (Some t) (Some q) idx e s) m (Ok (psm_loop bits (k :: tokens g (Some r)) idx e s)).
Proof.
  induction f as [|f IH]; intros m t q k r idx e s g T1 T2 Hf Hg; [lia|]. destruct g as [|g]; [lia|].
  pose proof (chR lo hi m) as C. cbn [psm_loop_m psm_loop tokens]. rewrite (pRead_ok lo hi m t k T1). cbn [bind].
  destruct (parseGetPsmToken bits k idx s) as [e' s'].
  destruct (nexttok_c m q r T2) as [(m' & q' & t' & r' & k' & E & E2 & C' & T' & T'' & L & _)|(m' & q' & E & E2 & C' & T')]; rewrite E, E2; cbn [bind].
  - eapply doesR_ch; [exact C'|]. apply IH; auto; lia.
  - cbn [psm_loop doesR]. fin.
Qed.
Lemma psm_doesR m a s o : text m a s -> doesR (RecvFuncGetPsmSettings_m bits m [a] o) m (RecvFuncGetPsmSettings bits [s] o).
Proof.
  intros T. pose proof (chR lo hi m) as C. unfold RecvFuncGetPsmSettings_m, RecvFuncGetPsmSettings, cb_first_m, cb_first.
  op; [|cbn [doesR]; fin]. op; [|cbn [doesR]; fin].
  destruct (nexttok_c m0 q r0 T1) as [(m' & q' & t' & r' & k' & E & E2 & C' & T' & T'' & L & L2)|(m' & q' & E & E2 & C' & T')]; rewrite E, E2; cbn [bind]; upd C C'; [|cbn [doesR]; fin].
  destruct (psm_loop_doesR TOK_FUEL m' t' q' k' r' 0%N AT_SUCCESS o TOK_FUEL T'' T' ltac:(unfold TOK_FUEL; lia) ltac:(unfold TOK_FUEL; lia)) as (m2 & -> & C2).
  destruct (psm_loop bits (k' :: tokens TOK_FUEL (Some r')) 0 AT_SUCCESS o) as [e s']. cbn [bind doesR]. fin.
Qed.
Lemma reg_loop_doesR f : forall m rt i t q k r d, text m t k -> text m q r ->
  doesR (reg_loop_m bits f m rt i (Some t) (Some q) d) m (match reg_loop bits f rt i k (Some r) d with None => Diverge | Some x => Ok x end).
Proof.
  induction f as [|f IH]; intros m rt i t q k r d T1 T2; [reflexivity|].
  pose proof (chR lo hi m) as C. cbn [reg_loop_m reg_loop]. rewrite (pRead_ok lo hi m t k T1). cbn [bind].
  destruct (parseAt bits rt ((i + 1) mod 256) k d) as [[] d']; try (cbn [doesR]; fin).
  destruct (nexttok_c m q r T2) as [(m' & q' & t' & r' & k' & E & E2 & C' & T' & T'' & L & _)|(m' & q' & E & E2 & C' & T')]; rewrite E, E2; cbn [bind].
  - eapply doesR_ch; [exact C'|]. apply IH; auto.
  - cbn [doesR]. fin.
Qed.

(** The terminator at the end of the region stays, so any address in the region can be read as a string. *)
Lemma read_any m p : nth_error m hi = Some 0%N -> p <= hi -> exists s, pRead m (Some p) = Ok s.
Proof.
  intros Z L. unfold pRead. assert (HL : hi < length m) by (apply nth_error_Some; congruence).
  assert (G : forall n fuel p, hi - p = n -> p <= hi -> n < fuel -> exists s, read_m fuel m p = Ok s).
  { induction n as [|n IH]; intros [|fuel] p0 E Hp Hf; try lia; cbn [read_m].
    - replace p0 with hi by lia. unfold ld. rewrite Z. cbn. eauto.
    - unfold ld. destruct (nth_error m p0) as [c|] eqn:Ec; [|apply nth_error_None in Ec; lia]. cbn [bind].
      destruct (c =? 0)%N; [eauto|]. destruct (IH fuel (S p0)) as [s Es]; try lia. rewrite Es. cbn [bind]. eauto. }
  apply (G (hi - p)); lia.
Qed.
Lemma parsereg_doesR cb m a s isUrc rt d : text m a s -> nth_error m hi = Some 0%N ->
  doesR (ParseRegStatus_m bits cb m (Some a) isUrc rt d) m (ParseRegStatus bits cb (Some s) isUrc rt d).
Proof.
  intros T Z. pose proof (chR lo hi m) as C. unfold ParseRegStatus_m, ParseRegStatus.
  assert (RL : forall m', ch m m' -> exists l, pRead m' (Some a) = Ok l).
  { intros m' [_ Hz]. apply read_any; [auto|]. destruct T as (_ & _ & ?). lia. }
  assert (M : doesR (do r1 <- pAllDq m (Some a);
          match r1 with
          | (AT_SUCCESS, m1) =>
              do r2 <- pAllWs m1 (Some a);
              match r2 with
              | (AT_SUCCESS, m2) =>
                  do r3 <- pNextTok m2 (Some a);
                  match r3 with
                  | (AT_SUCCESS, m3, p3, t3) =>
                      do x <- reg_loop_m bits REG_FUEL m3 rt (if isUrc then 1 else 0)%N t3 p3 d;
                      let '(st, d', m4) := x in
                      do logged <- pRead m4 (Some a);
                      Ok (st, d', if RegEventStatus d' rt (d_cs d) (d_ps d) then generateEvent rt cb d' else [], m4)
                  | (e, m3, _, _) => Ok (TranslateAtCoreStatus e, d, [], m3)
                  end
              | (e, m2) => Ok (TranslateAtCoreStatus e, d, [], m2)
              end
          | (e, m1) => Ok (TranslateAtCoreStatus e, d, [], m1)
          end) m
      (match ATRemoveAllDoubleQuote (Some s) with
          | (AT_SUCCESS, s1) =>
              match ATRemoveAllWhiteSpaces s1 with
              | (AT_SUCCESS, s2) =>
                  match ATGetNextTok s2 with
                  | (AT_SUCCESS, rest, Some tok) =>
                      match reg_loop bits REG_FUEL rt (if isUrc then 1 else 0)%N tok rest d with
                      | None => Diverge
                      | Some (st, d') =>
                          Ok (st, d', if RegEventStatus d' rt (d_cs d) (d_ps d) then generateEvent rt cb d' else [])
                      end
                  | (e, _, _) => Ok (TranslateAtCoreStatus e, d, [])
                  end
              | (e, _) => Ok (TranslateAtCoreStatus e, d, [])
              end
          | (e, _) => Ok (TranslateAtCoreStatus e, d, [])
          end)).
  { op; [|cbn [doesR]; fin]. op; [|cbn [doesR]; fin].
    destruct (nexttok_c m1 a r0 T1) as [(m' & q' & t' & r' & k' & E & E2 & C' & T' & T'' & L & L2)|(m' & q' & E & E2 & C' & T')]; rewrite E, E2; cbn [bind]; upd C C'; [|cbn [doesR]; fin].
    pose proof (reg_loop_doesR REG_FUEL m' rt (if isUrc then 1 else 0)%N t' q' k' r' d T'' T') as H.
    destruct (reg_loop bits REG_FUEL rt (if isUrc then 1 else 0)%N k' (Some r') d) as [[st d']|]; cbn [doesR] in H.
    - destruct H as (m2 & -> & C2). cbn [bind]. upd C C2. destruct (RL m2 C) as [lg ->]. cbn [bind doesR]. fin.
    - rewrite H. reflexivity. }
  destruct rt; auto. cbn [doesR]. fin.
Qed.
Lemma isurc_m_eq m a s : text m a s -> regResponseIsUrc_m m a = Ok (regResponseIsUrc s).
Proof.
  intros (C & _). destruct (cstr_inv _ _ _ C) as (pre & post & -> & <- & Hn). unfold regResponseIsUrc_m, regResponseIsUrc.
  rewrite strchr_obj' by (assumption || discriminate). cbn [bind]. destruct (strchr s chCOMMA) as [n|] eqn:E; [|reflexivity].
  cbn [option_map]. apply strchr_split in E as (x & y & -> & <- & _).
  assert (L : ld (obj pre (x ++ chCOMMA :: y) post) (S (length pre + length x)) = Ok (nth (S (length x)) (x ++ chCOMMA :: y) 0%N)).
  { replace (obj pre (x ++ chCOMMA :: y) post) with (obj (pre ++ x ++ [chCOMMA]) y post) by (unfold obj; rewrite <- !app_assoc; cbn; rewrite <- ?app_assoc; reflexivity).
    replace (S (length pre + length x)) with (length (pre ++ x ++ [chCOMMA])) by (rewrite !app_length; cbn; lia).
    rewrite app_nth2 by lia. replace (S (length x) - length x) with 1 by lia. cbn [nth].
    destruct y as [|c y]; [apply ld_obj_nil|apply ld_obj_cons]. }
  rewrite L. reflexivity.
Qed.
Lemma reg_line_doesR cb m a s rt d : text m a s -> nth_error m hi = Some 0%N ->
  doesR (do u <- regResponseIsUrc_m m a;
         if u : bool then
           do r1 <- pRemovePrefix m (Some a);
           match r1 with
           | (AT_SUCCESS, p1) => ParseRegStatus_m bits cb m p1 true rt d
           | (e, _) => Ok (TranslateAtCoreStatus e, d, [], m)
           end
         else ParseRegStatus_m bits cb m (Some a) false rt d) m
    (if regResponseIsUrc s then
       match ATRemovePrefix (Some s) with
       | (AT_SUCCESS, l') => ParseRegStatus bits cb l' true rt d
       | (e, _) => Ok (TranslateAtCoreStatus e, d, [])
       end
     else ParseRegStatus bits cb (Some s) false rt d).
Proof.
  intros T Z. pose proof (chR lo hi m) as C. rewrite (isurc_m_eq m a s T). cbn [bind]. destruct (regResponseIsUrc s).
  - op; [|cbn [doesR]; fin]. now apply parsereg_doesR.
  - now apply parsereg_doesR.
Qed.
End Cases.

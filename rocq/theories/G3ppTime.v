(** Proofs about the network time and operator parsers of the 3GPP API layer. *)
From Coq Require Import String List NArith ZArith Bool Lia Arith ZifyBool ZifyN ZifyNat.
From Verif Require Import Bytes AtCore AtMem SpecAt AtProofs AtProofs2 AtProofs3 Status Pktio SendCmd Socket RegStatus SpecReg RegProofs SpecG3pp G3pp SpecG3ppApi G3ppProofs G3ppCmds G3ppIdent.
Import ListNotations.
Local Open Scope Z_scope.
Local Arguments Nat.sub : simpl never.

Lemma digits_chars s v : digits s v -> Forall digit_char s.
Proof.
  intros (_ & ds & -> & H & _). apply Forall_forall. intros c Hc. apply in_map_iff in Hc. destruct Hc as (d & <- & Hd).
  rewrite Forall_forall in H. apply H in Hd. unfold digit_char. lia.
Qed.
Lemma digits_notin s v c : digits s v -> ~ digit_char c -> ~ In c s.
Proof. intros H Hc Hi. apply digits_chars in H. rewrite Forall_forall in H. auto. Qed.
Lemma digits_alnum ds : Forall (fun d => (d < 10)%N) ds -> Forall2 alnum_value (map (fun d => (48 + d)%N) ds) ds.
Proof. induction 1; cbn [map]; constructor; [left; lia|assumption]. Qed.
Lemma digits_numeral s v : digits s v -> starts_with_numeral 10 s v.
Proof.
  intros (Hne & ds & E & H & Hv). exists [], [], s, ds, []. rewrite app_nil_r. split; [reflexivity|]. split; [constructor|]. split; [exact Hne|].
  split; [rewrite E; apply digits_alnum; exact H|]. split; [exact H|]. split; [now left|]. left. split; [now left|now rewrite <- Hv].
Qed.
Lemma signed_numeral sg s v : digits s v -> sg = 43%N \/ sg = 45%N -> starts_with_numeral 10 (sg :: s) (if (sg =? 45)%N then - v else v).
Proof.
  intros (Hne & ds & E & H & Hv) Hs. exists [], [sg], s, ds, []. rewrite app_nil_r. split; [reflexivity|]. split; [constructor|]. split; [exact Hne|].
  split; [rewrite E; apply digits_alnum; exact H|]. split; [exact H|]. split; [now left|]. destruct Hs as [-> | ->].
  - left. split; [now right|now rewrite <- Hv].
  - right. split; [reflexivity|cbn; now rewrite <- Hv].
Qed.
Lemma digits_nonneg s v : digits s v -> 0 <= v.
Proof.
  intros (_ & ds & _ & H & <-). induction ds as [|d ds IH]; cbn [numeral_value]; [lia|].
  inversion H; subst. specialize (IH ltac:(assumption)). assert (0 <= Z.of_N 10 ^ Z.of_nat (length ds)) by (apply Z.pow_nonneg; lia). nia.
Qed.
Lemma digits_get bits s v ok : 32 <= bits -> digits s v -> int32_range v -> get_int bits s 10 ok = (if ok v then AT_SUCCESS else AT_ERROR, v).
Proof. intros Hb Hd Hr. apply get_int_ok; [exact Hb|now apply digits_numeral|exact Hr]. Qed.

Lemma tok_int_split bits (f r : str) d v ok : 32 <= bits -> digits f v -> int32_range v -> ~ digit_char d ->
  (length (f ++ d :: r) <= 256)%nat -> no_nul r -> tok_int bits (Some (f ++ d :: r)) d ok = (if ok v then AT_SUCCESS else AT_ERROR, Some r, v).
Proof.
  intros Hb Hd Hr Hnd Hl Hn. unfold tok_int.
  rewrite tok_content_split; [|split; [destruct f; discriminate|lia]|eapply digits_notin; eauto|exact Hn].
  rewrite (digits_get bits f v ok Hb Hd Hr). reflexivity.
Qed.
Lemma strstr_char s c : match strstr s [c] with
  | Some t => exists p, s = p ++ c :: tl t /\ hd 0%N t = c /\ t = c :: tl t /\ ~ In c p
  | None => ~ In c s end.
Proof.
  induction s as [|x s IH]; cbn [strstr has_prefix]; [tauto|].
  destruct (N.eqb_spec c x) as [->|Hc]; cbn [andb].
  - exists []. cbn. auto.
  - destruct (strstr s [c]) as [t|].
    + destruct IH as (p & E & H1 & H2 & H3). exists (x :: p). split; [cbn [app]; now rewrite <- E|]. split; [exact H1|]. split; [exact H2|].
      intros [?|?]; [congruence|contradiction].
    + intros [?|?]; [congruence|contradiction].
Qed.
Lemma strstr_found p c t : ~ In c p -> strstr (p ++ c :: t) [c] = Some (c :: t).
Proof.
  induction p as [|x p IH]; intro H; cbn [app strstr has_prefix].
  - rewrite N.eqb_refl. reflexivity.
  - destruct (N.eqb_spec c x) as [->|]; [exfalso; apply H; now left|]. cbn [andb]. apply IH. intro; apply H; now right.
Qed.
Lemma strstr_none s c : ~ In c s -> strstr s [c] = None.
Proof.
  intro H. pose proof (strstr_char s c) as K. destruct (strstr s [c]) as [t|]; [|reflexivity].
  destruct K as (p & -> & _). exfalso. apply H. apply in_or_app. right. now left.
Qed.

Ltac tokint_rewrite L :=
  match type of L with _ = ?r =>
    match goal with |- context [tok_int ?b ?x ?d ?ok] => replace (tok_int b x d ok) with r by (symmetry; exact L) end end;
  cbv beta iota.

(** ** The clock: "yy/MM/dd,hh:mm:ss+zz" *)
Definition clock_char (c : N) : Prop := digit_char c \/ c = 47%N \/ c = 44%N \/ c = 58%N \/ c = 43%N \/ c = 45%N.
Lemma digits_clock s v c : digits s v -> In c s -> clock_char c.
Proof. intros H Hi. apply digits_chars in H. rewrite Forall_forall in H. left. auto. Qed.

Definition fits (k : clock) : bool :=
  uint16_ok (k_year k) && uint8_ok (k_month k) && uint8_ok (k_day k) && uint8_ok (k_hour k) && uint8_ok (k_minute k) && uint8_ok (k_second k).
Ltac refuse H := rewrite ?H; cbn [andb]; rewrite ?andb_false_r; cbn [andb]; eexists; split; [reflexivity|intro; discriminate].
Lemma parse_clock bits s k : 32 <= bits -> clock_text s k -> clock_numbers k -> (length s <= 256)%nat -> no_nul s ->
  (forall q1 q2, (q1 = [] \/ q1 = [34%N]) -> (q2 = [] \/ q2 = [34%N]) -> (length (q1 ++ s ++ q2) <= 256)%nat ->
   exists t, parseTimeZoneInfo bits (Some (q1 ++ s ++ q2)) = (if fits k then PKT_OK else PKT_FAILURE, t) /\ (fits k = true -> t = ctime_of k)).
Proof.
  intros Hb (Y & M & D & h & mi & sc & sg & z & vz & E & HY & HM & HD & Hh & Hmi & Hsc & Hz & Hsg) HR Hlen Hn q1 q2 Q1 Q2 HL.
  destruct HR as (R1 & R2 & R3 & R4 & R5 & R6 & R7 & R8).
  unfold parseTimeZoneInfo, fits.
  assert (S3 : (2 < length s)%nat) by (rewrite E; repeat (rewrite app_length; cbn [length]); lia).
  assert (HO : ATRemoveOutermostDoubleQuote (Some (q1 ++ s ++ q2)) = (AT_SUCCESS, Some s)).
  { assert (Sne : s <> []) by (intro Q; rewrite Q in S3; cbn in S3; lia).
    assert (F0 : exists c s', s = c :: s' /\ c <> 34%N).
    { rewrite E. destruct HY as (Yne & ds & EY & HYd & _). destruct Y as [|c Y]; [contradiction|]. exists c. eexists. split; [reflexivity|].
      destruct ds as [|d ds]; [discriminate|]. apply (f_equal (hd 0%N)) in EY. cbn [map hd] in EY. rewrite EY. clear. lia. }
    assert (F1 : last s 0%N <> 34%N).
    { rewrite E. destruct Hz as (zne & ds & EZ & HZd & _).
      assert (LL : forall (a : str) x b, b <> [] -> last (a ++ x :: b) 0%N = last b 0%N).
      { clear. intros a x b Hb. induction a as [|y a IH].
        - cbn [app]. destruct b; [contradiction|reflexivity].
        - cbn [app]. destruct (a ++ x :: b) eqn:Ea; [destruct a; discriminate|]. rewrite <- IH. reflexivity. }
      rewrite !LL; try (intro Q; apply app_eq_nil in Q; destruct Q; discriminate); try exact zne; try discriminate.
      rewrite EZ. clear - HZd zne EZ. intro Q. assert (In (last (map (fun d => (48 + d)%N) ds) 0%N) (map (fun d => (48 + d)%N) ds)).
      { clear Q. destruct ds as [|d ds]; [subst; contradiction|]. clear.
        cbn [map]. revert d. induction ds as [|e ds IH]; intro d; [left; reflexivity|]. right. apply IH. }
      apply in_map_iff in H. destruct H as (d & Hd1 & Hd2). rewrite Forall_forall in HZd. apply HZd in Hd2. lia. }
    destruct F0 as (c & s' & Ec & Hc).
    unfold ATRemoveOutermostDoubleQuote. rewrite valid_of; [|destruct q1; [destruct s; [contradiction|discriminate]|discriminate]|exact HL].
    replace (2 <? length (q1 ++ s ++ q2))%nat with true by (rewrite !app_length; lia).
    do 2 f_equal.
    assert (A1 : match q1 ++ s ++ q2 with c :: t => if (c =? chDQ)%N then t else q1 ++ s ++ q2 | [] => q1 ++ s ++ q2 end = s ++ q2).
    { destruct Q1 as [-> | ->]; cbn [app].
      - rewrite Ec. cbn [app]. unfold chDQ. replace (c =? 34)%N with false by lia. reflexivity.
      - reflexivity. }
    match goal with |- context [last ?x 0%N] => replace x with (s ++ q2) by (symmetry; exact A1) end. destruct Q2 as [-> | ->].
    - rewrite app_nil_r. unfold chDQ. replace (last s 0 =? 34)%N with false by lia. reflexivity.
    - rewrite last_last. cbn. rewrite removelast_last. reflexivity. }
  rewrite HO. clear HO. cbv beta iota.
  assert (Dn : forall c, (c = 47 \/ c = 44 \/ c = 58 \/ c = 43 \/ c = 45)%N -> ~ digit_char c) by (unfold digit_char; intros; lia).
  set (r6 := sg :: z) in *. set (r5 := sc ++ r6) in *. set (r4 := mi ++ 58%N :: r5) in *. set (r3 := h ++ 58%N :: r4) in *.
  set (r2 := D ++ 44%N :: r3) in *. set (r1 := M ++ 47%N :: r2) in *.
  assert (Z0 := digits_nonneg _ _ Hz).
  assert (B : forall c, (c = 43 \/ c = 45)%N -> ~ In c (Y ++ 47%N :: M ++ 47%N :: D ++ 44%N :: h ++ 58%N :: mi ++ 58%N :: sc)).
  { intros c Hc Hi. assert (Nd : ~ digit_char c) by (apply Dn; tauto).
    repeat (apply in_app_or in Hi; destruct Hi as [Hi|[Hi|Hi]]; [match goal with H : digits ?x _ |- _ => exact (digits_notin x _ c H Nd Hi) end|lia|]).
    exact (digits_notin sc _ c Hsc Nd Hi). }
  assert (Es : s = (Y ++ 47%N :: M ++ 47%N :: D ++ 44%N :: h ++ 58%N :: mi ++ 58%N :: sc) ++ sg :: z).
  { rewrite E. unfold r1, r2, r3, r4, r5, r6. repeat (rewrite <- app_assoc; cbn [app]). reflexivity. }
  assert (TZ : parseTimeZoneInCCLKResponse bits s ctime0 = (PKT_OK, (sg =? 45)%N, set_tz ctime0 (k_zone k))).
  { unfold parseTimeZoneInCCLKResponse. rewrite Es. destruct Hsg as [[-> Hk]|[-> Hk]].
    - rewrite strstr_found by (apply B; tauto). rewrite (get_int_ok bits _ 10 any_int vz Hb); [|exact (signed_numeral 43 z vz Hz ltac:(now left))|rewrite <- Hk; exact R7].
      rewrite Hk. reflexivity.
    - rewrite strstr_none.
      + rewrite strstr_found by (apply B; tauto). rewrite (get_int_ok bits _ 10 any_int (- vz) Hb); [|exact (signed_numeral 45 z vz Hz ltac:(now right))|rewrite <- Hk; exact R7].
        rewrite Hk. reflexivity.
      + intro Hi. apply in_app_or in Hi. destruct Hi as [Hi|[Hi|Hi]]; [exact (B _ ltac:(now left) Hi)|discriminate|].
        exact (digits_notin z vz 43 Hz ltac:(unfold digit_char; lia) Hi). }
  rewrite TZ. clear TZ Es B. cbv beta iota.
  assert (Ly : (length (Y ++ 47%N :: r1) <= 256)%nat) by (rewrite <- E; exact Hlen).
  assert (N1 : no_nul r1) by (intro H; apply Hn; rewrite E; apply in_or_app; right; now right).
  assert (L1 : (length r1 <= 256)%nat) by (rewrite app_length in Ly; cbn [length] in Ly; lia).
  assert (N2 : no_nul r2) by (intro H; apply N1; unfold r1; apply in_or_app; right; now right).
  assert (L2 : (length r2 <= 256)%nat) by (unfold r1 in L1; rewrite app_length in L1; cbn [length] in L1; lia).
  assert (N3 : no_nul r3) by (intro H; apply N2; unfold r2; apply in_or_app; right; now right).
  assert (L3 : (length r3 <= 256)%nat) by (unfold r2 in L2; rewrite app_length in L2; cbn [length] in L2; lia).
  assert (N4 : no_nul r4) by (intro H; apply N3; unfold r3; apply in_or_app; right; now right).
  assert (L4 : (length r4 <= 256)%nat) by (unfold r3 in L3; rewrite app_length in L3; cbn [length] in L3; lia).
  assert (N5 : no_nul r5) by (intro H; apply N4; unfold r4; apply in_or_app; right; now right).
  assert (L5 : (length r5 <= 256)%nat) by (unfold r4 in L4; rewrite app_length in L4; cbn [length] in L4; lia).
  pose proof (digits_nonneg _ _ HY). pose proof (digits_nonneg _ _ HM). pose proof (digits_nonneg _ _ HD).
  pose proof (digits_nonneg _ _ Hh). pose proof (digits_nonneg _ _ Hmi). pose proof (digits_nonneg _ _ Hsc).
  rewrite E. rewrite tok_content_split; [|split; [destruct Y; discriminate|lia]|eapply digits_notin; [exact HY|apply Dn; tauto]|exact N1].
  cbv beta iota. unfold parseYearMonthDay.
  rewrite (digits_get bits Y _ uint16_ok Hb HY) by assumption.
  destruct (uint16_ok (k_year k)) eqn:OY; cbv beta iota zeta; [|refuse OY].
  assert (TI_M : tok_int bits (Some (M ++ 47%N :: r2)) 47 uint8_ok = (if uint8_ok (k_month k) then AT_SUCCESS else AT_ERROR, Some r2, k_month k)) by (apply tok_int_split; first [apply Dn; tauto | assumption]). tokint_rewrite TI_M.
  destruct (uint8_ok (k_month k)) eqn:OM; cbv beta iota; [|refuse OM].
  assert (TI_D : tok_int bits (Some (D ++ 44%N :: r3)) 44 uint8_ok = (if uint8_ok (k_day k) then AT_SUCCESS else AT_ERROR, Some r3, k_day k)) by (apply tok_int_split; first [apply Dn; tauto | assumption]). tokint_rewrite TI_D.
  destruct (uint8_ok (k_day k)) eqn:OD; cbv beta iota; [|refuse OD].
  unfold r3 at 1. rewrite tok_content_split; [|split; [destruct h; discriminate|fold r3; unfold chCOLON; fold r3; lia]|eapply digits_notin; [exact Hh|apply Dn; unfold chCOLON; tauto]|exact N4].
  cbv beta iota. unfold parseTimeInCCLKResponse.
  rewrite (digits_get bits h _ uint8_ok Hb Hh) by assumption.
  destruct (uint8_ok (k_hour k)) eqn:Oh; cbv beta iota zeta; [|refuse Oh].
  assert (TI_mi : tok_int bits (Some (mi ++ 58%N :: r5)) 58 uint8_ok = (if uint8_ok (k_minute k) then AT_SUCCESS else AT_ERROR, Some r5, k_minute k)) by (apply tok_int_split; first [apply Dn; tauto | assumption]). tokint_rewrite TI_mi.
  destruct (uint8_ok (k_minute k)) eqn:Omi; cbv beta iota; [|refuse Omi].
  assert (Ed : (if (sg =? 45)%N then chMINUS else chPLUS) = sg) by (destruct Hsg as [[-> _]|[-> _]]; reflexivity).
  rewrite Ed.
  assert (TI_s : tok_int bits (Some (sc ++ sg :: z)) sg uint8_ok = (if uint8_ok (k_second k) then AT_SUCCESS else AT_ERROR, Some z, k_second k)).
  { apply tok_int_split; try assumption.
    - apply Dn. tauto.
    - intro H'. apply N5. unfold r5, r6. apply in_or_app. right. now right. }
  tokint_rewrite TI_s. destruct (uint8_ok (k_second k)) eqn:Osc; [|refuse Osc].
  cbn [andb]. eexists. split; [reflexivity|intros _; reflexivity].
Qed.

Lemma range_numbers k : (exists s, clock_text s k) -> clock_range k -> clock_numbers k.
Proof.
  intros (s & Y & M & D & h & mi & sc & sg & z & vz & E & HY & HM & HD & Hh & Hmi & Hsc & Hz & Hsg) H.
  apply digits_nonneg in HY, HM, HD, Hh, Hmi, Hsc. unfold clock_numbers, clock_range, int32_range in *. lia.
Qed.
Lemma time_gen bits lib m o (raw : str) more body q1 q2 s k : 32 <= bits -> lib_ok lib -> m [req_cclk] = Answered (raw :: more) ->
  response_line raw body -> without space_char body (q1 ++ s ++ q2) -> (q1 = [] \/ q1 = [34%N]) -> (q2 = [] \/ q2 = [34%N]) ->
  clock_text s k -> clock_numbers k ->
  exists t, GetNetworkTime bits lib m (Some o) = Ok {| sent := [req_cclk]; ret := if fits k then C_SUCCESS else C_INTERNAL_FAILURE; out := Some t |} /\
    (fits k = true -> t = ctime_of k).
Proof.
  intros Hb HL HM HR HW Q1 Q2 HC Hrange. unfold GetNetworkTime. rewrite HL. unfold finish, request. cbn [app].
  change {| rq_cmd := s2b "AT+CCLK?"; rq_type := T_WITH_PREFIX; rq_prefix := Some (s2b "+CCLK") |} with req_cclk. rewrite HM.
  unfold RecvFuncGetNetworkTime, cb_first. rewrite (rp_ok _ _ HR). cbv beta iota.
  destruct (body_facts _ _ HR) as [Hn Hl].
  assert (Sub : forall a b, without space_char a b -> (length b <= length a)%nat /\ forall c, In c b -> In c a).
  { induction 1 as [|c a b Hs W [I1 I2]|c a b Hs W [I1 I2]]; split; cbn [length]; try lia; intros x Hx; [destruct Hx|right; auto|].
    destruct Hx as [->|Hx]; [now left|right; auto]. }
  destruct (Sub _ _ HW) as [SL SI].
  assert (NN : no_nul s) by (intro H; apply Hn; apply SI; apply in_or_app; right; apply in_or_app; now left).
  assert (LS : (length s <= 256)%nat) by (rewrite !app_length in SL; lia).
  unfold ATRemoveAllWhiteSpaces. rewrite valid_of; [|intro Eb; subst body; apply without_nil_inv in HW|lia].
  2:{ apply app_eq_nil in HW. destruct HW as [_ HW]. apply app_eq_nil in HW. destruct HW as [-> _].
      destruct HC as (Y & ? & ? & ? & ? & ? & ? & ? & ? & E & _). destruct Y; discriminate. }
  rewrite (ws_filter _ _ HW). assert (LQ : (length (q1 ++ s ++ q2) <= 256)%nat) by lia.
  destruct (parse_clock bits s k Hb HC Hrange LS NN q1 q2 Q1 Q2 LQ) as (t & P & Pt). cbv beta iota.
  match goal with |- context [parseTimeZoneInfo ?b ?x] => replace (parseTimeZoneInfo b x) with (if fits k then PKT_OK else PKT_FAILURE, t) by (symmetry; exact P) end.
  exists t. split; [|exact Pt]. destruct (fits k); reflexivity.
Qed.
Lemma fits_range s k : clock_text s k -> clock_numbers k -> (fits k = true <-> clock_range k).
Proof.
  intros (Y & M & D & h & mi & sc & sg & z & vz & E & HY & HM & HD & Hh & Hmi & Hsc & Hz & Hsg).
  apply digits_nonneg in HY, HM, HD, Hh, Hmi, Hsc. clear Hsg Hz E.
  unfold fits, clock_numbers, clock_range, uint16_ok, uint8_ok, int32_range. intro H. lia.
Qed.
Lemma time_good bits lib m o (raw : str) more body q1 q2 s k : 32 <= bits -> lib_ok lib -> m [req_cclk] = Answered (raw :: more) ->
  response_line raw body -> without space_char body (q1 ++ s ++ q2) -> (q1 = [] \/ q1 = [34%N]) -> (q2 = [] \/ q2 = [34%N]) ->
  clock_text s k -> clock_range k ->
  GetNetworkTime bits lib m (Some o) = Ok {| sent := [req_cclk]; ret := C_SUCCESS; out := Some (ctime_of k) |}.
Proof.
  intros Hb HL HM HR HW Q1 Q2 HC HG. assert (HN : clock_numbers k) by (apply range_numbers; [exists s; exact HC|exact HG]).
  destruct (time_gen bits lib m o raw more body q1 q2 s k Hb HL HM HR HW Q1 Q2 HC HN) as (t & E & T).
  apply (fits_range s k HC HN) in HG. rewrite HG in E, T. rewrite (T eq_refl) in E. exact E.
Qed.
Lemma time_bad bits lib m o (raw : str) more body q1 q2 s k : 32 <= bits -> lib_ok lib -> m [req_cclk] = Answered (raw :: more) ->
  response_line raw body -> without space_char body (q1 ++ s ++ q2) -> (q1 = [] \/ q1 = [34%N]) -> (q2 = [] \/ q2 = [34%N]) ->
  clock_text s k -> clock_numbers k -> ~ clock_range k ->
  exists t, GetNetworkTime bits lib m (Some o) = Ok {| sent := [req_cclk]; ret := C_INTERNAL_FAILURE; out := Some t |}.
Proof.
  intros Hb HL HM HR HW Q1 Q2 HC HN HG.
  destruct (time_gen bits lib m o raw more body q1 q2 s k Hb HL HM HR HW Q1 Q2 HC HN) as (t & E & _).
  exists t. destruct (fits k) eqn:F; [|exact E]. exfalso. apply HG. now apply (fits_range s k HC HN).
Qed.


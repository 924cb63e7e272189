(** Proofs about operator, service status and eDRX parsing of the 3GPP API layer. *)
From Coq Require Import String List NArith ZArith Bool Lia Arith ZifyBool ZifyN ZifyNat.
From Verif Require Import Bytes AtCore AtMem SpecAt AtProofs AtProofs2 AtProofs3 Status Pktio SendCmd Socket RegStatus SpecReg RegProofs SpecG3pp G3pp SpecG3ppApi G3ppProofs G3ppCmds G3ppIdent.
Import ListNotations.
Local Open Scope Z_scope.
Local Arguments Nat.sub : simpl never.

(** front end of the parsers dropping quotes and white space after the prefix *)
Lemma qs_front raw body fields : response_line raw body -> has_fields quote_or_space body fields -> fields <> [] -> last fields [0%N] <> [] ->
  exists s1, ATRemovePrefix (Some raw) = (AT_SUCCESS, Some body) /\ ATRemoveAllDoubleQuote (Some body) = (AT_SUCCESS, Some s1) /\
    ATRemoveAllWhiteSpaces (Some s1) = (AT_SUCCESS, Some (join 44%N fields)) /\
    no_nul (join 44 fields) /\ (length (join 44 fields) <= 256)%nat /\ Forall (fun f => ~ In 44%N f) fields.
Proof.
  intros HR HF Hne Hlast. destruct (body_facts _ _ HR) as [Hn Hl].
  destruct (has_fields_nonul _ _ _ HF Hn) as [Hjn Hjl]. destruct HF as [HW HC].
  assert (E : filter_loop isspace (filter_loop (fun c => (c =? chDQ)%N) body) = join 44 fields).
  { rewrite filter_filter. symmetry. apply (without_filter quote_or_space); [|exact HW]. intro c. unfold quote_or_space, isspace, space_char, chDQ.
    rewrite !orb_true_iff, andb_true_iff. lia. }
  assert (Jne : join 44 fields <> []).
  { destruct fields as [|f [|g fields]]; [contradiction| |].
    - cbn [join]. cbn [last] in Hlast. exact Hlast.
    - cbn [join]. destruct f; discriminate. }
  assert (FL : forall s d, (length (filter_loop d s) <= length s)%nat).
  { induction s as [|c s IH]; intro d; cbn [filter_loop]; [lia|]. destruct (d c); cbn [length]; specialize (IH d); lia. }
  exists (filter_loop (fun c => (c =? chDQ)%N) body). split; [exact (rp_ok _ _ HR)|].
  assert (Bne : body <> []) by (intro; subst body; cbn in E; congruence).
  split; [unfold ATRemoveAllDoubleQuote; rewrite valid_of by (try assumption; lia); reflexivity|].
  split; [|split; [exact Hjn|split; [lia|exact HC]]].
  unfold ATRemoveAllWhiteSpaces. rewrite valid_of; [rewrite E; reflexivity| |].
  - intro Q. rewrite Q in E. cbn in E. congruence.
  - specialize (FL body (fun c => (c =? chDQ)%N)). lia.
Qed.

(** ** Operator *)
Lemma small_range max f v : small_numeral max f v -> max <= 255 -> int32_range v.
Proof. intros [_ H] Hm. unfold int32_range. lia. Qed.
Lemma cops_number_ok bits f v max set o : 32 <= bits -> small_numeral max f v -> max <= 255 -> parseCopsNumber bits f max set o = (true, set v).
Proof.
  intros Hb Hs Hm. pose proof (small_range _ _ _ Hs Hm) as Hr. destruct Hs as [Hs Hv].
  pose proof (get_int_ok bits f 10 (fun _ => true) v Hb Hs Hr) as G. unfold get_int, ATStrtoi in G. unfold parseCopsNumber, ATStrtoi.
  destruct (strtol bits f 10) as [x|]; [|discriminate]. injection G as ->.
  replace ((0 <=? v) && (v <? max)) with true by lia. reflexivity.
Qed.
Lemma cops_number_bad bits f max set o : 32 <= bits -> big_numeral max f -> parseCopsNumber bits f max set o = (false, o).
Proof.
  intros Hb (v & Hs & Hr & Hv).
  pose proof (get_int_ok bits f 10 (fun _ => true) v Hb Hs Hr) as G. unfold get_int, ATStrtoi in G. unfold parseCopsNumber, ATStrtoi.
  destruct (strtol bits f 10) as [x|]; [|discriminate]. injection G as ->.
  replace ((0 <=? v) && (v <? max)) with false by lia. reflexivity.
Qed.

Lemma cops_plmn o (p : str) : o_fmt o = 2 -> (length p = 5 \/ length p = 6)%nat -> length (o_mcc o) = 4%nat -> o_mnc o = [0; 0; 0; 0]%N ->
  exists a b, parseCopsNetworkNameToken p o = Ok (true, set_plmn o a b) /\ holds a (firstn 3 p) /\ holds b (skipn 3 p) /\ length a = 4%nat /\ length b = 4%nat.
Proof.
  intros Hf Hl La Lb. unfold parseCopsNetworkNameToken. rewrite Hf. cbn [Z.eqb orb].
  replace ((length p =? MCC_MAX_SIZE + MNC_MAX_SIZE)%nat || (length p =? MCC_MAX_SIZE + MNC_MAX_SIZE - 1)%nat) with true
    by (unfold MCC_MAX_SIZE, MNC_MAX_SIZE; lia).
  rewrite Lb. destruct (o_mcc o) as [|x0 [|x1 [|x2 [|x3 [|]]]]]; try discriminate.
  destruct Hl as [Hl|Hl].
  - destruct p as [|p0 [|p1 [|p2 [|p3 [|p4 [|]]]]]]; try discriminate. cbn.
    do 2 eexists. split; [reflexivity|]. split; [exists []; reflexivity|]. split; [exists [0%N]; reflexivity|]. auto.
  - destruct p as [|p0 [|p1 [|p2 [|p3 [|p4 [|p5 [|]]]]]]]; try discriminate. cbn.
    do 2 eexists. split; [reflexivity|]. split; [exists []; reflexivity|]. split; [exists []; reflexivity|]. auto.
Qed.

Lemma small_ne max f v : small_numeral max f v -> f <> [].
Proof. intros [H _]. exact (numeral_nonempty _ _ _ H). Qed.

Lemma cops_good bits raw more body fields mode act p : 32 <= bits -> response_line raw body -> has_fields quote_or_space body fields ->
  cops_fields fields mode act p ->
  exists a b, RecvFuncUpdateMccMnc bits (raw :: more) op_info0 =
    Ok (PKT_OK, {| o_mcc := a; o_mnc := b; o_rat := act; o_mode := mode; o_fmt := 2; o_name := o_name op_info0 |}) /\
    holds a (firstn 3 p) /\ holds b (skipn 3 p) /\ length a = 4%nat /\ length b = 4%nat.
Proof.
  intros Hb HR HF (fm & f2 & fa & -> & H1 & H2 & H4 & Hp).
  assert (Pne : p <> []) by (destruct p; [cbn in Hp; lia|discriminate]).
  destruct (qs_front _ _ _ HR HF ltac:(discriminate)) as (s1 & E1 & E2 & E3 & Nj & Lj & HC); [cbn [last]; exact (small_ne _ _ _ H4)|].
  destruct (cops_plmn (set_ofmt (set_omode op_info0 mode) 2) p eq_refl Hp eq_refl eq_refl) as (a & b & Ep & Ka & Kb & La & Lb).
  exists a, b. split; [|auto]. unfold RecvFuncUpdateMccMnc, cb_first. rewrite E1, E2, E3. cbv beta iota.
  unfold parseCops.
  destruct (next_field _ _ _ HC Nj Lj) as (F1 & Nj1 & Lj1). tok_rewrite F1. rewrite (cops_number_ok bits fm mode) by (try assumption; unfold REG_MODE_MAX; lia). cbv beta iota.
  inversion HC as [|? ? _ HC1]; subst.
  destruct (next_field _ _ _ HC1 Nj1 Lj1) as (F2 & Nj2 & Lj2). tok_rewrite F2. rewrite (cops_number_ok bits f2 2) by (try assumption; unfold NAME_FORMAT_MAX; lia). cbv beta iota.
  inversion HC1 as [|? ? _ HC2]; subst.
  destruct (next_field _ _ _ HC2 Nj2 Lj2) as (F3 & Nj3 & Lj3). tok_rewrite F3.
  match goal with |- context [parseCopsNetworkNameToken ?x ?y] => replace (parseCopsNetworkNameToken x y) with (Ok (true, set_plmn (set_ofmt (set_omode op_info0 mode) 2) a b)) by (symmetry; exact Ep) end.
  cbn [bind].
  inversion HC2 as [|? ? _ HC3]; subst.
  pose proof (last_field fa ltac:(inversion HC3; assumption) (small_ne _ _ _ H4) Lj3) as F4. tok_rewrite F4.
  rewrite (cops_number_ok bits fa act) by (try assumption; unfold RATN_MAX; lia). reflexivity.
Qed.

Lemma cops_name_bad o w p : o_fmt o = w -> (w = 2%Z /\ length p <> 5%nat /\ length p <> 6%nat \/ (3 <= w)%Z) -> parseCopsNetworkNameToken p o = Ok (false, o).
Proof.
  intros E H. unfold parseCopsNetworkNameToken. rewrite E. clear E. replace ((w =? 0) || (w =? 1))%bool with false by lia.
  destruct H as [(-> & N5 & N6)|H]; [|replace (w =? 2) with false by lia; reflexivity].
  replace (2 =? 2) with true by reflexivity. cbv zeta.
  replace ((length p =? MCC_MAX_SIZE + MNC_MAX_SIZE)%nat || (length p =? MCC_MAX_SIZE + MNC_MAX_SIZE - 1)%nat)%bool with false; [reflexivity|].
  unfold MCC_MAX_SIZE, MNC_MAX_SIZE. lia.
Qed.
Lemma big_ne max f : big_numeral max f -> f <> [].
Proof. intros (v & Hs & _). exact (numeral_nonempty _ _ _ Hs). Qed.
Lemma cops_bad bits raw more body fields : 32 <= bits -> response_line raw body -> has_fields quote_or_space body fields ->
  last fields [0%N] <> [] -> cops_out_of_range fields ->
  exists o, RecvFuncUpdateMccMnc bits (raw :: more) op_info0 = Ok (PKT_FAILURE, o).
Proof.
  intros Hb HR HF Hlast H.
  assert (Hne : fields <> []) by (destruct H; discriminate).
  destruct (qs_front _ _ _ HR HF Hne Hlast) as (s1 & E1 & E2 & E3 & Nj & Lj & HC).
  unfold RecvFuncUpdateMccMnc, cb_first. rewrite E1, E2, E3. cbv beta iota. unfold parseCops.
  destruct H as [f r B|f v f2 r H1 B|f v f2 w p r H1 H2 Hp|f v f2 p fa r H1 H2 Hp B].
  - destruct (head_field _ _ HC (big_ne _ _ B) Nj Lj) as (rest & F1). tok_rewrite F1. rewrite (cops_number_bad bits f) by assumption. cbn. eauto.
  - destruct (next_field _ _ _ HC Nj Lj) as (F1 & Nj1 & Lj1). tok_rewrite F1. rewrite (cops_number_ok bits f v) by (try assumption; unfold REG_MODE_MAX; lia). cbv beta iota.
    inversion HC as [|? ? _ HC1]; subst.
    destruct (head_field _ _ HC1 (big_ne _ _ B) Nj1 Lj1) as (rest & F2). tok_rewrite F2. rewrite (cops_number_bad bits f2) by assumption. cbn. eauto.
  - destruct (next_field _ _ _ HC Nj Lj) as (F1 & Nj1 & Lj1). tok_rewrite F1. rewrite (cops_number_ok bits f v) by (try assumption; unfold REG_MODE_MAX; lia). cbv beta iota.
    inversion HC as [|? ? _ HC1]; subst.
    destruct (next_field _ _ _ HC1 Nj1 Lj1) as (F2 & Nj2 & Lj2). tok_rewrite F2. rewrite (cops_number_ok bits f2 w) by (try assumption; unfold NAME_FORMAT_MAX; lia). cbv beta iota.
    inversion HC1 as [|? ? _ HC2]; subst.
    assert (F3 : exists s, ATGetNextTok (Some (join 44%N (p :: r))) = (AT_SUCCESS, s, Some p)).
    { destruct r as [|q r]; [|destruct (next_field _ _ _ HC2 Nj2 Lj2) as (F3 & _); eauto].
      pose proof (last_field p ltac:(inversion HC2; assumption) Hlast Lj2) as F3. eauto. }
    destruct F3 as (s3 & F3). tok_rewrite F3.
    match goal with |- context [parseCopsNetworkNameToken ?x ?y] => replace (parseCopsNetworkNameToken x y) with (Ok (false, y)) by (symmetry; apply (cops_name_bad y w); [reflexivity|exact Hp]) end.
    cbn. eauto.
  - destruct (cops_plmn (set_ofmt (set_omode op_info0 v) 2) p eq_refl Hp eq_refl eq_refl) as (a & b & Ep & Ka & Kb & La & Lb).
    destruct (next_field _ _ _ HC Nj Lj) as (F1 & Nj1 & Lj1). tok_rewrite F1. rewrite (cops_number_ok bits f v) by (try assumption; unfold REG_MODE_MAX; lia). cbv beta iota.
    inversion HC as [|? ? _ HC1]; subst.
    destruct (next_field _ _ _ HC1 Nj1 Lj1) as (F2 & Nj2 & Lj2). tok_rewrite F2. rewrite (cops_number_ok bits f2 2) by (try assumption; unfold NAME_FORMAT_MAX; lia). cbv beta iota.
    inversion HC1 as [|? ? _ HC2]; subst.
    destruct (next_field _ _ _ HC2 Nj2 Lj2) as (F3 & Nj3 & Lj3). tok_rewrite F3.
    match goal with |- context [parseCopsNetworkNameToken ?x ?y] => replace (parseCopsNetworkNameToken x y) with (Ok (true, set_plmn (set_ofmt (set_omode op_info0 v) 2) a b)) by (symmetry; exact Ep) end.
    cbn [bind].
    inversion HC2 as [|? ? _ HC3]; subst.
    destruct (head_field _ _ HC3 (big_ne _ _ B) Nj3 Lj3) as (rest & F4). tok_rewrite F4. rewrite (cops_number_bad bits fa) by assumption. cbn. eauto.
Qed.


Lemma update_good bits m h x raw more body fields mode act p : 32 <= bits -> m (h ++ [req_cops32]) = Answered x ->
  m (h ++ [req_cops32; req_cops]) = Answered (raw :: more) ->
  response_line raw body -> has_fields quote_or_space body fields -> cops_fields fields mode act p ->
  exists a b, UpdateMccMnc bits m h op_info0 =
    Ok (PKT_OK, {| o_mcc := a; o_mnc := b; o_rat := act; o_mode := mode; o_fmt := 2; o_name := o_name op_info0 |}, h ++ [req_cops32; req_cops]) /\
    holds a (firstn 3 p) /\ holds b (skipn 3 p) /\ length a = 4%nat /\ length b = 4%nat.
Proof.
  intros Hb M1 M2 HR HF HC. destruct (cops_good bits raw more body fields mode act p Hb HR HF HC) as (a & b & E & K).
  exists a, b. split; [|exact K]. unfold UpdateMccMnc, request. change (plain "AT+COPS=3,2" T_NO_RESULT) with req_cops32. rewrite M1.
  cbn [no_callback bind]. unfold no_callback. cbn [bind].
  change {| rq_cmd := s2b "AT+COPS?"; rq_type := T_WITH_PREFIX; rq_prefix := Some (s2b "+COPS") |} with req_cops.
  rewrite <- app_assoc. cbn [app]. rewrite M2.
  match goal with |- context [RecvFuncUpdateMccMnc ?u ?v ?w] => match type of E with _ = ?r => replace (RecvFuncUpdateMccMnc u v w) with r by (symmetry; exact E) end end.
  reflexivity.
Qed.

Lemma holds3 a (s : str) : holds a s -> length a = 4%nat -> (length s <= 3)%nat -> firstn 3 a ++ [0%N] = a \/ (length s < 3)%nat.
Proof.
  intros (rest & ->) L Hs. rewrite app_length in L. cbn [length] in L. destruct (Nat.eq_dec (length s) 3) as [E|]; [|lia].
  left. destruct rest; [|cbn in L; lia]. rewrite firstn_app, firstn_all2 by lia. replace (3 - length s)%nat with 0%nat by lia. cbn. now rewrite app_nil_r.
Qed.
Lemma holds_copy a (s : str) : holds a s -> length a = 4%nat -> no_nul s -> holds (firstn 3 a ++ [0%N]) s.
Proof.
  intros (rest & ->) L Hn. rewrite app_length in L. cbn [length] in L.
  assert (C : (length s = 3 \/ length s < 3)%nat) by lia. destruct C as [C|C].
  - rewrite firstn_app, firstn_all2 by lia. replace (3 - length s)%nat with 0%nat by lia. cbn [firstn app]. rewrite app_nil_r. exists []. reflexivity.
  - rewrite firstn_app, firstn_all2 by lia. destruct (3 - length s)%nat as [|k] eqn:E; [lia|]. cbn [firstn]. rewrite <- app_assoc. cbn [app].
    eexists. reflexivity.
Qed.

Lemma network_good bits lib m pl x raw more body fields mode act p : 32 <= bits -> lib_ok lib ->
  length (p_mcc pl) = 4%nat -> length (p_mnc pl) = 4%nat ->
  m [req_cops32] = Answered x -> m [req_cops32; req_cops] = Answered (raw :: more) ->
  response_line raw body -> has_fields quote_or_space body fields -> cops_fields fields mode act p ->
  exists r, GetRegisteredNetwork bits lib m true (Some pl) = Ok {| sent := [req_cops32; req_cops]; ret := C_SUCCESS; out := Some r |} /\
    holds (p_mcc r) (firstn 3 p) /\ holds (p_mnc r) (skipn 3 p).
Proof.
  intros Hb HL L1 L2 M1 M2 HR HF HC. unfold GetRegisteredNetwork. rewrite HL.
  destruct (update_good bits m [] x raw more body fields mode act p Hb M1 M2 HR HF HC) as (a & b & E & K1 & K2 & La & Lb).
  cbn [app] in E. rewrite E. cbn [bind TranslatePktStatus o_rat o_mcc o_mnc].
  assert (Hact : 0 <= act < 10) by (destruct HC as (? & ? & ? & _ & _ & _ & [_ H] & _); exact H).
  unfold RATN_INVALID. replace (act =? 255) with false by lia.
  assert (Np : no_nul p).
  { destruct (body_facts _ _ HR) as [Hn _]. destruct (has_fields_nonul _ _ _ HF Hn) as [Nj _].
    destruct HC as (fm & f2 & fa & -> & _). intro H0. apply Nj. apply (join_in 44%N [fm; f2; p; fa] p); [right; right; now left|exact H0]. }
  assert (Nf : no_nul (firstn 3 p) /\ no_nul (skipn 3 p)).
  { split; intro H0; apply Np; rewrite <- (firstn_skipn 3 p); apply in_or_app; tauto. }
  destruct (p_mcc pl) as [|x0 [|x1 [|x2 [|x3 [|]]]]]; try discriminate.
  destruct (p_mnc pl) as [|y0 [|y1 [|y2 [|y3 [|]]]]]; try discriminate.
  pose proof (holds_copy a _ K1 La (proj1 Nf)) as C1. pose proof (holds_copy b _ K2 Lb (proj2 Nf)) as C2.
  destruct a as [|a0 [|a1 [|a2 [|a3 [|]]]]]; try discriminate.
  destruct b as [|b0 [|b1 [|b2 [|b3 [|]]]]]; try discriminate.
  cbn. eexists. split; [reflexivity|]. cbn [p_mcc p_mnc]. split; [exact C1|exact C2].
Qed.
Lemma network_bad bits lib m pl x raw more body fields : 32 <= bits -> lib_ok lib ->
  m [req_cops32] = Answered x -> m [req_cops32; req_cops] = Answered (raw :: more) ->
  response_line raw body -> has_fields quote_or_space body fields -> last fields [0%N] <> [] -> cops_out_of_range fields ->
  GetRegisteredNetwork bits lib m true (Some pl) = Ok {| sent := [req_cops32; req_cops]; ret := C_INTERNAL_FAILURE; out := Some pl |}.
Proof.
  intros Hb HL M1 M2 HR HF Hlast HC. unfold GetRegisteredNetwork. rewrite HL.
  destruct (cops_bad bits raw more body fields Hb HR HF Hlast HC) as (o & E).
  unfold UpdateMccMnc, request. change (plain "AT+COPS=3,2" T_NO_RESULT) with req_cops32. cbn [app]. rewrite M1. unfold no_callback. cbn [bind].
  change {| rq_cmd := s2b "AT+COPS?"; rq_type := T_WITH_PREFIX; rq_prefix := Some (s2b "+COPS") |} with req_cops. cbn [app]. rewrite M2.
  match goal with |- context [RecvFuncUpdateMccMnc ?u ?v ?w] => match type of E with _ = ?r => replace (RecvFuncUpdateMccMnc u v w) with r by (symmetry; exact E) end end.
  reflexivity.
Qed.

(** ** Memory safety for every response *)
Definition op_sized (o : op_info) : Prop :=
  length (o_mcc o) = 4%nat /\ length (o_mnc o) = 4%nat /\ length (o_name o) = 33%nat /\ nth 32 (o_name o) 1%N = 0%N.
Lemma upd_length i v (l : list N) : length (upd l i v) = length l.
Proof. revert i. induction l as [|x l IH]; intros [|i]; cbn [upd length]; auto. Qed.
Lemma st_total l i v : (i < length l)%nat -> exists l', st l i v = Ok l' /\ length l' = length l.
Proof. intro H. unfold st. replace (i <? length l)%nat with true by lia. eexists. split; [reflexivity|]. apply upd_length. Qed.
Lemma strncpy_total buf t n : (n <= length buf)%nat -> exists b, strncpy_m buf t n = Ok b /\ length b = length buf /\ skipn n b = skipn n buf.
Proof.
  intro H. rewrite strncpy_ok by exact H. eexists. split; [reflexivity|].
  assert (L : length (firstn n t ++ repeat 0%N (n - length t)) = n) by (rewrite app_length, firstn_length, repeat_length; lia).
  rewrite app_assoc. split.
  - rewrite app_length, L, skipn_length. lia.
  - rewrite skipn_app, skipn_all2 by lia. rewrite L, Nat.sub_diag. reflexivity.
Qed.
Lemma nth_skipn (l : list N) n d : nth n l d = hd d (skipn n l).
Proof. revert l. induction n as [|n IH]; intros [|x l]; cbn; auto. Qed.

Lemma cops_name_total o t : op_sized o -> exists ok o', parseCopsNetworkNameToken t o = Ok (ok, o') /\ op_sized o'.
Proof.
  intros Hsz. pose proof Hsz as (H1 & H2 & H3 & H4). unfold parseCopsNetworkNameToken.
  destruct ((o_fmt o =? 0) || (o_fmt o =? 1)).
  - destruct (strncpy_total (o_name o) t NETWORK_NAME_MAX_SIZE) as (b & -> & Lb & Kb); [unfold NETWORK_NAME_MAX_SIZE; lia|]. cbn [bind].
    do 2 eexists. split; [reflexivity|]. split; [exact H1|]. split; [exact H2|]. cbn [o_name set_oname]. split; [lia|].
    rewrite nth_skipn. unfold NETWORK_NAME_MAX_SIZE in Kb. rewrite Kb, <- nth_skipn. exact H4.
  - destruct (o_fmt o =? 2); [|eauto].
    destruct ((length t =? MCC_MAX_SIZE + MNC_MAX_SIZE)%nat || (length t =? MCC_MAX_SIZE + MNC_MAX_SIZE - 1)%nat) eqn:EL; [|eauto].
    unfold MCC_MAX_SIZE, MNC_MAX_SIZE in *.
    destruct (strncpy_total (o_mcc o) t 3) as (a & -> & La & _); [lia|]. cbn [bind].
    destruct (st_total a 3 0%N) as (a' & -> & La'); [lia|]. cbn [bind].
    destruct (strncpy_total (o_mnc o) (skipn 3 t) (length t - 3 + 1)) as (b & -> & Lb & _); [lia|]. cbn [bind].
    destruct (st_total b 3 0%N) as (b' & -> & Lb'); [lia|]. cbn [bind].
    do 2 eexists. split; [reflexivity|]. repeat split; cbn [o_mcc o_mnc o_name set_plmn]; lia || assumption.
Qed.
Lemma cops_number_sized bits t max o (set : Z -> op_info) : op_sized o -> (forall v, op_sized (set v)) ->
  exists ok o', parseCopsNumber bits t max set o = (ok, o') /\ op_sized o'.
Proof.
  intros H1 H2. unfold parseCopsNumber. destruct (ATStrtoi bits (Some t) 10 (Some 0)) as [e [v|]]; destruct e; try (do 2 eexists; split; [reflexivity|assumption]).
  destruct ((0 <=? v) && (v <? max)); do 2 eexists; (split; [reflexivity|]); auto.
Qed.
Lemma parse_cops_total bits s o : op_sized o -> exists e o', parseCops bits s o = Ok (e, o') /\ op_sized o'.
Proof.
  intros Ho. unfold parseCops.
  destruct (ATGetNextTok s) as [[e s1] [t1|]]; destruct e; try (do 2 eexists; split; [reflexivity|assumption]).
  destruct (cops_number_sized bits t1 REG_MODE_MAX o (set_omode o) Ho (fun _ => Ho)) as (ok1 & o1 & -> & H1).
  destruct ok1; [|do 2 eexists; split; [reflexivity|assumption]].
  destruct (ATGetNextTok s1) as [[e s2] [t2|]]; destruct e; try (do 2 eexists; split; [reflexivity|assumption]).
  destruct (cops_number_sized bits t2 NAME_FORMAT_MAX o1 (set_ofmt o1) H1 (fun _ => H1)) as (ok2 & o2 & -> & H2).
  destruct ok2; [|do 2 eexists; split; [reflexivity|assumption]].
  destruct (ATGetNextTok s2) as [[e s3] [t3|]]; destruct e; try (do 2 eexists; split; [reflexivity|assumption]).
  destruct (cops_name_total o2 t3 H2) as (ok3 & o3 & -> & H3). cbn [bind].
  destruct ok3; [|do 2 eexists; split; [reflexivity|assumption]].
  destruct (ATGetNextTok s3) as [[e s4] [t4|]]; destruct e; try (do 2 eexists; split; [reflexivity|assumption]).
  destruct (cops_number_sized bits t4 RATN_MAX o3 (set_orat o3) H3 (fun _ => H3)) as (ok4 & o4 & -> & H4). eauto.
Qed.
Lemma cops_cb_total bits ls o : op_sized o -> exists st o', RecvFuncUpdateMccMnc bits ls o = Ok (st, o') /\ op_sized o'.
Proof.
  intro Ho. unfold RecvFuncUpdateMccMnc, cb_first. destruct ls as [|l ls]; [do 2 eexists; split; [reflexivity|assumption]|].
  destruct (ATRemovePrefix (Some l)) as [e s1]; destruct e; cbn [bind]; try (do 2 eexists; split; [reflexivity|assumption]).
  destruct (ATRemoveAllDoubleQuote s1) as [e s2]; destruct e; cbn [bind]; try (do 2 eexists; split; [reflexivity|assumption]).
  destruct (ATRemoveAllWhiteSpaces s2) as [e s3]; destruct e; cbn [bind]; try (do 2 eexists; split; [reflexivity|assumption]).
  destruct (parse_cops_total bits s3 o Ho) as (e & o' & -> & H). cbn [bind]. do 2 eexists. split; [reflexivity|assumption].
Qed.
Lemma update_total bits m h o : op_sized o -> exists st o' h', UpdateMccMnc bits m h o = Ok (st, o', h') /\ op_sized o'.
Proof.
  intro Ho. unfold UpdateMccMnc, request. destruct (m (h ++ [plain "AT+COPS=3,2" T_NO_RESULT])) as [t| |x]; unfold no_callback; cbn [bind].
  - destruct t; do 3 eexists; (split; [reflexivity|assumption]).
  - do 3 eexists; (split; [reflexivity|assumption]).
  - match goal with |- context [m ?z] => destruct (m z) as [t| |ls] end; cbn [bind].
    + destruct t; do 3 eexists; (split; [reflexivity|assumption]).
    + do 3 eexists; (split; [reflexivity|assumption]).
    + destruct (cops_cb_total bits ls o Ho) as (st & o' & -> & H). cbn [bind]. do 3 eexists. split; [reflexivity|exact H].
Qed.
Lemma op_info0_sized : op_sized op_info0.
Proof. repeat split. Qed.
Lemma rd_total l p n : (p + n <= length l)%nat -> exists b, rd l p n = Ok b /\ length b = n.
Proof.
  intro H. unfold rd. replace (p + n <=? length l)%nat with true by lia. eexists. split; [reflexivity|].
  rewrite firstn_length, skipn_length. lia.
Qed.
Lemma wr_total l p b : (p + length b <= length l)%nat -> exists l', wr l p b = Ok l' /\ length l' = length l.
Proof.
  intro H. unfold wr. replace (p + length b <=? length l)%nat with true by lia. eexists. split; [reflexivity|].
  rewrite !app_length, firstn_length, skipn_length. lia.
Qed.
Lemma network_total bits lib m mem pl : length (p_mcc pl) = 4%nat -> length (p_mnc pl) = 4%nat ->
  exists r, GetRegisteredNetwork bits lib m mem (Some pl) = Ok r.
Proof.
  intros L1 L2. unfold GetRegisteredNetwork, rejected. destruct (CheckLibraryStatus lib); eauto. destruct mem; eauto.
  destruct (update_total bits m [] op_info0 op_info0_sized) as (st & o & h & -> & H1 & H2 & _). cbn [bind].
  destruct (TranslatePktStatus st); eauto. destruct (o_rat o =? RATN_INVALID); eauto. unfold MCC_MAX_SIZE, MNC_MAX_SIZE.
  destruct (rd_total (o_mcc o) 0 3) as (a & -> & La); [lia|]. cbn [bind].
  destruct (wr_total (p_mcc pl) 0 a) as (a1 & -> & La1); [lia|]. cbn [bind].
  destruct (st_total a1 3 0%N) as (a2 & -> & La2); [lia|]. cbn [bind].
  destruct (rd_total (o_mnc o) 0 3) as (b & -> & Lb); [lia|]. cbn [bind].
  destruct (wr_total (p_mnc pl) 0 b) as (b1 & -> & Lb1); [lia|]. cbn [bind].
  destruct (st_total b1 3 0%N) as (b2 & -> & Lb2); [lia|]. cbn [bind]. eauto.
Qed.

(** ** eDRX *)
Lemma Forall2_len {A B} (P : A -> B -> Prop) l l' : Forall2 P l l' -> length l = length l'.
Proof. induction 1; cbn [length]; congruence. Qed.
Lemma set_entry_app l x t f : set_entry (l ++ x :: t) (length l) f = Ok (l ++ f x :: t).
Proof. induction l as [|y l IH]; [reflexivity|]. cbn [app set_entry length]. rewrite IH. reflexivity. Qed.
Lemma set_entry_end l f : set_entry l (length l) f = UB.
Proof. induction l as [|y l IH]; [reflexivity|]. cbn [set_entry length]. rewrite IH. reflexivity. Qed.
Lemma set_entry_total l i f : (i < length l)%nat -> exists l', set_entry l i f = Ok l' /\ length l' = length l.
Proof.
  revert i. induction l as [|y l IH]; intros [|i] H; cbn [length] in *; try lia; cbn [set_entry].
  - eexists. split; reflexivity.
  - destruct (IH i ltac:(lia)) as (l' & -> & L). cbn [bind]. eexists. split; [reflexivity|]. cbn [length]. lia.
Qed.

Lemma edrx_not_empty raw e : edrx_line raw e -> str_eqb (s2b "+CEDRXS: 0") raw || str_eqb (s2b "+CEDRXS:") raw = false.
Proof.
  intros (body & fr & fv & (p & E & _) & (HW & HC) & _).
  assert (In 44%N body).
  { assert (K : forall a b, without is_quote a b -> forall c, In c b -> In c a).
    { induction 1 as [|c a b Hs W IH|c a b Hs W IH]; intros x Hx; [exact Hx|right; auto|]. destruct Hx as [->|Hx]; [now left|right; auto]. }
    apply (K _ _ HW). cbn [join]. apply in_or_app. right. now left. }
  assert (In 44%N raw) by (rewrite E; apply in_or_app; right; now right).
  apply orb_false_iff. split; match goal with |- str_eqb ?x raw = false => destruct (str_eqb x raw) eqn:Q; [|reflexivity] end;
    apply str_eqb_eq in Q; rewrite <- Q in *; cbn in *; exfalso;
    repeat match goal with H : _ \/ _ |- _ => destruct H as [H|H]; try discriminate H end; contradiction.
Qed.
Lemma edrx_parse_line bits raw e (l t : list (Z * Z)) x : 32 <= bits -> edrx_line raw e ->
  parseEidrxLine bits raw (N.of_nat (length l)) (l ++ x :: t) = Ok (AT_SUCCESS, l ++ e :: t).
Proof.
  intros Hb (body & fr & fv & HR & HF & H1 & H2 & R1 & R2).
  assert (V : fv <> []) by exact (numeral_nonempty _ _ _ H2).
  destruct (dq_front _ _ _ HR HF ltac:(discriminate) V) as (E1 & E2 & rest & tok & E3 & E4).
  unfold parseEidrxLine. rewrite E1, E2. cbv beta iota. tok_rewrite E3.
  match goal with |- context [eidrx_loop bits ?z] => replace z with [fr; fv] by (symmetry; exact E4) end.
  cbn [eidrx_loop]. unfold parseEidrxToken at 1. cbn [N.eqb]. rewrite (get_int_ok bits fr 10 uint8_ok (fst e) Hb H1) by (unfold int32_range; lia).
  unfold uint8_ok at 1. replace ((0 <=? fst e) && (fst e <=? 255)) with true by lia. rewrite Nat2N.id, set_entry_app. cbn [bind snd].
  change ((0 + 1) mod 256)%N with 1%N. unfold parseEidrxToken at 1. cbn [N.eqb Pos.eqb]. rewrite (get_int_ok bits fv 2 uint8_ok (snd e) Hb H2) by (unfold int32_range; lia).
  unfold uint8_ok at 1. replace ((0 <=? snd e) && (snd e <=? 255)) with true by lia. rewrite Nat2N.id, set_entry_app. cbn [bind snd fst].
  destruct e. reflexivity.
Qed.
Lemma edrx_parse_over bits raw e (l : list (Z * Z)) : 32 <= bits -> edrx_line raw e -> parseEidrxLine bits raw (N.of_nat (length l)) l = UB.
Proof.
  intros Hb (body & fr & fv & HR & HF & H1 & H2 & R1 & R2).
  assert (V : fv <> []) by exact (numeral_nonempty _ _ _ H2).
  destruct (dq_front _ _ _ HR HF ltac:(discriminate) V) as (E1 & E2 & rest & tok & E3 & E4).
  unfold parseEidrxLine. rewrite E1, E2. cbv beta iota. tok_rewrite E3.
  match goal with |- context [eidrx_loop bits ?z] => replace z with [fr; fv] by (symmetry; exact E4) end.
  cbn [eidrx_loop]. unfold parseEidrxToken at 1. cbn [N.eqb]. rewrite (get_int_ok bits fr 10 uint8_ok (fst e) Hb H1) by (unfold int32_range; lia).
  unfold uint8_ok at 1. replace ((0 <=? fst e) && (fst e <=? 255)) with true by lia. rewrite Nat2N.id, set_entry_end. reflexivity.
Qed.
Lemma edrx_lines_good bits lines entries : 32 <= bits -> Forall2 edrx_line lines entries -> forall l k, (length entries <= k)%nat -> (length l + k < 256)%nat ->
  forall n, eidrx_lines bits lines (N.of_nat (length l)) {| e_list := l ++ repeat (0, 0) k; e_count := n |} =
  Ok (PKT_OK, {| e_list := (l ++ entries) ++ repeat (0, 0) (k - length entries)%nat;
                 e_count := match lines with [] => n | _ => N.of_nat (length l + length entries) end |}).
Proof.
  intros Hb HF. induction HF as [|raw e lines entries He HF IH]; intros l k Hk Hl n.
  - cbn [eidrx_lines length]. rewrite app_nil_r, Nat.sub_0_r. reflexivity.
  - cbn [eidrx_lines length] in *. rewrite (edrx_not_empty _ _ He). destruct k as [|k]; [lia|]. cbn [repeat e_list].
    rewrite (edrx_parse_line bits raw e l (repeat (0, 0) k) (0, 0) Hb He). cbn [bind TranslateAtCoreStatus].
    replace ((N.of_nat (length l) + 1) mod 256)%N with (N.of_nat (length (l ++ [e]))) by (rewrite N.mod_small; rewrite ?app_length; cbn [length]; lia).
    cbv zeta. replace (l ++ e :: repeat (0, 0) k) with ((l ++ [e]) ++ repeat (0, 0) k) by (rewrite <- app_assoc; reflexivity).
    rewrite IH by (rewrite ?app_length; cbn [length]; lia). 
    replace (S k - S (length entries))%nat with (k - length entries)%nat by lia.
    replace ((l ++ [e]) ++ entries) with (l ++ e :: entries) by (rewrite <- app_assoc; reflexivity). do 3 f_equal.
    destruct lines as [|y lines]; [|rewrite app_length; cbn [length]; lia]. inversion HF; subst. rewrite app_length. cbn [length]. lia.
Qed.
Lemma edrx_lines_over bits lines entries : 32 <= bits -> Forall2 edrx_line lines entries -> forall l k, (k < length entries)%nat -> (length l + k < 256)%nat ->
  forall n, eidrx_lines bits lines (N.of_nat (length l)) {| e_list := l ++ repeat (0, 0) k; e_count := n |} = UB.
Proof.
  intros Hb HF. induction HF as [|raw e lines entries He HF IH]; intros l k Hk Hl n; [cbn in Hk; lia|].
  cbn [eidrx_lines length] in *. rewrite (edrx_not_empty _ _ He). destruct k as [|k].
  - cbn [repeat e_list]. rewrite app_nil_r. rewrite (edrx_parse_over bits raw e l Hb He). reflexivity.
  - cbn [repeat e_list]. rewrite (edrx_parse_line bits raw e l (repeat (0, 0) k) (0, 0) Hb He). cbn [bind TranslateAtCoreStatus].
    replace ((N.of_nat (length l) + 1) mod 256)%N with (N.of_nat (length (l ++ [e]))) by (rewrite N.mod_small; rewrite ?app_length; cbn [length]; lia).
    cbv zeta. replace (l ++ e :: repeat (0, 0) k) with ((l ++ [e]) ++ repeat (0, 0) k) by (rewrite <- app_assoc; reflexivity).
    apply IH; rewrite ?app_length; cbn [length]; lia.
Qed.

Lemma edrx_loop_total bits toks : forall idx count l, (N.to_nat count < length l)%nat -> exists l', eidrx_loop bits toks idx count l = Ok l' /\ length l' = length l.
Proof.
  induction toks as [|t toks IH]; intros idx count l H; cbn [eidrx_loop]; [eauto|].
  assert (E : exists e l1, parseEidrxToken bits t idx count l = Ok (e, l1) /\ length l1 = length l).
  { unfold parseEidrxToken. destruct (idx =? 0)%N.
    - destruct (get_int bits t 10 uint8_ok) as [e v]; destruct e; try (do 2 eexists; split; reflexivity).
      destruct (set_entry_total l (N.to_nat count) (fun e => (v, snd e)) H) as (l' & -> & L). cbn [bind]. eauto.
    - destruct (idx =? 1)%N; [|eauto]. destruct (get_int bits t 2 uint8_ok) as [e v]; destruct e; try (do 2 eexists; split; reflexivity).
      destruct (set_entry_total l (N.to_nat count) (fun e => (fst e, v)) H) as (l' & -> & L). cbn [bind]. eauto. }
  destruct E as (e & l1 & -> & L1). cbn [bind snd]. destruct (IH ((idx + 1) mod 256)%N count l1 ltac:(lia)) as (l' & -> & L'). exists l'. split; [reflexivity|lia].
Qed.
Lemma edrx_line_total bits raw count l : (N.to_nat count < length l)%nat -> exists e l', parseEidrxLine bits raw count l = Ok (e, l') /\ length l' = length l.
Proof.
  intro H. unfold parseEidrxLine. destruct (ATRemovePrefix (Some raw)) as [e s1]; destruct e; eauto.
  destruct (ATRemoveAllDoubleQuote s1) as [e s2]; destruct e; eauto.
  destruct (ATGetNextTok s2) as [[e s3] [tok|]]; destruct e; eauto.
  destruct (edrx_loop_total bits (tok :: tokens TOK_FUEL s3) 0 count l H) as (l' & -> & L). cbn [bind]. eauto.
Qed.
Lemma edrx_lines_total bits lines : forall count e, (N.to_nat count + length lines <= length (e_list e))%nat -> (length (e_list e) < 256)%nat ->
  exists st e', eidrx_lines bits lines count e = Ok (st, e').
Proof.
  induction lines as [|raw lines IH]; intros count e H H8; cbn [eidrx_lines]; [eauto|]. cbn [length] in H.
  destruct (str_eqb (s2b "+CEDRXS: 0") raw || str_eqb (s2b "+CEDRXS:") raw).
  - apply IH; cbn [e_list]; lia.
  - destruct (edrx_line_total bits raw count (e_list e)) as (a & l' & -> & L); [lia|]. cbn [bind].
    destruct (TranslateAtCoreStatus a); eauto. cbv zeta. apply IH; cbn [e_list]; rewrite ?N.mod_small; lia.
Qed.
Lemma edrx_good bits lib m o lines entries : 32 <= bits -> lib_ok lib -> m [req_cedrxs] = Answered lines -> Forall2 edrx_line lines entries ->
  (1 <= length lines <= 4)%nat ->
  GetEidrxSettings bits lib m (Some o) = Ok {| sent := [req_cedrxs]; ret := C_SUCCESS;
    out := Some {| e_list := entries ++ repeat (0, 0) (4 - length entries)%nat; e_count := N.of_nat (length entries) |} |}.
Proof.
  intros Hb HL HM HF Hl. unfold GetEidrxSettings. rewrite HL. unfold finish, request. cbn [app].
  change {| rq_cmd := s2b "AT+CEDRXS?"; rq_type := T_MULTI_WITH_PREFIX; rq_prefix := Some (s2b "+CEDRXS") |} with req_cedrxs. rewrite HM.
  unfold RecvFuncGetEidrxSettings, cb_first. destruct lines as [|y lines]; [cbn in Hl; lia|].
  pose proof (Forall2_len _ _ _ HF) as FL.
  pose proof (edrx_lines_good bits _ _ Hb HF [] 4 ltac:(lia) ltac:(cbn; lia) 0%N) as E. cbn [app length Nat.add N.of_nat] in E.
  unfold edrx0, EDRX_LIST_MAX_SIZE. rewrite E. reflexivity.
Qed.
Lemma edrx_over bits lib m o lines entries : 32 <= bits -> lib_ok lib -> m [req_cedrxs] = Answered lines -> Forall2 edrx_line lines entries ->
  (5 <= length lines)%nat -> GetEidrxSettings bits lib m (Some o) = UB.
Proof.
  intros Hb HL HM HF Hl. unfold GetEidrxSettings. rewrite HL. unfold finish, request. cbn [app].
  change {| rq_cmd := s2b "AT+CEDRXS?"; rq_type := T_MULTI_WITH_PREFIX; rq_prefix := Some (s2b "+CEDRXS") |} with req_cedrxs. rewrite HM.
  unfold RecvFuncGetEidrxSettings, cb_first. destruct lines as [|y lines]; [cbn in Hl; lia|].
  pose proof (Forall2_len _ _ _ HF) as FL.
  pose proof (edrx_lines_over bits _ _ Hb HF [] 4 ltac:(lia) ltac:(cbn; lia) 0%N) as E. cbn [app length N.of_nat] in E.
  unfold edrx0, EDRX_LIST_MAX_SIZE. rewrite E. reflexivity.
Qed.
Lemma edrx_total bits lib m o lines : m [req_cedrxs] = Answered lines -> (length lines <= 4)%nat -> exists r, GetEidrxSettings bits lib m (Some o) = Ok r.
Proof.
  intros HM Hl. unfold GetEidrxSettings, rejected. destruct (CheckLibraryStatus lib); eauto. unfold finish, request. cbn [app].
  change {| rq_cmd := s2b "AT+CEDRXS?"; rq_type := T_MULTI_WITH_PREFIX; rq_prefix := Some (s2b "+CEDRXS") |} with req_cedrxs. rewrite HM.
  unfold RecvFuncGetEidrxSettings, cb_first. destruct lines as [|y lines]; [cbn; eauto|].
  destruct (edrx_lines_total bits (y :: lines) 0 edrx0) as (st & e' & ->); [cbn [N.to_nat Nat.add edrx0 e_list]; rewrite repeat_length; exact Hl|cbn; lia|]. cbn [bind]. eauto.
Qed.

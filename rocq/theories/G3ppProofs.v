(** Proofs about the 3GPP API layer (model: G3pp.v, specification: SpecG3pp.v). *)
From Coq Require Import String List NArith ZArith Bool Lia Arith ZifyBool ZifyN ZifyNat.
From Verif Require Import Bytes AtCore AtMem SpecAt AtProofs AtProofs2 AtProofs3 AtProofs4 Status Pktio SendCmd Socket RegStatus SpecReg RegProofs SpecG3pp G3pp SpecG3ppApi.
Import ListNotations.
Local Open Scope Z_scope.

Local Arguments Nat.ltb : simpl never.
Local Arguments Nat.leb : simpl never.
Local Arguments Nat.sub : simpl never.

(** ** Lines *)

Lemma rp_ok raw body : response_line raw body -> ATRemovePrefix (Some raw) = (AT_SUCCESS, Some body).
Proof.
  intros (p & E & Hp & Hn & Hl). unfold ATRemovePrefix.
  assert (V : is_valid raw = true) by (apply is_valid_iff; split; [rewrite E; destruct p; discriminate|exact Hl]).
  rewrite V.
  assert (C : strchr raw chCOLON = Some (length p)).
  { rewrite E. clear - Hp. induction p as [|c p IH]; [reflexivity|]. cbn [app strchr length].
    destruct (N.eqb_spec c chCOLON) as [->|]; [exfalso; apply Hp; now left|]. rewrite IH; [reflexivity|]. intro H; apply Hp; now right. }
  rewrite C, E. change (S (length p)) with (1 + length p)%nat. rewrite Nat.add_comm.
  rewrite <- (app_nil_l body) at 1. rewrite skipn_app, skipn_all2 by lia.
  replace (length p + 1 - length p)%nat with 1%nat by lia. reflexivity.
Qed.

Lemma body_facts raw body : response_line raw body -> no_nul body /\ (length body <= 255)%nat.
Proof.
  intros (p & E & _ & Hn & Hl). subst raw. split.
  - intro H. apply Hn. apply in_or_app. right. now right.
  - rewrite app_length in Hl. cbn [length] in Hl. lia.
Qed.

Lemma valid_of (s : str) : s <> [] -> (length s <= 256)%nat -> is_valid s = true.
Proof. intros H1 H2. apply is_valid_iff. split; [exact H1|lia]. Qed.

Lemma has_fields_nonul dropped body fields : has_fields dropped body fields -> no_nul body ->
  no_nul (join 44 fields) /\ (length (join 44 fields) <= length body)%nat.
Proof.
  intros [W _] Hn. assert (forall c, In c (join 44%N fields) -> In c body) as Sub.
  { clear Hn. induction W as [|c s t Hc W IH|c s t Hc W IH]; intros x Hx; [exact Hx|right; auto|].
    destruct Hx as [->|Hx]; [now left|right; auto]. }
  split; [intro H; apply Hn; apply Sub; exact H|].
  clear Sub Hn. induction W; cbn [length]; lia.
Qed.

(** Iterating Cellular_ATGetNextTok after a first successful call yields the reported fields. *)
Lemma first_tokens fields : Forall (fun f => ~ In 44%N f) fields -> no_nul (join 44 fields) ->
  (length (join 44 fields) <= 256)%nat ->
  match ATGetNextTok (Some (join 44%N fields)) with
  | (AT_SUCCESS, rest, Some tok) => tok :: tokens TOK_FUEL rest = reported_fields fields
  | (e, _, _) => reported_fields fields = [] /\ e = AT_BAD_PARAMETER
  end.
Proof.
  intros Hf Hn Hl.
  assert (T : tokens (S TOK_FUEL) (Some (join 44%N fields)) = reported_fields fields).
  { apply tokens_join; [|unfold chCOMMA; lia|].
    - rewrite Forall_forall in *. intros f Hi. split; [exact (Hf f Hi)|]. intro H0. apply Hn. exact (join_in 44%N _ _ _ Hi H0).
    - eapply Nat.le_lt_trans; [exact (join_length 44%N fields)|unfold TOK_FUEL; lia]. }
  cbn [tokens] in T. pose proof (next_tok_shape (join 44%N fields)) as Sh.
  destruct (ATGetNextTok (Some (join 44%N fields))) as [[e rest] tok] eqn:E.
  specialize (Sh e rest tok eq_refl). unfold ATGetNextTok, ATGetSpecificNextTok in E.
  destruct (is_valid (join 44%N fields)); inversion E; subst; [exact T|]. split; [now rewrite <- T|reflexivity].
Qed.

Lemma reported_last (fields : list str) : fields <> [] -> last fields [0%N] <> [] -> reported_fields fields = fields.
Proof. intros Hne H. unfold reported_fields. destruct (last fields [0%N]); [contradiction|reflexivity]. Qed.

Lemma dq_filter body t : without is_quote body t -> filter_loop (fun c => (c =? chDQ)%N) body = t.
Proof. intro H. symmetry. apply (without_filter is_quote); [|exact H]. intro c. unfold is_quote, chDQ. lia. Qed.
Lemma ws_filter body t : without space_char body t -> filter_loop isspace body = t.
Proof.
  intro H. symmetry. apply (without_filter space_char); [|exact H]. intro c. unfold isspace, space_char.
  rewrite orb_true_iff, andb_true_iff. lia.
Qed.

(** ** Timers *)
Lemma unit_value u v : (u < 8)%N -> (v < 32)%N -> timer_unit (32 * u + v) = u /\ timer_value (32 * u + v) = v.
Proof.
  intros Hu Hv.
  assert (A : forallb (fun u => forallb (fun v => ((timer_unit (32 * N.of_nat u + N.of_nat v) =? N.of_nat u) &&
            (timer_value (32 * N.of_nat u + N.of_nat v) =? N.of_nat v))%N) (seq 0 32)) (seq 0 8) = true) by (vm_compute; reflexivity).
  rewrite forallb_forall in A. specialize (A (N.to_nat u)). cbv beta in A. rewrite in_seq in A.
  specialize (A ltac:(lia)). rewrite forallb_forall in A. specialize (A (N.to_nat v)). rewrite in_seq in A.
  specialize (A ltac:(lia)). rewrite !N2Nat.id in A. lia.
Qed.

Lemma octet_get bits f u v : 32 <= bits -> octet_field f u v ->
  get_int bits f 2 (fun v => negb (v <? 0)) = (AT_SUCCESS, Z.of_N (32 * u + v)).
Proof.
  intros Hb (Hu & Hv & Hs). rewrite (get_int_ok bits f 2 _ _ Hb Hs); [|unfold int32_range; lia].
  replace (Z.of_N (32 * u + v) <? 0) with false by lia. reflexivity.
Qed.

Ltac small_unit u Hu :=
  assert (Cu : (u = 0 \/ u = 1 \/ u = 2 \/ u = 3 \/ u = 4 \/ u = 5 \/ u = 6 \/ u = 7)%N) by lia;
  destruct Cu as [-> | [-> | [-> | [-> | [-> | [-> | [-> | -> ]]]]]]].

Lemma t3412_ok bits f u v old : 32 <= bits -> octet_field f u v -> u <> 6%N ->
  parseT3412TimerValue bits f old = (AT_SUCCESS, in_seconds (gprs_timer3 u v)).
Proof.
  intros Hb Ho H6. unfold parseT3412TimerValue. rewrite (octet_get _ _ _ _ Hb Ho). cbv beta iota.
  destruct Ho as (Hu & Hv & _). rewrite N2Z.id. destruct (unit_value u v Hu Hv) as [-> ->].
  small_unit u Hu; try congruence; cbn [gprs_timer3 in_seconds]; f_equal; lia.
Qed.
Lemma t3412_reserved bits f v old : 32 <= bits -> octet_field f 6 v -> parseT3412TimerValue bits f old = (AT_ERROR, old).
Proof.
  intros Hb Ho. unfold parseT3412TimerValue. rewrite (octet_get _ _ _ _ Hb Ho). cbv beta iota.
  destruct Ho as (Hu & Hv & _). rewrite N2Z.id. destruct (unit_value 6 v Hu Hv) as [-> _]. reflexivity.
Qed.
Lemma t3324_ok bits f u v old : 32 <= bits -> octet_field f u v -> (u <= 2 \/ u = 7)%N ->
  parseT3324TimerValue bits f old = (AT_SUCCESS, in_seconds (gprs_timer2 u v)).
Proof.
  intros Hb Ho H6. unfold parseT3324TimerValue. rewrite (octet_get _ _ _ _ Hb Ho). cbv beta iota.
  destruct Ho as (Hu & Hv & _). rewrite N2Z.id. destruct (unit_value u v Hu Hv) as [-> ->].
  small_unit u Hu; try lia; cbn [gprs_timer2 in_seconds]; f_equal; lia.
Qed.
Lemma t3324_reserved bits f u v old : 32 <= bits -> octet_field f u v -> (3 <= u <= 6)%N ->
  parseT3324TimerValue bits f old = (AT_ERROR, old).
Proof.
  intros Hb Ho H6. unfold parseT3324TimerValue. rewrite (octet_get _ _ _ _ Hb Ho). cbv beta iota.
  destruct Ho as (Hu & Hv & _). rewrite N2Z.id. destruct (unit_value u v Hu Hv) as [-> ->].
  small_unit u Hu; try lia; reflexivity.
Qed.
Lemma t3412_bad bits f old : no_numeral 2 f -> parseT3412TimerValue bits f old = (AT_ERROR, old).
Proof. intro H. unfold parseT3412TimerValue. rewrite (get_int_bad bits f 2 _ H). reflexivity. Qed.
Lemma t3324_bad bits f old : no_numeral 2 f -> parseT3324TimerValue bits f old = (AT_ERROR, old).
Proof. intro H. unfold parseT3324TimerValue. rewrite (get_int_bad bits f 2 _ H). reflexivity. Qed.

(** ** Reading the PSM settings *)

Lemma t3412_empty bits old : parseT3412TimerValue bits [] old = (AT_ERROR, old).
Proof. unfold parseT3412TimerValue. rewrite get_int_empty. reflexivity. Qed.
Lemma t3324_empty bits old : parseT3324TimerValue bits [] old = (AT_ERROR, old).
Proof. unfold parseT3324TimerValue. rewrite get_int_empty. reflexivity. Qed.
Lemma mode_empty bits old : parseCpsmsMode bits [] old = (AT_ERROR, old).
Proof. unfold parseCpsmsMode. rewrite get_int_empty. reflexivity. Qed.
Lemma mode_ok bits f v old : 32 <= bits -> mode_field f v -> parseCpsmsMode bits f old = (AT_SUCCESS, v).
Proof.
  intros Hb [Hv Hs]. unfold parseCpsmsMode. rewrite (get_int_ok bits f 2 _ _ Hb Hs); [|unfold int32_range; lia].
  unfold uint8_ok. replace ((0 <=? Z.of_N v) && (Z.of_N v <=? 255)) with true by lia. rewrite N2Z.id. reflexivity.
Qed.

(** value of an optional field starting from its default *)
Definition opt_parse (parse : str -> N -> at_status * N) (f : str) (old v : N) : Prop :=
  match f with [] => parse f old = (AT_ERROR, old) /\ v = old | _ => parse f old = (AT_SUCCESS, v) end.
Lemma opt_mode bits f v : 32 <= bits -> given_or mode_field 255 (field_at [f] 0) v -> opt_parse (parseCpsmsMode bits) f 255 v.
Proof. intros Hb H. destruct f as [|c f]; cbn [given_or field_at nth_error opt_parse] in *; [split; [apply mode_empty|exact H]|apply mode_ok; assumption]. Qed.
Lemma opt_t3412 bits f v : 32 <= bits -> given_or timer3_field 0 (field_at [f] 0) v -> opt_parse (parseT3412TimerValue bits) f 0 v.
Proof.
  intros Hb H. destruct f as [|c f]; cbn [given_or field_at nth_error opt_parse] in *; [split; [apply t3412_empty|exact H]|].
  destruct H as (u & x & Ho & H6 & ->). apply t3412_ok; assumption.
Qed.
Lemma opt_t3324 bits f v : 32 <= bits -> given_or timer2_field 0 (field_at [f] 0) v -> opt_parse (parseT3324TimerValue bits) f 0 v.
Proof.
  intros Hb H. destruct f as [|c f]; cbn [given_or field_at nth_error opt_parse] in *; [split; [apply t3324_empty|exact H]|].
  destruct H as (u & x & Ho & H6 & ->). apply t3324_ok; assumption.
Qed.
Lemma opt_eq parse f old v : opt_parse parse f old v ->
  parse f old = (match f with [] => AT_ERROR | _ => AT_SUCCESS end, v).
Proof. destruct f; cbn; [intros [-> ->]; reflexivity|auto]. Qed.

Lemma psm_loop_good bits fields p : 32 <= bits -> (1 <= length fields <= 5)%nat -> last fields [0%N] <> [] ->
  psm_says fields p -> psm_loop bits fields 0 AT_SUCCESS psm0 = (AT_SUCCESS, psm_of p).
Proof.
  intros Hb Hlen Hlast (H0 & H1 & H2 & H3 & H4). destruct p as [p0 p1 p2 p3 p4]. cbn [pv_mode pv_rau pv_rdy pv_tau pv_act] in *.
  unfold psm_of, psm0. cbn [pv_mode pv_rau pv_rdy pv_tau pv_act].
  destruct fields as [|f0 fields]; [cbn in Hlen; lia|].
  change (field_at (f0 :: fields) 0) with (field_at [f0] 0) in H0. pose proof (opt_eq _ _ _ _ (opt_mode bits _ _ Hb H0)) as E0.
  cbn [psm_loop parseGetPsmToken]. cbn [ps_mode]. rewrite E0. cbv beta iota. cbn [ps_mode ps_rau ps_rdy ps_tau ps_act].
  destruct fields as [|f1 fields].
  { cbn in H1, H2, H3, H4. subst. cbn [last] in Hlast. destruct f0; [contradiction|reflexivity]. }
  change (field_at (f0 :: f1 :: fields) 1) with (field_at [f1] 0) in H1. pose proof (opt_eq _ _ _ _ (opt_t3412 bits _ _ Hb H1)) as E1.
  change ((0 + 1) mod 256)%N with 1%N.
  cbn [psm_loop parseGetPsmToken]. cbn [ps_mode ps_rau ps_rdy ps_tau ps_act]. rewrite E1. cbv beta iota. cbn [ps_mode ps_rau ps_rdy ps_tau ps_act].
  destruct fields as [|f2 fields].
  { cbn in H2, H3, H4. subst. cbn [last] in Hlast. destruct f1; [contradiction|reflexivity]. }
  change (field_at (f0 :: f1 :: f2 :: fields) 2) with (field_at [f2] 0) in H2. pose proof (opt_eq _ _ _ _ (opt_t3324 bits _ _ Hb H2)) as E2.
  change ((1 + 1) mod 256)%N with 2%N.
  cbn [psm_loop parseGetPsmToken]. cbn [ps_mode ps_rau ps_rdy ps_tau ps_act]. rewrite E2. cbv beta iota. cbn [ps_mode ps_rau ps_rdy ps_tau ps_act].
  destruct fields as [|f3 fields].
  { cbn in H3, H4. subst. cbn [last] in Hlast. destruct f2; [contradiction|reflexivity]. }
  change (field_at (f0 :: f1 :: f2 :: f3 :: fields) 3) with (field_at [f3] 0) in H3. pose proof (opt_eq _ _ _ _ (opt_t3412 bits _ _ Hb H3)) as E3.
  change ((2 + 1) mod 256)%N with 3%N.
  cbn [psm_loop parseGetPsmToken]. cbn [ps_mode ps_rau ps_rdy ps_tau ps_act]. rewrite E3. cbv beta iota. cbn [ps_mode ps_rau ps_rdy ps_tau ps_act].
  destruct fields as [|f4 fields].
  { cbn in H4. subst. cbn [last] in Hlast. destruct f3; [contradiction|reflexivity]. }
  change (field_at (f0 :: f1 :: f2 :: f3 :: f4 :: fields) 4) with (field_at [f4] 0) in H4. pose proof (opt_eq _ _ _ _ (opt_t3324 bits _ _ Hb H4)) as E4.
  change ((3 + 1) mod 256)%N with 4%N.
  cbn [psm_loop parseGetPsmToken]. cbn [ps_mode ps_rau ps_rdy ps_tau ps_act]. rewrite E4. cbv beta iota. cbn [ps_mode ps_rau ps_rdy ps_tau ps_act].
  destruct fields as [|f5 fields]; [|cbn in Hlen; lia].
  cbn [last] in Hlast. destruct f4; [contradiction|reflexivity].
Qed.

Lemma without_nil_inv P (t : str) : without P [] t -> t = [].
Proof. intro H. inversion H. reflexivity. Qed.

(** The generic front end of the line parsers that drop quotes only. *)
Lemma dq_front raw body fields : response_line raw body -> has_fields is_quote body fields -> fields <> [] ->
  last fields [0%N] <> [] ->
  ATRemovePrefix (Some raw) = (AT_SUCCESS, Some body) /\
  ATRemoveAllDoubleQuote (Some body) = (AT_SUCCESS, Some (join 44%N fields)) /\
  exists rest tok, ATGetNextTok (Some (join 44%N fields)) = (AT_SUCCESS, rest, Some tok) /\ tok :: tokens TOK_FUEL rest = fields.
Proof.
  intros HR HF Hne Hlast. destruct (body_facts _ _ HR) as [Hn Hl].
  destruct (has_fields_nonul _ _ _ HF Hn) as [Hjn Hjl]. destruct HF as [HW HC].
  split; [exact (rp_ok _ _ HR)|].
  assert (Bne : body <> []).
  { intro E. subst body. apply without_nil_inv in HW. rename HW into E'.
    destruct fields as [|f fields]; [contradiction|]. destruct fields as [|g fields].
    - cbn [join] in E'. cbn [last] in Hlast. congruence.
    - destruct f; discriminate. }
  split.
  - unfold ATRemoveAllDoubleQuote. rewrite (valid_of body Bne) by lia. rewrite (dq_filter _ _ HW). reflexivity.
  - pose proof (first_tokens fields HC Hjn ltac:(lia)) as T. rewrite (reported_last fields Hne Hlast) in T.
    destruct (ATGetNextTok (Some (join 44%N fields))) as [[e rest] tok].
    destruct e; try (destruct T as [T _]; contradiction). destruct tok as [tok|]; [|destruct T as [T _]; contradiction].
    exists rest, tok. split; [reflexivity|exact T].
Qed.


Lemma psm_get_good bits lib m old raw body fields more p : 32 <= bits -> lib_ok lib ->
  response_line raw body -> has_fields is_quote body fields -> (1 <= length fields <= 5)%nat -> last fields [0%N] <> [] ->
  psm_says fields p ->
  let r := {| rq_cmd := s2b "AT+CPSMS?"; rq_type := T_WITH_PREFIX; rq_prefix := Some (s2b "+CPSMS") |} in
  m [r] = Answered (raw :: more) ->
  GetPsmSettings bits lib m (Some old) = Ok {| sent := [r]; ret := C_SUCCESS; out := Some (psm_of p) |}.
Proof.
  intros Hb HL HR HF Hlen Hlast HS r Hm. unfold GetPsmSettings. rewrite HL. cbv beta iota. fold r.
  unfold finish, request. cbn [app]. rewrite Hm. cbv beta iota. unfold RecvFuncGetPsmSettings, cb_first.
  assert (Hne : fields <> []) by (destruct fields; [cbn in Hlen; lia|discriminate]).
  destruct (dq_front _ _ _ HR HF Hne Hlast) as (-> & -> & rest & tok & -> & ->).
  rewrite (psm_loop_good bits fields p Hb Hlen Hlast HS). reflexivity.
Qed.

Lemma psm_loop_snoc bits toks t : forall idx e s,
  psm_loop bits (toks ++ [t]) idx e s =
  (let '(e1, s1) := psm_loop bits toks idx e s in parseGetPsmToken bits t ((idx + N.of_nat (length toks)) mod 256)%N s1) \/ (256 <= idx)%N.
Proof.
  induction toks as [|x toks IH]; intros idx e s.
  - cbn [app psm_loop length]. destruct (N.le_gt_cases 256 idx) as [?|H]; [now right|left].
    rewrite N.add_0_r, N.mod_small by lia. destruct (parseGetPsmToken bits t idx s). reflexivity.
  - cbn [app psm_loop length]. destruct (parseGetPsmToken bits x idx s) as [e' s'].
    destruct (IH ((idx + 1) mod 256)%N e' s') as [H|H]; [|pose proof (N.mod_lt (idx + 1) 256 ltac:(lia)); lia].
    left. rewrite H. destruct (psm_loop bits toks ((idx + 1) mod 256)%N e' s') as [e1 s1].
    f_equal. rewrite N.add_mod_idemp_l by lia. f_equal. lia.
Qed.

Lemma psm_get_bad_last bits lib m old raw body fields t more : lib_ok lib ->
  response_line raw body -> has_fields is_quote body (fields ++ [t]) -> t <> [] ->
  (5 <= length fields)%nat \/ no_numeral 2 t ->
  let r := {| rq_cmd := s2b "AT+CPSMS?"; rq_type := T_WITH_PREFIX; rq_prefix := Some (s2b "+CPSMS") |} in
  m [r] = Answered (raw :: more) ->
  exists o, GetPsmSettings bits lib m (Some old) = Ok {| sent := [r]; ret := C_INTERNAL_FAILURE; out := Some o |}.
Proof.
  intros HL HR HF Ht HB r Hm. unfold GetPsmSettings. rewrite HL. cbv beta iota. fold r.
  unfold finish, request. cbn [app]. rewrite Hm. cbv beta iota. unfold RecvFuncGetPsmSettings, cb_first.
  assert (Hne : fields ++ [t] <> []) by (destruct fields; discriminate).
  assert (Hlast : last (fields ++ [t]) [0%N] <> []) by (rewrite last_last; exact Ht).
  destruct (dq_front _ _ _ HR HF Hne Hlast) as (-> & -> & rest & tok & -> & ->).
  destruct (psm_loop_snoc bits fields t 0 AT_SUCCESS psm0) as [E|?]; [|lia]. rewrite E.
  destruct (psm_loop bits fields 0 AT_SUCCESS psm0) as [e1 s1]. cbn [N.add].
  assert (L : (length fields < 256)%nat).
  { destruct (body_facts _ _ HR) as [Hn Hl]. destruct (has_fields_nonul _ _ _ HF Hn) as [_ Hjl].
    pose proof (join_length 44%N (fields ++ [t])) as J. rewrite app_length in J. cbn [length] in J.
    enough (length fields + 1 <= S (length body))%nat by lia. eapply Nat.le_trans; [exact J|]. apply le_n_S. exact Hjl. }
  rewrite N.mod_small by lia.
  assert (P : fst (parseGetPsmToken bits t (N.of_nat (length fields)) s1) = AT_ERROR).
  { destruct HB as [H5|HN].
    - destruct (N.of_nat (length fields)) as [|q] eqn:Q; [lia|].
      do 3 (try (destruct q as [q|q|]; try lia)); reflexivity.
    - unfold parseGetPsmToken. destruct (N.of_nat (length fields)) as [|q]; [|do 3 (try destruct q as [q|q|])]; cbn [fst];
        try reflexivity; unfold parseCpsmsMode, parseT3412TimerValue, parseT3324TimerValue; rewrite (get_int_bad bits t 2 _ HN); reflexivity. }
  destruct (parseGetPsmToken bits t (N.of_nat (length fields)) s1) as [e2 s2]. cbn [fst] in P. subst e2.
  exists s2. reflexivity.
Qed.

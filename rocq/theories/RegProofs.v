From Coq Require Import List NArith ZArith Bool Lia.
From Verif Require Import Bytes AtCore AtMem SpecAt AtProofs AtProofs2 AtProofs3 Status RegStatus SpecReg.
Import ListNotations.
Local Open Scope Z_scope.

(** * The loop as a walk over the token list *)
Fixpoint seq_parse (bits : Z) (rt : reg_type) (i : N) (toks : list str) (d : at_data) : pkt_status * at_data :=
  match toks with
  | [] => (PKT_OK, d)
  | t :: r => let i' := ((i + 1) mod 256)%N in
              match parseAt bits rt i' t d with
              | (PKT_OK, d') => seq_parse bits rt i' r d'
              | (e, d') => (e, d')
              end
  end.

Lemma next_tok_shape (s : str) e0 rest0 tok0 : ATGetNextTok (Some s) = (e0, rest0, tok0) -> match (e0, rest0, tok0) with
  | (AT_SUCCESS, rest, tok) => exists r t, rest = Some r /\ tok = Some t /\ (length r + length t < length s)%nat \/
                               (exists t, rest = Some [] /\ tok = Some t /\ (length t <= length s)%nat /\ s <> [])
  | (e, _, tok) => e = AT_BAD_PARAMETER /\ ~ at_len_ok s /\ tok = None
  end.
Proof.
  intro HT; rewrite <- HT; clear HT e0 rest0 tok0.
  unfold ATGetNextTok, ATGetSpecificNextTok. destruct (is_valid s) eqn:V.
  2:{ apply is_valid_false in V. auto. }
  apply is_valid_iff in V.
  set (tok := if (hd 0%N s =? chCOMMA)%N then [] else take_until chCOMMA s).
  assert (TL : (length tok <= length s)%nat).
  { unfold tok. destruct (_ =? _)%N; [cbn [length]; lia|].
    destruct (take_until_split chCOMMA s) as [[_ H]|(r & H & _)].
    - rewrite H. lia.
    - rewrite H at 2. rewrite app_length. cbn [length]. lia. }
  destruct ((length tok <? length s)%nat && negb (nth (S (length tok)) s 0 =? 0)%N) eqn:E.
  - apply andb_true_iff in E. destruct E as [E1 _]. apply Nat.ltb_lt in E1.
    exists (skipn (S (length tok)) s), tok. left. repeat split. rewrite skipn_length. lia.
  - exists [], tok. right. exists tok. destruct V as [V _]. auto.
Qed.

Lemma reg_loop_seq bits rt : forall fuel fuel' i tok (s : str) d, (length s < fuel)%nat -> (length s < fuel')%nat ->
  reg_loop bits fuel rt i tok (Some s) d = Some (seq_parse bits rt i (tok :: tokens fuel' (Some s)) d).
Proof.
  induction fuel as [|f IH]; intros fuel' i tok s d H1 H2; [lia|].
  cbn [reg_loop seq_parse]. destruct (parseAt bits rt ((i + 1) mod 256) tok d) as [st d'] eqn:P.
  destruct st; try reflexivity.
  destruct fuel' as [|f']; [lia|]. cbn [tokens]. destruct (ATGetNextTok (Some s)) as [[e rest] tk] eqn:T.
  pose proof (next_tok_shape s _ _ _ T) as Sh.
  destruct e; try (destruct Sh as (E & _ & ->); first [discriminate E|reflexivity]).
  destruct Sh as (r & t & [(-> & -> & L)|(t0 & -> & -> & L & Hn)]).
  - apply IH; lia.
  - destruct s; [congruence|]. cbn [length] in *.
    apply IH; cbn [length]; lia.
Qed.

(** The token list of a payload. *)
Definition payload_tokens (s : str) : list str :=
  tokens 400 (Some (filter_loop isspace (filter_loop (fun c => (c =? chDQ)%N) s))).

Lemma tokens_unfold_ok s rest tok f : ATGetNextTok (Some s) = (AT_SUCCESS, rest, Some tok) -> tokens (S f) (Some s) = tok :: tokens f rest.
Proof. intro H. cbn [tokens]. rewrite H. reflexivity. Qed.

Lemma tokens_stable : forall f f' (s : str), (length s < f)%nat -> (length s < f')%nat -> tokens f (Some s) = tokens f' (Some s).
Proof.
  induction f as [|f IH]; intros f' s H1 H2; [lia|]. destruct f' as [|f']; [lia|]. cbn [tokens].
  destruct (ATGetNextTok (Some s)) as [[e rest] tk] eqn:T.
  pose proof (next_tok_shape s _ _ _ T) as Sh.
  destruct e; try (destruct Sh as (E & _ & ->); reflexivity).
  destruct Sh as (r & t & [(-> & -> & L)|(t0 & -> & -> & L & Hn)]); f_equal.
  - apply IH; lia.
  - destruct s; [congruence|]. cbn [length] in *. apply IH; cbn [length]; lia.
Qed.

(** Every payload: either nothing happens, or the tokens are walked. *)
Lemma parse_cases bits cb payload isUrc rt d :
  (exists e, ParseRegStatus bits cb payload isUrc rt d = Ok (e, d, []) /\ e <> PKT_OK /\
     forall s, payload = Some s -> at_len_ok s -> rt <> REG_UNKNOWN -> filter_loop isspace (filter_loop (fun c => (c =? chDQ)%N) s) = []) \/
  (exists s, payload = Some s /\ rt <> REG_UNKNOWN /\ at_len_ok s /\ payload_tokens s <> [] /\
     ParseRegStatus bits cb payload isUrc rt d =
       let '(st, d') := seq_parse bits rt (if isUrc then 1 else 0)%N (payload_tokens s) d in
       Ok (st, d', if RegEventStatus d' rt (d_cs d) (d_ps d) then generateEvent rt cb d' else [])).
Proof.
  destruct payload as [s|]; [|left; eexists; split; [reflexivity|split; [discriminate|intros; discriminate]]].
  unfold ParseRegStatus. cbv beta iota.
  assert (U : rt = REG_UNKNOWN \/ rt <> REG_UNKNOWN) by (destruct rt; auto; right; discriminate).
  destruct U as [ -> |U]; [left; eexists; split; [reflexivity|split; [discriminate|intros; congruence]]|].
  unfold ATRemoveAllDoubleQuote. destruct (is_valid s) eqn:V.
  2:{ left. apply is_valid_false in V.
      destruct rt; try congruence; eexists; (split; [reflexivity|split; [discriminate|intros s' [= <-] ? ?; contradiction]]). }
  unfold ATRemoveAllWhiteSpaces. set (s1 := filter_loop (fun c => (c =? chDQ)%N) s).
  apply is_valid_iff in V. destruct V as [Vn Vl].
  assert (L1 : (length s1 <= 256)%nat) by (unfold s1; pose proof (filter_loop_len (fun c => (c =? chDQ)%N) s); lia).
  destruct (is_valid s1) eqn:V1.
  2:{ left. apply is_valid_false in V1.
      assert (N1 : s1 = []) by (destruct s1; [reflexivity|exfalso; apply V1; split; [discriminate|lia]]).
      destruct rt; try congruence; eexists; (split; [reflexivity|split; [discriminate|intros s' [= <-] ? ?; fold s1; rewrite N1; reflexivity]]). }
  set (s2 := filter_loop isspace s1).
  destruct (ATGetNextTok (Some s2)) as [[e rest] tk] eqn:T.
  pose proof (next_tok_shape s2 _ _ _ T) as Sh.
  assert (L2 : (length s2 <= 256)%nat) by (unfold s2; pose proof (filter_loop_len isspace s1); lia).
  destruct e; try (left; destruct Sh as (E & NV & ->); first [discriminate E|
     assert (N2 : s2 = []) by (destruct s2; [reflexivity|exfalso; apply NV; split; [discriminate|lia]]);
     destruct rt; try congruence; eexists; (split; [reflexivity|split; [discriminate|intros s' [= <-] ? ?; exact N2]])]).
  right. exists s. split; [reflexivity|]. split; [exact U|]. split; [split; assumption|].
  assert (G : exists r t, rest = Some r /\ tk = Some t /\ (length r < 300)%nat).
  { destruct Sh as (r & t & [(E1 & E2 & L)|(t0 & E1 & E2 & L & _)]).
    - exists r, t. repeat split; auto. lia.
    - exists [], t0. repeat split; auto. cbn [length]. lia. }
  destruct G as (r & t & -> & -> & Lr).
  assert (PT : payload_tokens s = t :: tokens 399 (Some r)).
  { unfold payload_tokens. fold s1. fold s2. apply (tokens_unfold_ok _ _ _ 399 T). }
  split; [rewrite PT; discriminate|]. rewrite PT.
  assert (RL : reg_loop bits REG_FUEL rt (if isUrc then 1 else 0) t (Some r) d =
               Some (seq_parse bits rt (if isUrc then 1 else 0)%N (t :: tokens 399 (Some r)) d)).
  { apply reg_loop_seq; [unfold REG_FUEL|]; lia. }
  assert (K : forall A (x y : A), match rt with REG_UNKNOWN => x | _ => y end = y) by (intros; destruct rt; congruence).
  destruct rt; try congruence; rewrite RL;
    destruct (seq_parse bits _ (if isUrc then 1 else 0)%N (t :: tokens 399 (Some r)) d) as [st d']; reflexivity.
Qed.

(** * No wrap-around of the 8-bit field index *)
Fixpoint weight (l : list str) : nat := match l with [] => O | t :: r => S (length t) + weight r end%nat.

Lemma tokens_weight : forall f (s : str), (length s < f)%nat -> (weight (tokens f (Some s)) <= S (length s))%nat.
Proof.
  induction f as [|f IH]; intros s H; [lia|]. cbn [tokens].
  destruct (ATGetNextTok (Some s)) as [[e rest] tk] eqn:T.
  pose proof (next_tok_shape s _ _ _ T) as Sh.
  destruct e; try (destruct Sh as (E & _ & ->); cbn [weight]; lia).
  destruct Sh as (r & t & [(-> & -> & L)|(t0 & -> & -> & L & Hn)]); cbn [weight].
  - assert (Q : (length r < f)%nat) by lia. specialize (IH r Q). cbv beta iota. lia.
  - destruct s; [congruence|]. cbn [length] in H.
    assert (W : weight (tokens f (Some [])) = 0%nat) by (destruct f; reflexivity). rewrite W. lia.
Qed.

Lemma payload_weight s : at_len_ok s -> (weight (payload_tokens s) <= 257)%nat.
Proof.
  intros [_ H]. unfold payload_tokens.
  set (s2 := filter_loop _ _).
  assert (L2 : (length s2 <= 256)%nat).
  { unfold s2. pose proof (filter_loop_len isspace (filter_loop (fun c => (c =? chDQ)%N) s)).
    pose proof (filter_loop_len (fun c => (c =? chDQ)%N) s). lia. }
  pose proof (tokens_weight 400 s2 ltac:(lia)). lia.
Qed.

Lemma get_int_empty bits base ok : get_int bits [] base ok = (AT_ERROR, 0).
Proof.
  unfold get_int. rewrite strtoi_error; [reflexivity|].
  intros sp sg c d tl H. destruct sp; [|discriminate]. destruct sg; discriminate.
Qed.

Lemma parseAt_empty bits rt i d : (2 <= i <= 7)%N -> fst (parseAt bits rt i [] d) = PKT_FAILURE.
Proof.
  intro H. assert (C : (i = 2 \/ i = 3 \/ i = 4 \/ i = 5 \/ i = 6 \/ i = 7)%N) by lia.
  destruct C as [ -> | [ -> | [ -> | [ -> | [ -> | -> ]]]]]; unfold parseAt; destruct rt; cbn [N.to_nat Pos.to_nat Pos.iter_op Nat.add parsingTable nth_error];
   unfold switchParsing, parseStat, parseLacTac, parseCellId, parseRat, parseRejType, parseRejCause, parseRac; rewrite get_int_empty; reflexivity.
Qed.

Lemma parseAt_beyond bits rt i tok d : (9 <= i)%N -> parseAt bits rt i tok d = (PKT_OK, d).
Proof.
  intro H. unfold parseAt. replace (nth_error (parsingTable rt) (N.to_nat i)) with (@None reg_pos); [reflexivity|].
  symmetry. apply nth_error_None. destruct rt; cbn [parsingTable length]; lia.
Qed.

Lemma seq_beyond bits rt : forall toks i d, (8 <= i)%N -> (N.of_nat (length toks) + i < 256)%N -> seq_parse bits rt i toks d = (PKT_OK, d).
Proof.
  induction toks as [|t r IH]; intros i d H1 H2; [reflexivity|]. cbn [seq_parse length] in *.
  rewrite N.mod_small by lia. rewrite parseAt_beyond by lia. apply IH; lia.
Qed.

Lemma weight_length (l : list str) : (length l <= weight l)%nat.
Proof. induction l; cbn [weight length]; lia. Qed.

(** Number of tokens consumed from index [i] that fall on mandatory positions must be non empty. *)
Lemma seq_first8 bits rt : forall k toks i d, (N.of_nat k + i = 9)%N ->
  (weight toks + N.to_nat i + N.to_nat (N.min (i-1) 6) <= 258)%nat ->
  seq_parse bits rt i toks d = seq_parse bits rt i (firstn k toks) d.
Proof.
  induction k as [|k IH]; intros toks i d Hk Hw.
  - cbn [firstn seq_parse]. pose proof (weight_length toks). apply seq_beyond; lia.
  - destruct toks as [|t r]; [reflexivity|]. cbn [firstn seq_parse weight] in *.
    rewrite N.mod_small by lia. destruct (parseAt bits rt (i + 1) t d) as [st d'] eqn:P.
    destruct st; try reflexivity. apply IH; [lia|].
    destruct t as [|c t].
    + assert (F : ~ (2 <= i + 1 <= 7)%N).
      { intro F. pose proof (parseAt_empty bits rt (i + 1) d F) as Q. rewrite P in Q. discriminate. }
      cbn [length] in *. lia.
    + cbn [length] in *. lia.
Qed.

Lemma payload_first8 bits rt s (isUrc : bool) d : at_len_ok s ->
  let i := (if isUrc then 1 else 0)%N in
  seq_parse bits rt i (payload_tokens s) d = seq_parse bits rt i (firstn (if isUrc then 8 else 9) (payload_tokens s)) d.
Proof.
  intros H i. pose proof (payload_weight s H). unfold i. destruct isUrc; (apply seq_first8; [reflexivity|]; set (w := weight _) in *; clearbody w; cbn; lia).
Qed.

(** * Well-formed fields *)
Definition apply_field (rt : reg_type) (f : reg_field) (v : Z) (d : at_data) : at_data :=
  match f with
  | F_STAT => let d1 := if is_cs rt then set_cs d v else set_ps d v in if (v =? 1) || (v =? 5) then d1 else InitAtData1 d1
  | F_AREA => if is_eps rt then set_tac d v else set_lac d v
  | F_CELL => set_cellId d v
  | F_ACT => set_rat d (known_act v)
  | F_RAC => set_rac d v
  | F_CAUSE_TYPE => if is_cs rt then (if d_cs d =? 3 then set_csRejType d v else d) else (if d_ps d =? 3 then set_psRejType d v else d)
  | F_CAUSE => if is_cs rt then (if d_cs d =? 3 then set_csRejCause d v else d) else (if d_ps d =? 3 then set_psRejCause d v else d)
  end.

Definition pos_of (f : reg_field) : reg_pos :=
  match f with F_STAT => POS_STAT | F_AREA => POS_LAC_TAC | F_CELL => POS_CELL_ID | F_ACT => POS_RAT | F_RAC => POS_RAC
             | F_CAUSE_TYPE => POS_REJ_TYPE | F_CAUSE => POS_REJ_CAUSE end.

Lemma table_layout rt k : rt <> REG_UNKNOWN ->
  nth_error (parsingTable rt) (S (S k)) = option_map pos_of (nth_error (layout rt) k).
Proof.
  intro H. destruct rt; try congruence; do 8 (destruct k as [|k]; [reflexivity|]); destruct k; reflexivity.
Qed.

Lemma get_int_ok bits t base ok v : 32 <= bits -> starts_with_numeral base t v -> int32_range v ->
  get_int bits t base ok = (if ok v then AT_SUCCESS else AT_ERROR, v).
Proof. intros Hb Hs Hr. unfold get_int. rewrite (strtoi_exact bits base t v 0 Hb Hs Hr). destruct (ok v); reflexivity. Qed.
Lemma get_int_bad bits t base ok : no_numeral base t -> get_int bits t base ok = (AT_ERROR, 0).
Proof. intro H. unfold get_int. rewrite (strtoi_error bits base t 0 H). reflexivity. Qed.

Definition field_okb (f : reg_field) (v : Z) : bool :=
  match f with
  | F_STAT => (0 <=? v) && (v <? REG_STATUS_MAX)
  | F_AREA => (0 <=? v) && (v <=? 65535)
  | F_CELL => 0 <=? v
  | F_ACT => negb ((RATN_MAX <=? v) || (v <? 0))
  | F_RAC | F_CAUSE_TYPE | F_CAUSE => uint8_ok v
  end.
Lemma field_okb_iff f v : field_okb f v = true <-> field_range f v.
Proof. destruct f; cbn [field_okb field_range]; unfold REG_STATUS_MAX, RATN_MAX, uint8_ok; lia. Qed.

Lemma switch_good bits rt f t v d : 32 <= bits -> rt <> REG_UNKNOWN -> field_text f t v ->
  switchParsing bits (pos_of f) rt t d = (PKT_OK, apply_field rt f v d).
Proof.
  intros Hb Hrt (Hs & Hr & Hf). apply field_okb_iff in Hf.
  destruct f; cbn [pos_of switchParsing field_base field_okb apply_field] in *;
    unfold parseStat, parseLacTac, parseCellId, parseRat, parseRejType, parseRejCause, parseRac;
    rewrite (get_int_ok bits t _ _ v Hb Hs Hr), Hf; cbv beta iota.
  - destruct rt; try congruence; cbn [is_cs]; destruct (v =? 1); destruct (v =? 5); reflexivity.
  - destruct rt; try congruence; reflexivity.
  - reflexivity.
  - unfold known_act. cbn [existsb]. f_equal. f_equal. unfold RATN_INVALID.
    destruct (Z.eqb_spec v 0); [reflexivity|]. destruct (Z.eqb_spec v 3); [reflexivity|].
    destruct (Z.eqb_spec v 7) as [->|]; [reflexivity|].
    destruct (Z.eqb_spec v 8); [reflexivity|]. destruct (Z.eqb_spec v 9); reflexivity.
  - reflexivity.
  - destruct rt; try congruence; reflexivity.
  - destruct rt; try congruence; reflexivity.
Qed.

Lemma switch_bad bits rt f t d : 32 <= bits -> field_bad f t -> switchParsing bits (pos_of f) rt t d = (PKT_FAILURE, d).
Proof.
  intros Hb HB.
  assert (G : exists z, get_int bits t (field_base f) (field_okb f) = (AT_ERROR, z)).
  { destruct HB as [HB|(v & Hs & Hr & Hn)].
    - exists 0. apply get_int_bad; exact HB.
    - exists v. rewrite (get_int_ok bits t _ _ v Hb Hs Hr). destruct (field_okb f v) eqn:E; [|reflexivity].
      apply field_okb_iff in E. contradiction. }
  destruct G as [z G].
  destruct f; cbn [pos_of switchParsing field_base] in *;
    unfold parseStat, parseLacTac, parseCellId, parseRat, parseRejType, parseRejCause, parseRac;
    unfold field_okb in G; try change (fun v : Z => uint8_ok v) with uint8_ok in G; rewrite G; reflexivity.
Qed.

Fixpoint apply_fields (rt : reg_type) (l : list reg_field) (vs : list Z) (d : at_data) : at_data :=
  match l, vs with
  | f :: l', v :: vs' => apply_fields rt l' vs' (apply_field rt f v d)
  | _, _ => d
  end.

Lemma seq_good bits rt : 32 <= bits -> rt <> REG_UNKNOWN -> forall l ts vs, fields_text l ts vs ->
  forall i more d, (1 <= i)%N -> skipn (N.to_nat i - 1) (layout rt) = l -> (i <= 8)%N ->
  seq_parse bits rt i (ts ++ more) d = seq_parse bits rt (i + N.of_nat (length ts))%N more (apply_fields rt l vs d).
Proof.
  intros Hb Hrt l ts vs H. induction H as [l|f l t ts v vs Hf Hft IH]; intros i more d Hi HL Hi8.
  - cbn [app length]. rewrite N.add_0_r. destruct l; reflexivity.
  - cbn [app seq_parse length apply_fields].
    assert (Len : (length (layout rt) <= 7)%nat) by (destruct rt; cbn [layout length]; lia).
    assert (NE : nth_error (layout rt) (N.to_nat i - 1) = Some f).
    { rewrite <- (firstn_skipn (N.to_nat i - 1) (layout rt)), HL.
      assert (L : length (firstn (N.to_nat i - 1) (layout rt)) = (N.to_nat i - 1)%nat).
      { apply firstn_length_le. apply Nat.lt_le_incl. assert (S : (length (skipn (N.to_nat i - 1) (layout rt)) = S (length l))%nat) by (rewrite HL; reflexivity).
        rewrite skipn_length in S. lia. }
      rewrite nth_error_app2 by lia. rewrite L, Nat.sub_diag. reflexivity. }
    assert (Lt : (N.to_nat i - 1 < 7)%nat) by (assert (N.to_nat i - 1 < length (layout rt))%nat by (apply nth_error_Some; congruence); lia).
    rewrite N.mod_small by lia. unfold parseAt.
    replace (N.to_nat (i + 1)) with (S (S (N.to_nat i - 1))) by lia.
    rewrite table_layout by exact Hrt. rewrite NE. cbn [option_map].
    rewrite (switch_good bits rt f t v d Hb Hrt Hf). cbv beta iota.
    rewrite IH; [|lia| |lia].
    + f_equal. lia.
    + replace (N.to_nat (i + 1) - 1)%nat with (S (N.to_nat i - 1)) by lia.
      clear - HL. revert HL. generalize (N.to_nat i - 1)%nat. generalize (layout rt). intros L n.
      revert L; induction n as [|n IHn]; intros L HL; [cbn [skipn] in HL; subst; reflexivity|].
      destruct L as [|x L]; [discriminate|]. cbn [skipn] in HL |- *. apply IHn; exact HL.
Qed.

Lemma apply_fields_snoc rt : forall l vs v d f, nth_error l (length vs) = Some f ->
  apply_fields rt l (vs ++ [v]) d = apply_field rt f v (apply_fields rt l vs d).
Proof.
  induction l as [|g l IH]; intros vs v d f H; [destruct vs; discriminate|].
  destruct vs as [|w vs]; cbn [app apply_fields length nth_error] in *.
  - inversion H; subst. destruct l; reflexivity.
  - apply IH; exact H.
Qed.

Ltac rec_simp := cbn [app length layout nth_error recorded not_registered denied given lookup reg_field_eqb is_cs is_eps or_else option_map andb negb reset_or apply_field
    InitAtData1 set_cs set_ps set_rat set_csRejType set_csRejCause set_psRejType set_psRejCause set_cellId set_lac set_rac set_tac
    d_cs d_ps d_lac d_tac d_cellId d_rat d_rac d_csRejType d_csRejCause d_psRejType d_psRejCause].

Lemma recorded_snoc rt vs v d f : rt <> REG_UNKNOWN -> nth_error (layout rt) (length vs) = Some f ->
  recorded rt (vs ++ [v]) d = apply_field rt f v (recorded rt vs d).
Proof.
  intros Hrt H. destruct d as [rat cs ps crt crc prt prc cell lac rac tac].
  destruct vs as [|z vs].
  - assert (f = F_STAT) by (destruct rt; inversion H; reflexivity). subst f.
    unfold recorded, not_registered, denied, given. destruct rt; try congruence; rec_simp;
    destruct ((v =? 1) || (v =? 5)) eqn:R; rec_simp; destruct (v =? 3); destruct (cs =? 3); destruct (ps =? 3); reflexivity.
  - unfold recorded, not_registered, denied, given.
    destruct rt; try congruence; do 8 (destruct vs as [|? vs];
      [inversion H; subst f; rec_simp; destruct ((z =? 1) || (z =? 5)); destruct (z =? 3) eqn:E3; rec_simp; rewrite ?E3; reflexivity
      |try discriminate H]); destruct vs; discriminate H.
Qed.

Lemma apply_recorded rt vs d : rt <> REG_UNKNOWN -> (length vs <= length (layout rt))%nat ->
  apply_fields rt (layout rt) vs d = recorded rt vs d.
Proof.
  intros Hrt. induction vs as [|v vs IH] using rev_ind; intro Hlen.
  - destruct d as [rat cs ps crt crc prt prc cell lac rac tac].
    unfold recorded, not_registered, denied, given. destruct rt; try congruence; rec_simp; cbn [lookup apply_fields];
    destruct (cs =? 3); destruct (ps =? 3); reflexivity.
  - rewrite app_length in Hlen. cbn [length] in Hlen.
    destruct (nth_error (layout rt) (length vs)) as [f|] eqn:E; [|apply nth_error_None in E; lia].
    rewrite (apply_fields_snoc rt _ _ _ _ f E), (recorded_snoc rt _ _ _ f Hrt E), IH by lia. reflexivity.
Qed.

Lemma without_filter P drop s t : (forall c, drop c = true <-> P c) -> without P s t -> t = filter_loop drop s.
Proof.
  intros HP H. induction H as [|c s t Hc _ IH|c s t Hc _ IH]; cbn [filter_loop]; [reflexivity| |].
  - replace (drop c) with true; [exact IH|]. symmetry; apply HP; exact Hc.
  - destruct (drop c) eqn:E; [apply HP in E; contradiction|]. f_equal; exact IH.
Qed.

Lemma filter_filter s : filter_loop isspace (filter_loop (fun c => (c =? chDQ)%N) s) =
  filter_loop (fun c => (c =? chDQ)%N || isspace c) s.
Proof.
  induction s as [|c s IH]; cbn [filter_loop]; [reflexivity|].
  destruct (c =? chDQ)%N; cbn [orb filter_loop]; [exact IH|]. destruct (isspace c); [exact IH|f_equal; exact IH].
Qed.

Lemma report_filter raw fields : report_line raw fields ->
  filter_loop isspace (filter_loop (fun c => (c =? chDQ)%N) raw) = join chCOMMA fields.
Proof.
  intros (_ & _ & H & _). rewrite filter_filter. symmetry. apply (without_filter ignored_char); [|exact H].
  intro c. cbv beta. unfold ignored_char, isspace, space_char, chDQ. rewrite !orb_true_iff, andb_true_iff, !N.eqb_eq, !N.leb_le. lia.
Qed.

Lemma join_length d (l : list str) : (length l <= S (length (join d l)))%nat.
Proof.
  induction l as [|f l IH]; [cbn; lia|]. destruct l as [|g l]; [cbn [length]; lia|].
  change (join d (f :: g :: l)) with (f ++ d :: join d (g :: l)). rewrite app_length. cbn [length] in *. lia.
Qed.

Lemma join_in d (l : list str) (f : str) c : In f l -> In c f -> In c (join d l).
Proof.
  induction l as [|g l IH]; intros Hf Hc; [destruct Hf|].
  destruct l as [|h l]; cbn [In] in Hf.
  - destruct Hf as [->|[]]. exact Hc.
  - change (join d (g :: h :: l)) with (g ++ d :: join d (h :: l)). apply in_or_app.
    destruct Hf as [->|Hf]; [left; exact Hc|right; right; apply IH; assumption].
Qed.

Lemma report_tokens raw fields : report_line raw fields -> payload_tokens raw = reported_fields fields.
Proof.
  intro HR. unfold payload_tokens. rewrite (report_filter _ _ HR).
  pose proof (report_filter _ _ HR) as HF. destruct HR as ([Hne Hl] & Hn & _ & Hc).
  assert (L : (length (join chCOMMA fields) <= 256)%nat).
  { rewrite <- HF. pose proof (filter_loop_len isspace (filter_loop (fun c => (c =? chDQ)%N) raw)).
    pose proof (filter_loop_len (fun c => (c =? chDQ)%N) raw). lia. }
  apply tokens_join; [|lia|eapply Nat.le_lt_trans; [exact (join_length chCOMMA fields)|lia]].
  apply Forall_forall. intros f Hf. split; [rewrite Forall_forall in Hc; exact (Hc f Hf)|].
  intro H0. apply (join_in chCOMMA _ _ _ Hf) in H0. rewrite <- HF in H0.
  apply filter_loop_in in H0. destruct H0 as [H0 _]. apply filter_loop_in in H0. destruct H0 as [H0 _]. exact (Hn H0).
Qed.

Lemma numeral_nonempty base t v : starts_with_numeral base t v -> t <> [].
Proof.
  intros (sp & sg & cs & ds & tl & -> & _ & Hc & _) E.
  apply app_eq_nil in E. destruct E as [_ E]. apply app_eq_nil in E. destruct E as [_ E]. apply app_eq_nil in E. destruct E; contradiction.
Qed.

Lemma fields_text_nonempty l ts vs : fields_text l ts vs -> Forall (fun t => t <> []) ts.
Proof. induction 1 as [|f l t ts v vs (Hs & _) _ IH]; constructor; [eapply numeral_nonempty; eauto|exact IH]. Qed.
Lemma fields_text_len l ts vs : fields_text l ts vs -> length ts = length vs /\ (length ts <= length l)%nat.
Proof. induction 1 as [|f l t ts v vs _ _ IH]; cbn [length]; lia. Qed.

Lemma reported_nonempty (l : list str) : Forall (fun t : str => t <> []) l -> reported_fields l = l.
Proof.
  intro H. unfold reported_fields. destruct l as [|x l] using rev_ind; [reflexivity|]. rewrite last_last.
  apply Forall_app in H. destruct H as [_ H]. inversion H; subst. destruct x; [congruence|reflexivity].
Qed.
Lemma reported_app (a b : list str) : b <> [] -> reported_fields (a ++ b) = a ++ reported_fields b.
Proof.
  intro H. unfold reported_fields. destruct b as [|x b] using rev_ind; [congruence|].
  rewrite app_assoc, !last_last. destruct x; [|symmetry; apply app_assoc].
  rewrite !removelast_last. reflexivity.
Qed.

Lemma weight_app (a b : list str) : weight (a ++ b) = (weight a + weight b)%nat.
Proof. induction a; cbn [app weight]; lia. Qed.
Lemma weight_nonempty (l : list str) : Forall (fun t : str => t <> []) l -> (2 * length l <= weight l)%nat.
Proof. induction 1 as [|t l H _ IH]; cbn [weight length]; [lia|]. destruct t; [congruence|]. cbn [length]. lia. Qed.

Lemma parseAt_beyond' bits rt i tok d : (N.of_nat (length (layout rt)) + 2 <= i)%N -> parseAt bits rt i tok d = (PKT_OK, d).
Proof.
  intro H. unfold parseAt. replace (nth_error (parsingTable rt) (N.to_nat i)) with (@None reg_pos); [reflexivity|].
  symmetry. apply nth_error_None. destruct rt; cbn [layout parsingTable length] in *; lia.
Qed.
Lemma seq_beyond' bits rt : forall toks i d, (N.of_nat (length (layout rt)) + 1 <= i)%N -> (N.of_nat (length toks) + i < 256)%N ->
  seq_parse bits rt i toks d = (PKT_OK, d).
Proof.
  induction toks as [|t r IH]; intros i d H1 H2; [reflexivity|]. cbn [seq_parse length] in *.
  rewrite N.mod_small by lia. rewrite parseAt_beyond' by lia. apply IH; lia.
Qed.

Lemma events_due cb rt d d' : rt <> REG_UNKNOWN ->
  (if RegEventStatus d' rt (d_cs d) (d_ps d) then generateEvent rt cb d' else []) = due_events cb rt d d'.
Proof.
  intro H. unfold due_events, domain_status, event_of, generateEvent, RegEventStatus.
  destruct rt; try congruence; cbn [is_cs]; destruct cb; cbn [andb]; try reflexivity;
   match goal with |- (if negb ?b then _ else _) = _ => destruct b; reflexivity end.
Qed.

(** Skipping the leading field of a query answer. *)
Lemma seq_lead bits rt isUrc pre toks d : leading isUrc pre ->
  seq_parse bits rt (if isUrc then 1 else 0)%N (pre ++ toks) d = seq_parse bits rt 1 toks d.
Proof.
  intro H. destruct H as [|n Hn]; [reflexivity|]. cbn [app seq_parse]. change ((0 + 1) mod 256)%N with 1%N.
  replace (parseAt bits rt 1 n d) with (PKT_OK, d); [reflexivity|]. destruct rt; reflexivity.
Qed.
Lemma lead_nonempty isUrc pre : leading isUrc pre -> Forall (fun t : str => t <> []) pre.
Proof. intro H; destruct H; repeat constructor; assumption. Qed.

Lemma parse_line bits cb rt isUrc raw fields d : rt <> REG_UNKNOWN -> report_line raw fields -> reported_fields fields <> [] ->
  ParseRegStatus bits cb (Some raw) isUrc rt d =
    (let '(st, d') := seq_parse bits rt (if isUrc then 1 else 0)%N (reported_fields fields) d in Ok (st, d', due_events cb rt d d'))
  /\ (weight (reported_fields fields) <= 257)%nat.
Proof.
  intros Hrt HR HN. pose proof (report_tokens _ _ HR) as HT. destruct HR as (Hl & HR).
  pose proof (payload_weight raw Hl) as HW. rewrite HT in HW. split; [|exact HW].
  destruct (parse_cases bits cb (Some raw) isUrc rt d) as [(e & _ & _ & Hx)|(s & Es & _ & _ & _ & E)].
  - exfalso. specialize (Hx raw eq_refl Hl Hrt). apply HN. rewrite <- HT. unfold payload_tokens. rewrite Hx. reflexivity.
  - inversion Es; subst s. rewrite E, HT. set (sp := seq_parse _ _ _ _ _). destruct sp as [st d1]. rewrite <- (events_due cb rt d d1 Hrt). reflexivity.
Qed.

Lemma parse_good bits cb rt isUrc raw pre ts vs extra d : 32 <= bits -> rt <> REG_UNKNOWN -> leading isUrc pre ->
  report_line raw (pre ++ ts ++ extra) -> fields_text (layout rt) ts vs -> pre ++ ts <> [] ->
  (extra = [] \/ length ts = length (layout rt)) ->
  ParseRegStatus bits cb (Some raw) isUrc rt d = Ok (PKT_OK, recorded rt vs d, due_events cb rt d (recorded rt vs d)).
Proof.
  intros Hb Hrt HL HR HF HN HE.
  assert (RE : exists ex, reported_fields (pre ++ ts ++ extra) = pre ++ ts ++ ex /\ (ex = [] \/ length ts = length (layout rt))).
  { destruct extra as [|x ex].
    - exists []. rewrite app_nil_r. split; [|auto]. apply reported_nonempty. apply Forall_app. split; [eapply lead_nonempty; eauto|eapply fields_text_nonempty; eauto].
    - exists (reported_fields (x :: ex)). split; [|destruct HE; [discriminate|auto]].
      rewrite app_assoc, reported_app by discriminate. rewrite <- app_assoc. reflexivity. }
  destruct RE as (ex & RE & HE').
  assert (HN' : reported_fields (pre ++ ts ++ extra) <> []).
  { rewrite RE, app_assoc. intro Q. apply app_eq_nil in Q. destruct Q; contradiction. }
  destruct (parse_line bits cb rt isUrc raw _ d Hrt HR HN') as [E W]. rewrite E, RE.
  rewrite (seq_lead bits rt isUrc pre (ts ++ ex) d HL).
  rewrite (seq_good bits rt Hb Hrt (layout rt) ts vs HF 1 ex d) by (try lia; reflexivity).
  destruct (fields_text_len _ _ _ HF) as [L1 L2].
  rewrite apply_recorded by (try exact Hrt; lia).
  assert (SB : seq_parse bits rt (1 + N.of_nat (length ts)) ex (recorded rt vs d) = (PKT_OK, recorded rt vs d)).
  { destruct HE' as [->|HE']; [reflexivity|]. rewrite RE, !weight_app in W.
    pose proof (weight_nonempty ts (fields_text_nonempty _ _ _ HF)). pose proof (weight_length ex).
    assert (6 <= length (layout rt))%nat by (destruct rt; cbn; lia).
    apply seq_beyond'; lia. }
  rewrite SB. reflexivity.
Qed.

Lemma parse_bad bits cb rt isUrc raw pre ts vs f bad after d : 32 <= bits -> rt <> REG_UNKNOWN -> leading isUrc pre ->
  report_line raw (pre ++ ts ++ bad :: after) -> fields_text (layout rt) ts vs ->
  nth_error (layout rt) (length ts) = Some f -> field_bad f bad -> (bad <> [] \/ after <> []) ->
  ParseRegStatus bits cb (Some raw) isUrc rt d = Ok (PKT_FAILURE, recorded rt vs d, due_events cb rt d (recorded rt vs d)).
Proof.
  intros Hb Hrt HL HR HF Hnth HB HE.
  assert (RE : exists ex, reported_fields (pre ++ ts ++ bad :: after) = pre ++ ts ++ bad :: ex).
  { rewrite app_assoc. destruct after as [|x ex].
    - exists []. rewrite reported_app by discriminate. rewrite <- app_assoc. destruct HE as [HE|HE]; [|congruence].
      destruct bad; [congruence|reflexivity].
    - exists (reported_fields (x :: ex)). replace (bad :: x :: ex) with ([bad] ++ x :: ex) by reflexivity.
      rewrite app_assoc, reported_app by discriminate. rewrite <- !app_assoc. reflexivity. }
  destruct RE as (ex & RE).
  assert (HN' : reported_fields (pre ++ ts ++ bad :: after) <> []).
  { rewrite RE, app_assoc. intro Q. apply app_eq_nil in Q. destruct Q as [_ Q]; discriminate. }
  destruct (parse_line bits cb rt isUrc raw _ d Hrt HR HN') as [E W]. rewrite E, RE.
  rewrite (seq_lead bits rt isUrc pre (ts ++ bad :: ex) d HL).
  rewrite (seq_good bits rt Hb Hrt (layout rt) ts vs HF 1 (bad :: ex) d) by (try lia; reflexivity).
  destruct (fields_text_len _ _ _ HF) as [L1 L2].
  rewrite apply_recorded by (try exact Hrt; lia).
  assert (length (layout rt) <= 7)%nat by (destruct rt; cbn; lia).
  assert (length ts < length (layout rt))%nat by (apply nth_error_Some; congruence).
  cbn [seq_parse]. rewrite N.mod_small by lia. unfold parseAt.
  replace (N.to_nat (1 + N.of_nat (length ts) + 1)) with (S (S (length ts))) by lia.
  rewrite table_layout by exact Hrt. rewrite Hnth. cbn [option_map]. rewrite (switch_bad bits rt f bad _ Hb HB). reflexivity.
Qed.

(** * All payloads *)
Lemma parse_total bits cb payload isUrc rt d : exists st d' ev, ParseRegStatus bits cb payload isUrc rt d = Ok (st, d', ev).
Proof.
  destruct (parse_cases bits cb payload isUrc rt d) as [(e & E & _)|(s & _ & _ & _ & _ & E)]; rewrite E; eauto.
  destruct (seq_parse _ _ _ _ _) as [st d']. eauto.
Qed.

Lemma parse_events bits cb payload isUrc rt d st d' ev : rt <> REG_UNKNOWN ->
  ParseRegStatus bits cb payload isUrc rt d = Ok (st, d', ev) -> ev = due_events cb rt d d'.
Proof.
  intros Hrt H. destruct (parse_cases bits cb payload isUrc rt d) as [(e & E & _)|(s & _ & _ & _ & _ & E)]; rewrite E in H.
  - inversion H; subst. unfold due_events. rewrite Z.eqb_refl, andb_false_r. reflexivity.
  - destruct (seq_parse _ _ _ _ _) as [st1 d1]. inversion H; subst. apply events_due; exact Hrt.
Qed.

(** What one step may change. *)
Definition cs_part (d : at_data) := (d_cs d, d_csRejType d, d_csRejCause d).
Definition ps_part (d : at_data) := (d_ps d, d_psRejType d, d_psRejCause d).

Lemma switch_frame bits p rt tok d st d' : switchParsing bits p rt tok d = (st, d') ->
  (is_cs rt = true -> rt <> REG_UNKNOWN -> ps_part d' = ps_part d) /\ (is_cs rt = false -> rt <> REG_UNKNOWN -> cs_part d' = cs_part d).
Proof.
  unfold switchParsing, parseStat, parseLacTac, parseCellId, parseRat, parseRejType, parseRejCause, parseRac.
  destruct p; try destruct (get_int _ _ _ _) as [[] v]; intro H; inversion H; subst; split; intros; destruct rt; try discriminate; try congruence;
   unfold cs_part, ps_part; try destruct (v =? 1); try destruct (v =? 5);
   try destruct (d_cs d =? REG_DENIED); try destruct (d_ps d =? REG_DENIED); reflexivity.
Qed.

Lemma seq_frame bits rt : forall toks i d st d', seq_parse bits rt i toks d = (st, d') ->
  (is_cs rt = true -> rt <> REG_UNKNOWN -> ps_part d' = ps_part d) /\ (is_cs rt = false -> rt <> REG_UNKNOWN -> cs_part d' = cs_part d).
Proof.
  induction toks as [|t r IH]; intros i d st d' H; cbn [seq_parse] in H; [inversion H; subst; auto|].
  destruct (parseAt bits rt ((i + 1) mod 256) t d) as [s1 d1] eqn:P.
  assert (F : (is_cs rt = true -> rt <> REG_UNKNOWN -> ps_part d1 = ps_part d) /\ (is_cs rt = false -> rt <> REG_UNKNOWN -> cs_part d1 = cs_part d)).
  { unfold parseAt in P. destruct (nth_error _ _) as [p|]; [eapply switch_frame; eauto|inversion P; subst; auto]. }
  destruct F as [F1 F2].
  destruct s1; try (inversion H; subst; split; assumption).
  destruct (IH _ _ _ _ H) as [G1 G2]. split; intros A B; [rewrite G1 by assumption; auto|rewrite G2 by assumption; auto].
Qed.

Lemma parse_frame bits cb payload isUrc rt d st d' ev : rt <> REG_UNKNOWN ->
  ParseRegStatus bits cb payload isUrc rt d = Ok (st, d', ev) ->
  if is_cs rt then ps_part d' = ps_part d else cs_part d' = cs_part d.
Proof.
  intros Hrt H. destruct (parse_cases bits cb payload isUrc rt d) as [(e & E & _)|(s & _ & _ & _ & _ & E)]; rewrite E in H.
  - inversion H; subst. destruct (is_cs rt); reflexivity.
  - destruct (seq_parse _ _ _ _ _) as [st1 d1] eqn:Q. inversion H; subst. apply seq_frame in Q. destruct Q as [Q1 Q2].
    destruct (is_cs rt); auto.
Qed.

(** Reject information changes only while denied. *)
Definition rej_part (rt : reg_type) (d : at_data) := if is_cs rt then (d_csRejType d, d_csRejCause d) else (d_psRejType d, d_psRejCause d).

Lemma step_reject bits rt i tok d st d' : rt <> REG_UNKNOWN -> parseAt bits rt i tok d = (st, d') ->
  (i = 2%N -> rej_part rt d' = rej_part rt d) /\
  (i <> 2%N -> domain_status rt d' = domain_status rt d /\ (rej_part rt d' = rej_part rt d \/ domain_status rt d = 3)).
Proof.
  intros Hrt H. unfold parseAt in H.
  destruct (nth_error (parsingTable rt) (N.to_nat i)) as [p|] eqn:E.
  2:{ inversion H; subst; auto. }
  assert (PS : p = POS_STAT <-> i = 2%N).
  { split; [intros ->|intros ->].
    - assert (L : (N.to_nat i < 9)%nat) by (assert (N.to_nat i < length (parsingTable rt))%nat by (apply nth_error_Some; congruence);
         destruct rt; cbn [parsingTable length] in *; lia).
      remember (N.to_nat i) as n. destruct rt; try congruence; do 9 (destruct n as [|n]; [try discriminate; lia|]); lia.
    - destruct rt; try congruence; inversion E; reflexivity. }
  unfold switchParsing, parseStat, parseLacTac, parseCellId, parseRat, parseRejType, parseRejCause, parseRac in H.
  split; intro Hi.
  - assert (p = POS_STAT) by (apply PS; exact Hi). subst p.
    destruct (get_int _ _ _ _) as [[] v]; inversion H; subst; try reflexivity.
    destruct rt; try congruence; destruct (v =? 1); destruct (v =? 5); reflexivity.
  - assert (NP : p <> POS_STAT) by (intro Q; apply PS in Q; contradiction).
    destruct p; try congruence; try (destruct (get_int _ _ _ _) as [[] v]); inversion H; subst; auto;
     destruct rt; try congruence; unfold domain_status, rej_part; cbn [is_cs];
     try (destruct (d_cs d =? REG_DENIED) eqn:D; [apply Z.eqb_eq in D; unfold REG_DENIED in D|]);
     try (destruct (d_ps d =? REG_DENIED) eqn:D'; [apply Z.eqb_eq in D'; unfold REG_DENIED in D'|]);
     split; auto.
Qed.

Lemma seq_reject bits rt d0 : rt <> REG_UNKNOWN -> forall toks i d st d', (N.of_nat (length toks) + i < 256)%N ->
  ((i < 2)%N -> rej_part rt d = rej_part rt d0) -> ((2 <= i)%N -> rej_part rt d = rej_part rt d0 \/ domain_status rt d = 3) ->
  seq_parse bits rt i toks d = (st, d') -> rej_part rt d' = rej_part rt d0 \/ domain_status rt d' = 3.
Proof.
  intros Hrt. induction toks as [|t r IH]; intros i d st d' Hl H1 H2 H; cbn [seq_parse length] in *.
  - inversion H; subst. destruct (N.ltb_spec i 2); auto.
  - rewrite N.mod_small in H by lia. destruct (parseAt bits rt (i + 1) t d) as [s1 d1] eqn:P.
    destruct (step_reject _ _ _ _ _ _ _ Hrt P) as [P1 P2].
    assert (J1 : (i + 1 < 2)%N -> rej_part rt d1 = rej_part rt d0).
    { intro Q. assert (i = 0)%N by lia. subst i. cbn [N.add] in *. destruct rt; try congruence; inversion P; subst; apply H1; lia. }
    assert (J2 : (2 <= i + 1)%N -> rej_part rt d1 = rej_part rt d0 \/ domain_status rt d1 = 3).
    { intro Q. destruct (N.eq_dec (i + 1) 2) as [E|E].
      - left. rewrite P1 by exact E. apply H1; lia.
      - destruct (P2 E) as [S [R|R]].
        + destruct (H2 ltac:(lia)) as [K|K]; [left; congruence|right; congruence].
        + right; congruence. }
    destruct s1; [eapply IH; [|exact J1|exact J2|exact H]; lia|..];
      (inversion H; subst; destruct (N.ltb_spec (i + 1) 2); auto).
Qed.

Lemma parse_reject bits cb payload isUrc rt d st d' ev : rt <> REG_UNKNOWN ->
  ParseRegStatus bits cb payload isUrc rt d = Ok (st, d', ev) -> rej_part rt d' = rej_part rt d \/ domain_status rt d' = 3.
Proof.
  intros Hrt H. destruct (parse_cases bits cb payload isUrc rt d) as [(e & E & _)|(s & _ & _ & Hs & _ & E)]; rewrite E in H.
  - inversion H; subst. auto.
  - rewrite payload_first8 in H by exact Hs.
    destruct (seq_parse _ _ _ _ _) as [st1 d1] eqn:Q. inversion H; subst.
    eapply (seq_reject bits rt d Hrt _ _ d); [| | |exact Q]; auto.
    pose proof (firstn_le_length (if isUrc then 8 else 9) (payload_tokens s)) as F.
    assert (G : (length (firstn (if isUrc then 8 else 9) (payload_tokens s)) <= 9)%nat).
    { rewrite firstn_length. destruct isUrc; lia. }
    destruct isUrc; lia.
Qed.

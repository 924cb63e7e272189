(** Proofs about the identity, SIM and IP address parsers of the 3GPP API layer. *)
From Coq Require Import String List NArith ZArith Bool Lia Arith ZifyBool ZifyN ZifyNat.
From Verif Require Import Bytes AtCore AtMem SpecAt AtProofs AtProofs2 AtProofs3 Status Pktio SendCmd Socket RegStatus SpecReg RegProofs SpecG3pp G3pp SpecG3ppApi G3ppProofs G3ppCmds.
Import ListNotations.
Local Open Scope nat_scope.
Local Arguments Nat.sub : simpl never.

(** ** Arrays *)
Lemma strncpy_ok buf t n : n <= length buf -> strncpy_m buf t n = Ok (firstn n t ++ repeat 0%N (n - length t) ++ skipn n buf).
Proof.
  intro H. unfold strncpy_m, wr, strncpy_bytes.
  assert (L : length (firstn n t ++ repeat 0%N (n - length t)) = n) by (rewrite app_length, firstn_length, repeat_length; lia).
  rewrite L. cbn [Nat.add firstn app]. replace (n <=? length buf) with true by lia. rewrite <- app_assoc. reflexivity.
Qed.
Lemma skipn_repeat0 n k : skipn n (repeat 0%N k) = repeat 0%N (k - n).
Proof.
  revert k. induction n as [|n IH]; intro k; [now rewrite Nat.sub_0_r|]. destruct k; [reflexivity|]. cbn [repeat skipn]. rewrite IH. f_equal.
Qed.
Lemma strncpy_zero n t : strncpy_m (repeat 0%N (S n)) t n = Ok (firstn n t ++ repeat 0%N (S n - Nat.min n (length t))).
Proof.
  rewrite strncpy_ok by (rewrite repeat_length; lia). do 2 f_equal. rewrite skipn_repeat0.
  rewrite <- repeat_app. f_equal. lia.
Qed.
Lemma zero_pad_holds (t : str) k : holds (t ++ repeat 0%N (S k)) t.
Proof. exists (repeat 0%N k). reflexivity. Qed.
Lemma strncpy_zero_holds n (t : str) : exists b, strncpy_m (repeat 0%N (S n)) t n = Ok b /\ holds b (firstn n t) /\ length b = S n.
Proof.
  rewrite strncpy_zero. eexists. split; [reflexivity|]. split.
  - replace (S n - Nat.min n (length t)) with (S (n - Nat.min n (length t))) by lia. apply zero_pad_holds.
  - rewrite app_length, firstn_length, repeat_length. lia.
Qed.

(** ** White space *)

Lemma skip_spaces_app sp t : Forall space_char sp -> (exists c t', t = c :: t' /\ ~ space_char c) -> skip_spaces (sp ++ t) = t.
Proof.
  intros Hs (c & t' & -> & Hc). induction Hs as [|x sp Hx Hs IH]; cbn [app skip_spaces].
  - destruct (isspace c) eqn:E; [apply isspace_iff in E; contradiction|reflexivity].
  - apply isspace_iff in Hx. rewrite Hx. exact IH.
Qed.
Lemma trail_loop_gen' (t : str) c : ~ space_char c -> forall w, Forall space_char w ->
  trail_loop (t ++ c :: w) (length t + length w) = length t.
Proof.
  intros Hc w. induction w as [|x w IH] using rev_ind; intros Hw.
  - cbn [length]. rewrite Nat.add_0_r. destruct (length t) eqn:E; [reflexivity|].
    cbn [trail_loop]. rewrite <- E, nth_middle. destruct (isspace c) eqn:Es; [apply isspace_iff in Es; contradiction|reflexivity].
  - apply Forall_app in Hw as [Hw Hx]. inversion Hx as [|? ? Hx' _]. subst. apply isspace_iff in Hx'.
    rewrite app_length. cbn [length]. replace (length t + (length w + 1)) with (S (length t + length w)) by lia.
    cbn [trail_loop].
    assert (E : nth (S (length t + length w)) (t ++ c :: w ++ [x]) 0%N = x).
    { rewrite app_nth2 by lia. replace (S (length t + length w) - length t) with (S (length w)) by lia. cbn [nth]. apply nth_middle. }
    rewrite E, Hx'.
    assert (P : forall n, n <= length t + length w -> trail_loop (t ++ c :: w ++ [x]) n = trail_loop (t ++ c :: w) n).
    { induction n as [|n IHn]; intro Hn; [reflexivity|]. cbn [trail_loop]. rewrite IHn by lia.
      replace (t ++ c :: w ++ [x]) with ((t ++ c :: w) ++ [x]) by (rewrite <- app_assoc; reflexivity).
      rewrite app_nth1 by (rewrite app_length; cbn [length]; lia). reflexivity. }
    rewrite P by lia. apply IH. exact Hw.
Qed.
Lemma trailing_ok (t w : str) : Forall space_char w -> (w = [] \/ 2 < length (t ++ w)) -> length (t ++ w) <= 256 ->
  (exists c t', t = t' ++ [c] /\ ~ space_char c) -> ATRemoveTrailingWhiteSpaces (Some (t ++ w)) = (AT_SUCCESS, Some t).
Proof.
  intros Hw Hl Hlen (c & t' & -> & Hc). unfold ATRemoveTrailingWhiteSpaces.
  rewrite valid_of; [|destruct t'; discriminate|exact Hlen].
  destruct (Nat.ltb_spec 2 (length ((t' ++ [c]) ++ w))) as [H|H].
  - do 2 f_equal. rewrite <- app_assoc. cbn [app].
    replace (length (t' ++ c :: w) - 1) with (length t' + length w) by (rewrite app_length; cbn [length]; lia).
    rewrite (trail_loop_gen' t' c Hc w Hw).
    replace (t' ++ c :: w) with ((t' ++ [c]) ++ w) by (rewrite <- app_assoc; reflexivity).
    rewrite firstn_app, firstn_all2 by (rewrite app_length; cbn; lia).
    replace (S (length t') - length (t' ++ [c])) with 0 by (rewrite app_length; cbn; lia). cbn. now rewrite app_nil_r.
  - destruct Hl as [->|?]; [now rewrite app_nil_r|lia].
Qed.
Lemma leading_ok l t : padded l t -> exists w, ATRemoveLeadingWhiteSpaces (Some l) = (AT_SUCCESS, Some (t ++ w)) /\
  ATRemoveTrailingWhiteSpaces (Some (t ++ w)) = (AT_SUCCESS, Some t).
Proof.
  intros (sp & w & -> & Hs & Hw & Hl & Hlen & Hf & Hla). exists w. split.
  - unfold ATRemoveLeadingWhiteSpaces. rewrite valid_of.
    + do 2 f_equal. apply skip_spaces_app; [exact Hs|]. destruct Hf as (c & t' & -> & Hc). exists c, (t' ++ w). split; [reflexivity|exact Hc].
    + destruct Hf as (c & t' & -> & _). destruct sp; discriminate.
    + exact Hlen.
  - apply trailing_ok; try assumption. rewrite app_length in Hlen. lia.
Qed.

Lemma text_ok n (l : str) more (t : str) : padded l t -> exists b, RecvFuncText n (l :: more) (repeat 0%N (S n)) = Ok (PKT_OK, b) /\ holds b (firstn n t) /\ length b = S n.
Proof.
  intro H. destruct (leading_ok _ _ H) as (w & E1 & E2). unfold RecvFuncText, cb_first. rewrite E1, E2.
  destruct (strncpy_zero_holds n t) as (b & -> & Hb & Lb). exists b. cbn [bind]. auto.
Qed.
Lemma text_total n ls k : n <= k -> exists st b, RecvFuncText n ls (repeat 0%N k) = Ok (st, b).
Proof.
  intro H. unfold RecvFuncText, cb_first. destruct ls as [|l ls]; [eauto|].
  destruct (ATRemoveLeadingWhiteSpaces (Some l)) as [e s1]; destruct e; eauto.
  destruct (ATRemoveTrailingWhiteSpaces s1) as [e [s2|]]; destruct e; eauto.
  rewrite strncpy_ok by (rewrite repeat_length; lia). cbn [bind]. eauto.
Qed.

Lemma filter_without l : without space_char l (filter_loop isspace l).
Proof.
  induction l as [|c l IH]; [constructor|]. cbn [filter_loop]. destruct (isspace c) eqn:E.
  - apply without_drop; [now apply isspace_iff|exact IH].
  - apply without_keep; [|exact IH]. intro H. apply isspace_iff in H. congruence.
Qed.
Lemma filter_dq_without l : without is_quote l (filter_loop (fun c => (c =? chDQ)%N) l).
Proof.
  induction l as [|c l IH]; [constructor|]. cbn [filter_loop]. destruct (N.eqb_spec c chDQ) as [E|E].
  - apply without_drop; [exact E|exact IH].
  - apply without_keep; [exact E|exact IH].
Qed.

(** ** IMEI *)
Lemma imei_ok (l : str) more (t : str) : l <> [] -> length l <= 256 -> without space_char l t -> t <> [] ->
  exists b, RecvFuncGetImei (l :: more) (repeat 0%N (S IMEI_MAX_SIZE)) = Ok (PKT_OK, b) /\ holds b (firstn IMEI_MAX_SIZE t) /\ length b = S IMEI_MAX_SIZE.
Proof.
  intros Hl Hlen Hw Ht. unfold RecvFuncGetImei, cb_first, ATRemoveLeadingWhiteSpaces. rewrite valid_of by assumption. cbv beta iota.
  assert (E : forall l, without space_char l t -> without space_char (skip_spaces l) t).
  { clear. induction l as [|c l IH]; intro H; [exact H|]. cbn [skip_spaces]. destruct (isspace c) eqn:E; [|exact H].
    apply isspace_iff in E. inversion H; subst; [apply IH; assumption|contradiction]. }
  apply E in Hw. unfold ATRemoveAllWhiteSpaces. rewrite valid_of.
  - rewrite (ws_filter _ _ Hw). destruct (strncpy_zero_holds IMEI_MAX_SIZE t) as (b & -> & Hb & Lb). exists b. cbn [bind]. auto.
  - intro E0. rewrite E0 in Hw. apply without_nil_inv in Hw. contradiction.
  - clear - Hlen. assert (forall l, length (skip_spaces l) <= length l) as K.
    { induction l0 as [|c l0 IH]; cbn [skip_spaces]; [lia|]. destruct (isspace c); cbn [length]; lia. }
    specialize (K l). lia.
Qed.
Lemma imei_total ls k : IMEI_MAX_SIZE <= k -> exists st b, RecvFuncGetImei ls (repeat 0%N k) = Ok (st, b).
Proof.
  intro H. unfold RecvFuncGetImei, cb_first. destruct ls as [|l ls]; [eauto|].
  destruct (ATRemoveLeadingWhiteSpaces (Some l)) as [e s1]; destruct e; eauto.
  destruct (ATRemoveAllWhiteSpaces s1) as [e [s2|]]; destruct e; eauto.
  rewrite strncpy_ok by (rewrite repeat_length; lia). cbn [bind]. eauto.
Qed.

(** ** IMSI and ICCID *)
Lemma copy_all n (t : str) : length t < S n ->
  strncpy_m (repeat 0%N (S n)) t (S n) = Ok (t ++ repeat 0%N (S n - length t)) /\ holds (t ++ repeat 0%N (S n - length t)) t.
Proof.
  intro H. rewrite strncpy_ok by (rewrite repeat_length; lia). rewrite firstn_all2 by lia.
  rewrite skipn_all2 by (rewrite repeat_length; lia). rewrite app_nil_r. split; [reflexivity|].
  replace (S n - length t) with (S (n - length t)) by lia. apply zero_pad_holds.
Qed.
Lemma imsi_ok (l : str) more (t : str) : l <> [] -> length l <= 256 -> without space_char l t -> length t <= IMSI_MAX_SIZE ->
  exists b, RecvFuncGetImsi (l :: more) (repeat 0%N (S IMSI_MAX_SIZE)) = Ok (PKT_OK, b) /\ holds b t.
Proof.
  intros Hl Hlen Hw Ht. unfold RecvFuncGetImsi, cb_first, ATRemoveAllWhiteSpaces. rewrite valid_of by assumption.
  rewrite (ws_filter _ _ Hw). destruct (copy_all IMSI_MAX_SIZE t ltac:(lia)) as [-> K].
  replace (length t <? S IMSI_MAX_SIZE) with true by lia. cbn [bind]. eauto.
Qed.
Lemma imsi_inv ls b : RecvFuncGetImsi ls (repeat 0%N (S IMSI_MAX_SIZE)) = Ok (PKT_OK, b) ->
  exists l more t, ls = l :: more /\ without space_char l t /\ length t <= IMSI_MAX_SIZE /\ holds b t.
Proof.
  unfold RecvFuncGetImsi, cb_first. destruct ls as [|l ls]; [discriminate|].
  unfold ATRemoveAllWhiteSpaces. destruct (is_valid l); [|discriminate].
  destruct (Nat.ltb_spec (length (filter_loop isspace l)) (S IMSI_MAX_SIZE)) as [H|H]; [|discriminate].
  destruct (copy_all IMSI_MAX_SIZE (filter_loop isspace l) H) as [-> K]. cbn [bind]. intro E. injection E as <-.
  exists l, ls, (filter_loop isspace l). split; [reflexivity|]. split; [apply filter_without|]. split; [lia|exact K].
Qed.
Lemma imsi_total ls k : S IMSI_MAX_SIZE <= k -> exists st b, RecvFuncGetImsi ls (repeat 0%N k) = Ok (st, b).
Proof.
  intro H. unfold RecvFuncGetImsi, cb_first. destruct ls as [|l ls]; [eauto|].
  destruct (ATRemoveAllWhiteSpaces (Some l)) as [e [s2|]]; destruct e; eauto.
  destruct (length s2 <? S IMSI_MAX_SIZE); eauto.
  rewrite strncpy_ok by (rewrite repeat_length; lia). cbn [bind]. eauto.
Qed.

Lemma strchr_split l n : strchr l chCOLON = Some n -> exists p s, l = p ++ 58%N :: s /\ ~ In 58%N p /\ skipn (S n) l = s.
Proof.
  revert n. induction l as [|c l IH]; intros n H; [discriminate|]. cbn [strchr] in H.
  destruct (N.eqb_spec c chCOLON) as [->|Hc].
  - injection H as <-. exists [], l. split; [reflexivity|]. split; [intros []|reflexivity].
  - destruct (strchr l chCOLON) as [k|] eqn:E; [|discriminate]. injection H as <-.
    destruct (IH k eq_refl) as (p & s & -> & Hp & Hs). exists (c :: p), s. split; [reflexivity|]. split; [|exact Hs].
    intros [K|K]; [apply Hc; exact K|contradiction].
Qed.
Lemma without_app P (s t : str) : forall a b, without P a s -> without P b t -> without P (a ++ b) (s ++ t).
Proof.
  intros a b H. revert b t. induction H as [|c a s Hc H IH|c a s Hc H IH]; intros b t Hb; cbn [app].
  - exact Hb.
  - apply without_drop; auto.
  - apply without_keep; auto.
Qed.
Lemma spaced_front raw text : spaced_line raw text ->
  exists s, ATRemoveAllWhiteSpaces (Some raw) = (AT_SUCCESS, Some s) /\ ATRemovePrefix (Some s) = (AT_SUCCESS, Some text) /\ length s <= 256.
Proof.
  intros (p & Hw & Hp & Hl). exists (p ++ 58%N :: text).
  assert (raw <> []) by (intro E; subst; apply without_nil_inv in Hw; destruct p; discriminate).
  assert (L : length (p ++ 58%N :: text) <= length raw) by (clear - Hw; induction Hw; cbn [length]; lia).
  unfold ATRemoveAllWhiteSpaces. rewrite valid_of by assumption. rewrite (ws_filter _ _ Hw). split; [reflexivity|]. split; [|lia].
  unfold ATRemovePrefix. rewrite valid_of; [|destruct p; discriminate|lia].
  assert (C : strchr (p ++ 58%N :: text) chCOLON = Some (length p)).
  { clear - Hp. induction p as [|c p IH]; [reflexivity|]. cbn [app strchr length].
    destruct (N.eqb_spec c chCOLON) as [->|]; [exfalso; apply Hp; now left|]. rewrite IH; [reflexivity|]. intro H; apply Hp; now right. }
  rewrite C. do 2 f_equal. replace (p ++ 58%N :: text) with ((p ++ [58%N]) ++ text) by (rewrite <- app_assoc; reflexivity).
  rewrite skipn_app, skipn_all2 by (rewrite app_length; cbn; lia).
  replace (S (length p) - length (p ++ [58%N])) with 0 by (rewrite app_length; cbn; lia). reflexivity.
Qed.
Lemma spaced_inv raw s text : ATRemoveAllWhiteSpaces (Some raw) = (AT_SUCCESS, s) -> ATRemovePrefix s = (AT_SUCCESS, Some text) ->
  spaced_line raw text.
Proof.
  unfold ATRemoveAllWhiteSpaces. destruct (is_valid raw) eqn:V; [|discriminate]. intro E. injection E as <-.
  unfold ATRemovePrefix. destruct (is_valid (filter_loop isspace raw)); [|discriminate].
  destruct (strchr (filter_loop isspace raw) chCOLON) as [n|] eqn:C; [|discriminate]. intro E. injection E as E.
  destruct (strchr_split _ _ C) as (p & s & E1 & Hp & E2). exists p. assert (T : text = s) by (rewrite <- E2; exact (eq_sym E)). rewrite T, <- E1.
  split; [apply filter_without|]. split; [exact Hp|]. apply is_valid_iff in V. destruct V. lia.
Qed.

Lemma remove_prefix_none s : ATRemovePrefix s <> (AT_SUCCESS, None).
Proof.
  unfold ATRemovePrefix. destruct s as [s|]; [|discriminate]. destruct (is_valid s); [|discriminate].
  destruct (strchr s chCOLON); discriminate.
Qed.
Lemma iccid_ok (l : str) more (t : str) : spaced_line l t -> length t <= ICCID_MAX_SIZE ->
  exists b, RecvFuncGetIccid (l :: more) (repeat 0%N (S ICCID_MAX_SIZE)) = Ok (PKT_OK, b) /\ holds b t.
Proof.
  intros Hl Ht. destruct (spaced_front _ _ Hl) as (s & E1 & E2 & _). unfold RecvFuncGetIccid, cb_first. rewrite E1, E2.
  destruct (copy_all ICCID_MAX_SIZE t ltac:(lia)) as [-> K]. replace (length t <? S ICCID_MAX_SIZE) with true by lia. cbn [bind]. eauto.
Qed.
Lemma iccid_inv ls b : RecvFuncGetIccid ls (repeat 0%N (S ICCID_MAX_SIZE)) = Ok (PKT_OK, b) ->
  exists l more t, ls = l :: more /\ spaced_line l t /\ length t <= ICCID_MAX_SIZE /\ holds b t.
Proof.
  unfold RecvFuncGetIccid, cb_first. destruct ls as [|l ls]; [discriminate|].
  destruct (ATRemoveAllWhiteSpaces (Some l)) as [e s1] eqn:E1. destruct e; try discriminate.
  destruct (ATRemovePrefix s1) as [e [s2|]] eqn:E2; destruct e; try discriminate; [|destruct (remove_prefix_none _ E2)].
  destruct (Nat.ltb_spec (length s2) (S ICCID_MAX_SIZE)) as [H|H]; [|discriminate].
  destruct (copy_all ICCID_MAX_SIZE s2 H) as [-> K]. cbn [bind]. intro E. injection E as <-.
  exists l, ls, s2. split; [reflexivity|]. split; [exact (spaced_inv _ _ _ E1 E2)|]. split; [lia|exact K].
Qed.
Lemma iccid_total ls k : S ICCID_MAX_SIZE <= k -> exists st b, RecvFuncGetIccid ls (repeat 0%N k) = Ok (st, b).
Proof.
  intro H. unfold RecvFuncGetIccid, cb_first. destruct ls as [|l ls]; [eauto|].
  destruct (ATRemoveAllWhiteSpaces (Some l)) as [e s1]; destruct e; eauto.
  destruct (ATRemovePrefix s1) as [e [s2|]]; destruct e; eauto.
  destruct (length s2 <? S ICCID_MAX_SIZE); eauto.
  rewrite strncpy_ok by (rewrite repeat_length; lia). cbn [bind]. eauto.
Qed.

(** ** Comma separated fields, one at a time *)
Lemma next_field (f g : str) more : Forall (fun x => ~ In 44%N x) (f :: g :: more) -> no_nul (join 44 (f :: g :: more)) ->
  length (join 44 (f :: g :: more)) <= 256 ->
  ATGetNextTok (Some (join 44%N (f :: g :: more))) = (AT_SUCCESS, Some (join 44%N (g :: more)), Some f) /\
  no_nul (join 44 (g :: more)) /\ length (join 44 (g :: more)) <= 256.
Proof.
  intros Hc Hn Hl. change (join 44 (f :: g :: more)) with (f ++ 44%N :: join 44 (g :: more)) in *.
  inversion Hc as [|? ? Hf Hr]. subst. rewrite app_length in Hl. cbn [length] in Hl.
  assert (Nr : no_nul (join 44 (g :: more))) by (intro H; apply Hn; apply in_or_app; right; now right).
  split; [|split; [exact Nr|lia]]. apply tok_content_split.
  - split; [destruct f; discriminate|]. rewrite app_length. cbn [length]. lia.
  - exact Hf.
  - exact Nr.
Qed.
Lemma last_field (f : str) : ~ In 44%N f -> f <> [] -> length f <= 256 ->
  ATGetNextTok (Some (join 44%N [f])) = (AT_SUCCESS, Some [], Some f).
Proof. intros Hf Hne Hl. cbn [join]. apply tok_content_last; [split; [exact Hne|lia]|exact Hf]. Qed.
(** the first field, whatever follows *)
Lemma head_field (f : str) more : Forall (fun x => ~ In 44%N x) (f :: more) -> f <> [] -> no_nul (join 44 (f :: more)) ->
  length (join 44 (f :: more)) <= 256 -> exists rest, ATGetNextTok (Some (join 44%N (f :: more))) = (AT_SUCCESS, rest, Some f).
Proof.
  intros Hc Hne Hn Hl. destruct more as [|g more].
  - eexists. apply last_field; [inversion Hc; assumption|exact Hne|exact Hl].
  - eexists. apply next_field; assumption.
Qed.

Lemma crsm_front raw fields : crsm_line raw fields -> fields <> [] -> last fields [0%N] <> [] ->
  exists s text, ATRemoveAllWhiteSpaces (Some raw) = (AT_SUCCESS, Some s) /\ ATRemovePrefix (Some s) = (AT_SUCCESS, Some text) /\
    ATRemoveAllDoubleQuote (Some text) = (AT_SUCCESS, Some (join 44%N fields)) /\
    no_nul (join 44 fields) /\ length (join 44 fields) <= 256 /\ Forall (fun f => ~ In 44%N f) fields.
Proof.
  intros (text & Hsp & HF & Hn) Hne Hlast. destruct (spaced_front _ _ Hsp) as (s & E1 & E2 & L). exists s, text.
  split; [exact E1|]. split; [exact E2|].
  assert (Nt : no_nul text).
  { destruct Hsp as (p & Hw & _ & _). intro H. apply Hn.
    assert (K : forall a b, without space_char a b -> forall c, In c b -> In c a).
    { induction 1 as [|c a b Hc W IH|c a b Hc W IH]; intros x Hx; [exact Hx|right; auto|].
      destruct Hx as [->|Hx]; [now left|right; auto]. }
    apply (K _ _ Hw). apply in_or_app. right. now right. }
  destruct (has_fields_nonul _ _ _ HF Nt) as [Nj Lj]. destruct HF as [HW HC].
  assert (Lt : length text <= 256).
  { destruct Hsp as (p & Hw & _ & Hl). assert (K : length (p ++ 58%N :: text) <= length raw) by (clear - Hw; induction Hw; cbn [length]; lia).
    rewrite app_length in K. cbn [length] in K. lia. }
  split; [|split; [exact Nj|split; [lia|exact HC]]].
  unfold ATRemoveAllDoubleQuote. rewrite valid_of; [rewrite (dq_filter _ _ HW); reflexivity| |exact Lt].
  intro E. subst text. apply without_nil_inv in HW.
  destruct fields as [|f [|g fields]]; [contradiction| |].
  - cbn [join] in HW. cbn [last] in Hlast. congruence.
  - cbn [join] in HW. destruct f; discriminate.
Qed.

(** rewriting with a token equation up to the alias str = list N *)
Ltac tok_rewrite E :=
  match type of E with ATGetNextTok _ = ?r =>
    match goal with |- context [ATGetNextTok ?y] => replace (ATGetNextTok y) with r by (symmetry; exact E) end end;
  cbv beta iota.

Lemma parse_hplmn mcc mnc tail : digit3 mcc -> digit23 mnc -> 3 <= length tail ->
  exists p, parseHplmn (hplmn_record mcc mnc ++ tail) (s_plmn sim_info0) = Ok (true, p) /\ holds (p_mcc p) mcc /\ holds (p_mnc p) mnc.
Proof.
  intros [L3 D3] [L2 D2] Ht. destruct mcc as [|c1 [|c2 [|c3 [|]]]]; try discriminate.
  assert (Hd : forall c, digit_char c -> (c =? 70)%N = false /\ (c =? 0)%N = false) by (intros c H; unfold digit_char in H; lia).
  repeat match goal with H : Forall digit_char (_ :: _) |- _ => inversion H; clear H; subst end.
  destruct mnc as [|n1 [|n2 [|n3 [|]]]]; cbn in L2; try lia.
  - repeat match goal with H : Forall digit_char (_ :: _) |- _ => inversion H; clear H; subst end.
    cbn [hplmn_record app]. unfold parseHplmn, CRSM_HPLMN_RAT_LENGTH. cbn [length].
    replace (S (S (S (S (S (S (length tail)))))) <? 9) with false by lia.
    change (s2b "FFFFFF") with [70; 70; 70; 70; 70; 70]%N. cbn [has_prefix].
    rewrite (N.eqb_sym 70 c2). rewrite (proj1 (Hd c2 ltac:(assumption))). cbn [andb orb].
    cbn. eexists. split; [reflexivity|]. split; [exists []|exists [0%N]]; reflexivity.
  - repeat match goal with H : Forall digit_char (_ :: _) |- _ => inversion H; clear H; subst end.
    cbn [hplmn_record app]. unfold parseHplmn, CRSM_HPLMN_RAT_LENGTH. cbn [length].
    replace (S (S (S (S (S (S (length tail)))))) <? 9) with false by lia.
    change (s2b "FFFFFF") with [70; 70; 70; 70; 70; 70]%N. cbn [has_prefix].
    rewrite (N.eqb_sym 70 c2). rewrite (proj1 (Hd c2 ltac:(assumption))). cbn [andb orb].
    cbn. rewrite (proj1 (Hd n3 ltac:(assumption))). cbn. eexists. split; [reflexivity|]. split; [exists []|exists []]; reflexivity.
Qed.

Lemma sw1_iff s : checkCrsmReadStatus s = true <-> good_sw1 s.
Proof.
  unfold checkCrsmReadStatus, good_sw1. rewrite !orb_true_iff, !str_eqb_eq. tauto.
Qed.
Lemma sw2_iff s : checkCrsmMemoryStatus s = true <-> s <> s2b "64".
Proof.
  unfold checkCrsmMemoryStatus. rewrite negb_true_iff. split; intro H.
  - intro E. subst. discriminate.
  - destruct (str_eqb s (s2b "64")) eqn:E; [apply str_eqb_eq in E; contradiction|reflexivity].
Qed.

Lemma hplmn_ok raw more sw1 sw2 mcc mnc tail extra : crsm_line raw (sw1 :: sw2 :: (hplmn_record mcc mnc ++ tail) :: extra) ->
  last (sw1 :: sw2 :: (hplmn_record mcc mnc ++ tail) :: extra) [0%N] <> [] ->
  good_sw1 sw1 -> sw2 <> s2b "64" -> digit3 mcc -> digit23 mnc -> 3 <= length tail ->
  exists p, RecvFuncGetHplmn (raw :: more) (s_plmn sim_info0) = Ok (PKT_OK, p) /\ holds (p_mcc p) mcc /\ holds (p_mnc p) mnc.
Proof.
  intros HL Hlast H1 H2 D3 D2 Ht. destruct (parse_hplmn mcc mnc tail D3 D2 Ht) as (p & E & K1 & K2).
  exists p. split; [|auto].
  set (rec := hplmn_record mcc mnc ++ tail) in *.
  assert (Rne : rec <> []) by (unfold rec; destruct tail; [cbn in Ht; lia|destruct (hplmn_record mcc mnc); discriminate]).
  clearbody rec. destruct (crsm_front _ _ HL ltac:(discriminate) Hlast) as (s & text & E1 & E2 & E3 & Nj & Lj & HC).
  unfold RecvFuncGetHplmn, cb_first. rewrite E1, E2, E3. cbv beta iota.
  destruct (next_field _ _ _ HC Nj Lj) as (F1 & Nj' & Lj'). tok_rewrite F1. apply sw1_iff in H1. rewrite H1.
  inversion HC as [|? ? _ HC']. subst.
  destruct (next_field _ _ _ HC' Nj' Lj') as (F2 & Nj'' & Lj''). tok_rewrite F2. apply sw2_iff in H2. rewrite H2.
  inversion HC' as [|? ? _ HC'']. subst.
  destruct (head_field _ _ HC'' Rne Nj'' Lj'') as (rest & F3). tok_rewrite F3. rewrite E. reflexivity.
Qed.
Lemma hplmn_rejects raw more sw1 sw2 extra p0 : crsm_line raw (sw1 :: sw2 :: extra) ->
  last (sw1 :: sw2 :: extra) [0%N] <> [] -> (sw2 <> [] \/ extra <> []) -> ~ good_sw1 sw1 \/ sw2 = s2b "64" ->
  RecvFuncGetHplmn (raw :: more) p0 = Ok (PKT_FAILURE, p0).
Proof.
  intros HL Hlast Hne Hb. destruct (crsm_front _ _ HL ltac:(discriminate) Hlast) as (s & text & E1 & E2 & E3 & Nj & Lj & HC).
  unfold RecvFuncGetHplmn, cb_first. rewrite E1, E2, E3. cbv beta iota.
  destruct (next_field _ _ _ HC Nj Lj) as (F1 & Nj' & Lj'). tok_rewrite F1.
  destruct (checkCrsmReadStatus sw1) eqn:R.
  - apply sw1_iff in R. destruct Hb as [Hb|Hb]; [contradiction|]. subst sw2.
    inversion HC as [|? ? _ HC']. subst.
    destruct (head_field _ _ HC' ltac:(discriminate) Nj' Lj') as (rest & F3). tok_rewrite F3. reflexivity.
  - reflexivity.
Qed.

Lemma hplmn_none raw more sw1 sw2 rec extra p0 : crsm_line raw (sw1 :: sw2 :: rec :: extra) ->
  last (sw1 :: sw2 :: rec :: extra) [0%N] <> [] -> good_sw1 sw1 -> sw2 <> s2b "64" -> rec <> [] ->
  length rec < 9 \/ (exists t, rec = s2b "FFFFFF" ++ t) ->
  RecvFuncGetHplmn (raw :: more) p0 = Ok (PKT_FAILURE, p0).
Proof.
  intros HL Hlast H1 H2 Rne Hbad.
  assert (E : parseHplmn rec p0 = Ok (false, p0)).
  { unfold parseHplmn, CRSM_HPLMN_RAT_LENGTH. destruct Hbad as [Hb|(t & ->)].
    - replace (length rec <? 9) with true by lia. reflexivity.
    - assert (HP : forall q u : str, has_prefix q (q ++ u) = true) by (induction q; intros; cbn; [reflexivity|rewrite N.eqb_refl; cbn; auto]).
      rewrite HP, orb_true_r. reflexivity. }
  destruct (crsm_front _ _ HL ltac:(discriminate) Hlast) as (s & text & E1 & E2 & E3 & Nj & Lj & HC).
  unfold RecvFuncGetHplmn, cb_first. rewrite E1, E2, E3. cbv beta iota.
  destruct (next_field _ _ _ HC Nj Lj) as (F1 & Nj' & Lj'). tok_rewrite F1. apply sw1_iff in H1. rewrite H1.
  inversion HC as [|? ? _ HC']. subst.
  destruct (next_field _ _ _ HC' Nj' Lj') as (F2 & Nj'' & Lj''). tok_rewrite F2. apply sw2_iff in H2. rewrite H2.
  inversion HC' as [|? ? _ HC'']. subst.
  destruct (head_field _ _ HC'' Rne Nj'' Lj'') as (rest & F3). tok_rewrite F3. rewrite E. reflexivity.
Qed.
Lemma parse_hplmn_total tok p : length (p_mcc p) = 4 -> length (p_mnc p) = 4 -> exists ok p', parseHplmn tok p = Ok (ok, p').
Proof.
  intros La Lb. unfold parseHplmn, CRSM_HPLMN_RAT_LENGTH.
  destruct (Nat.ltb_spec (length tok) 9) as [H|H]; [cbn; eauto|].
  destruct (has_prefix (s2b "FFFFFF") tok); [cbn; eauto|].
  do 6 (destruct tok as [|? tok]; [cbn in H; lia|]). cbn [orb].
  destruct (p_mcc p) as [|? [|? [|? [|? [|]]]]]; try discriminate.
  destruct (p_mnc p) as [|? [|? [|? [|? [|]]]]]; try discriminate.
  cbn. destruct (negb _); cbn; eauto.
Qed.
Lemma hplmn_total ls : exists st p', RecvFuncGetHplmn ls (s_plmn sim_info0) = Ok (st, p').
Proof.
  unfold RecvFuncGetHplmn, cb_first. destruct ls as [|l ls]; [eauto|].
  destruct (ATRemoveAllWhiteSpaces (Some l)) as [e s1]; destruct e; eauto.
  destruct (ATRemovePrefix s1) as [e s2]; destruct e; eauto.
  destruct (ATRemoveAllDoubleQuote s2) as [e s3]; destruct e; eauto.
  destruct (ATGetNextTok s3) as [[e s4] [t1|]]; destruct e; eauto.
  destruct (checkCrsmReadStatus t1); eauto.
  destruct (ATGetNextTok s4) as [[e s5] [t2|]]; destruct e; eauto.
  destruct (checkCrsmMemoryStatus t2); eauto.
  destruct (ATGetNextTok s5) as [[e s6] [t3|]]; destruct e; eauto.
  destruct (parse_hplmn_total t3 (s_plmn sim_info0) eq_refl eq_refl) as (ok & p' & ->). cbn [bind]. eauto.
Qed.

(** ** The two API functions *)
Lemma sim_total lib m p : exists r, GetSimCardInfo lib m p = Ok r.
Proof.
  unfold GetSimCardInfo, rejected. destruct (CheckLibraryStatus lib); eauto. destruct p as [p|]; eauto.
  unfold request at 1. cbn [app]. match goal with |- context [m ?h] => destruct (m h) as [t| |ls1] end; cbn [bind]; [destruct t; cbn; eauto|cbn; eauto|].
  destruct (imsi_total ls1 (S IMSI_MAX_SIZE) ltac:(lia)) as (s1 & b1 & E1).
  change (s_imsi sim_info0) with (repeat 0%N (S IMSI_MAX_SIZE)). rewrite E1. cbn [bind]. destruct s1; eauto.
  cbn [s_plmn s_iccid s_imsi].
  unfold request at 1. cbn [app]. match goal with |- context [m ?h] => destruct (m h) as [t| |ls2] end; cbn [bind]; [destruct t; cbn; eauto|cbn; eauto|].
  destruct (hplmn_total ls2) as (s2 & b2 & E2). change (s_plmn sim_info0) with (s_plmn sim_info0) in E2. cbn [sim_info0 s_plmn] in E2.
  cbn [sim_info0 s_plmn s_iccid]. rewrite E2. cbn [bind]. destruct s2; eauto.
  unfold request at 1. cbn [app]. match goal with |- context [m ?h] => destruct (m h) as [t| |ls3] end; cbn [bind]; [destruct t; cbn; eauto|cbn; eauto|].
  destruct (iccid_total ls3 (S ICCID_MAX_SIZE) ltac:(lia)) as (s3 & b3 & E3). cbn [s_iccid]. rewrite E3. cbn [bind]. eauto.
Qed.


Lemma sim_success lib m o r : GetSimCardInfo lib m (Some o) = Ok r -> ret r = C_SUCCESS ->
  sent r = [req_cimi; req_crsm; req_ccid] /\
  exists l1 more1 t1 ls2 l3 more3 t3 i, m [req_cimi] = Answered (l1 :: more1) /\ m [req_cimi; req_crsm] = Answered ls2 /\
    m [req_cimi; req_crsm; req_ccid] = Answered (l3 :: more3) /\
    without space_char l1 t1 /\ spaced_line l3 t3 /\ out r = Some i /\ holds (s_imsi i) t1 /\ holds (s_iccid i) t3 /\
    RecvFuncGetHplmn ls2 (s_plmn sim_info0) = Ok (PKT_OK, s_plmn i).
Proof.
  unfold GetSimCardInfo, rejected. destruct (CheckLibraryStatus lib) eqn:HL; try (intro E; injection E as <-; discriminate).
  unfold request at 1. cbn [app]. change (plain "AT+CIMI" T_WO_PREFIX) with req_cimi.
  change {| rq_cmd := s2b "AT+CRSM=176,28514,0,0,0"; rq_type := T_WITH_PREFIX; rq_prefix := Some (s2b "+CRSM") |} with req_crsm.
  change {| rq_cmd := s2b "AT+CCID"; rq_type := T_WITH_PREFIX; rq_prefix := Some (s2b "+CCID") |} with req_ccid.
  destruct (m [req_cimi]) as [t| |ls1] eqn:M1; cbn [bind]; [destruct t; intro E; injection E as <-; discriminate|intro E; injection E as <-; discriminate|].
  change (s_imsi sim_info0) with (repeat 0%N (S IMSI_MAX_SIZE)).
  destruct (imsi_total ls1 (S IMSI_MAX_SIZE) ltac:(lia)) as (s1 & b1 & E1). rewrite E1. cbn [bind].
  destruct s1; try (intro E; injection E as <-; discriminate).
  apply imsi_inv in E1. destruct E1 as (l1 & more1 & t1 & -> & W1 & _ & K1).
  cbn [s_plmn s_iccid s_imsi]. unfold request at 1. cbn [app].
  destruct (m [req_cimi; req_crsm]) as [t| |ls2] eqn:M2; cbn [bind]; [destruct t; intro E; injection E as <-; discriminate|intro E; injection E as <-; discriminate|].
  destruct (hplmn_total ls2) as (s2 & b2 & E2). rewrite E2. cbn [bind].
  destruct s2; try (intro E; injection E as <-; discriminate).
  cbn [s_plmn s_iccid s_imsi]. unfold request at 1. cbn [app].
  destruct (m [req_cimi; req_crsm; req_ccid]) as [t| |ls3] eqn:M3; cbn [bind]; [destruct t; intro E; injection E as <-; discriminate|intro E; injection E as <-; discriminate|].
  change (s_iccid sim_info0) with (repeat 0%N (S ICCID_MAX_SIZE)).
  destruct (iccid_total ls3 (S ICCID_MAX_SIZE) ltac:(lia)) as (s3 & b3 & E3). rewrite E3. cbn [bind].
  intro E. injection E as <-. cbn [ret]. intro HS. destruct s3; try discriminate.
  apply iccid_inv in E3. destruct E3 as (l3 & more3 & t3 & -> & W3 & _ & K3).
  split; [reflexivity|]. exists l1, more1, t1, ls2, l3, more3, t3. eexists. cbn [out s_imsi s_iccid s_plmn]. repeat (split; [eassumption || reflexivity|]). exact E2.
Qed.

Lemma sim_good lib m o (l1 : str) more1 (t1 : str) ls2 pl (l3 : str) more3 (t3 : str) : lib_ok lib ->
  m [req_cimi] = Answered (l1 :: more1) -> m [req_cimi; req_crsm] = Answered ls2 -> m [req_cimi; req_crsm; req_ccid] = Answered (l3 :: more3) ->
  l1 <> [] -> length l1 <= 256 -> without space_char l1 t1 -> length t1 <= IMSI_MAX_SIZE ->
  RecvFuncGetHplmn ls2 (s_plmn sim_info0) = Ok (PKT_OK, pl) -> spaced_line l3 t3 -> length t3 <= ICCID_MAX_SIZE ->
  exists i, GetSimCardInfo lib m (Some o) = Ok {| sent := [req_cimi; req_crsm; req_ccid]; ret := C_SUCCESS; out := Some i |} /\
    holds (s_imsi i) t1 /\ holds (s_iccid i) t3 /\ s_plmn i = pl.
Proof.
  intros HL M1 M2 M3 H1 H2 H3 H4 H5 H6 H7. unfold GetSimCardInfo. rewrite HL.
  destruct (imsi_ok l1 more1 t1 H1 H2 H3 H4) as (b1 & E1 & K1). destruct (iccid_ok l3 more3 t3 H6 H7) as (b3 & E3 & K3).
  unfold request at 1. cbn [app]. change (plain "AT+CIMI" T_WO_PREFIX) with req_cimi.
  change {| rq_cmd := s2b "AT+CRSM=176,28514,0,0,0"; rq_type := T_WITH_PREFIX; rq_prefix := Some (s2b "+CRSM") |} with req_crsm.
  change {| rq_cmd := s2b "AT+CCID"; rq_type := T_WITH_PREFIX; rq_prefix := Some (s2b "+CCID") |} with req_ccid.
  rewrite M1. change (s_imsi sim_info0) with (repeat 0%N (S IMSI_MAX_SIZE)). rewrite E1. cbn [bind s_plmn s_iccid s_imsi].
  unfold request at 1. cbn [app]. rewrite M2, H5. cbn [bind s_plmn s_iccid s_imsi].
  unfold request at 1. cbn [app]. rewrite M3. change (s_iccid sim_info0) with (repeat 0%N (S ICCID_MAX_SIZE)). rewrite E3. cbn [bind].
  eexists. split; [reflexivity|]. auto.
Qed.

(** modem information *)

Lemma modem_total lib m p : exists r, GetModemInfo lib m p = Ok r.
Proof.
  unfold GetModemInfo, rejected. destruct (CheckLibraryStatus lib); eauto. destruct p as [p|]; eauto.
  cbn [modem_info0 mi_fw mi_imei mi_model mi_manuf].
  unfold request at 1. cbn [app]. match goal with |- context [m ?h] => destruct (m h) as [t| |ls1] end; cbn [bind]; [destruct t; cbn; eauto|cbn; eauto|].
  destruct (text_total FW_VERSION_MAX_SIZE ls1 (S FW_VERSION_MAX_SIZE) ltac:(lia)) as (s1 & b1 & E1). rewrite E1. cbn [bind]. destruct s1; eauto.
  unfold request at 1. cbn [app]. match goal with |- context [m ?h] => destruct (m h) as [t| |ls2] end; cbn [bind]; [destruct t; cbn; eauto|cbn; eauto|].
  destruct (imei_total ls2 (S IMEI_MAX_SIZE) ltac:(lia)) as (s2 & b2 & E2). rewrite E2. cbn [bind]. destruct s2; eauto.
  unfold request at 1. cbn [app]. match goal with |- context [m ?h] => destruct (m h) as [t| |ls3] end; cbn [bind]; [destruct t; cbn; eauto|cbn; eauto|].
  destruct (text_total MODEL_ID_MAX_SIZE ls3 (S MODEL_ID_MAX_SIZE) ltac:(lia)) as (s3 & b3 & E3). rewrite E3. cbn [bind]. destruct s3; eauto.
  unfold request at 1. cbn [app]. match goal with |- context [m ?h] => destruct (m h) as [t| |ls4] end; cbn [bind]; [destruct t; cbn; eauto|cbn; eauto|].
  destruct (text_total MANUFACTURE_ID_MAX_SIZE ls4 (S MANUFACTURE_ID_MAX_SIZE) ltac:(lia)) as (s4 & b4 & E4). rewrite E4. cbn [bind]. destruct s4; eauto.
Qed.

Lemma modem_good lib m o (l1 : str) more1 (t1 : str) (l2 : str) more2 (t2 : str) (l3 : str) more3 (t3 : str) (l4 : str) more4 (t4 : str) : lib_ok lib ->
  m [req_cgmr] = Answered (l1 :: more1) -> m [req_cgmr; req_cgsn] = Answered (l2 :: more2) ->
  m [req_cgmr; req_cgsn; req_cgmm] = Answered (l3 :: more3) -> m [req_cgmr; req_cgsn; req_cgmm; req_cgmi] = Answered (l4 :: more4) ->
  padded l1 t1 -> (l2 <> [] /\ length l2 <= 256 /\ without space_char l2 t2 /\ t2 <> []) -> padded l3 t3 -> padded l4 t4 ->
  exists i, GetModemInfo lib m (Some o) = Ok {| sent := [req_cgmr; req_cgsn; req_cgmm; req_cgmi]; ret := C_SUCCESS; out := Some i |} /\
    holds (mi_fw i) (firstn 32 t1) /\ holds (mi_imei i) (firstn 15 t2) /\ holds (mi_model i) (firstn 10 t3) /\ holds (mi_manuf i) (firstn 20 t4).
Proof.
  intros HL M1 M2 M3 M4 P1 (A & B & C & D) P3 P4. unfold GetModemInfo. rewrite HL. cbv zeta. cbn [modem_info0 mi_fw mi_imei mi_model mi_manuf].
  change (plain "AT+CGMR" T_WO_PREFIX) with req_cgmr. change (plain "AT+CGSN" T_WO_PREFIX) with req_cgsn.
  change (plain "AT+CGMM" T_WO_PREFIX) with req_cgmm. change (plain "AT+CGMI" T_WO_PREFIX) with req_cgmi.
  destruct (text_ok FW_VERSION_MAX_SIZE l1 more1 t1 P1) as (b1 & E1 & K1 & _).
  destruct (imei_ok l2 more2 t2 A B C D) as (b2 & E2 & K2 & _).
  destruct (text_ok MODEL_ID_MAX_SIZE l3 more3 t3 P3) as (b3 & E3 & K3 & _).
  destruct (text_ok MANUFACTURE_ID_MAX_SIZE l4 more4 t4 P4) as (b4 & E4 & K4 & _).
  unfold request at 1. cbn [app]. rewrite M1, E1. cbn [bind].
  unfold request at 1. cbn [app]. rewrite M2, E2. cbn [bind].
  unfold request at 1. cbn [app]. rewrite M3, E3. cbn [bind].
  unfold request at 1. cbn [app]. rewrite M4, E4. cbn [bind].
  eexists. split; [reflexivity|]. auto.
Qed.

(** ** SIM lock *)
Lemma lock_two tok : ~ In 32%N tok -> getSimLockState tok = if str_eqb tok (s2b "READY") then SIM_READY else SIM_LOCK_UNKNOWN.
Proof.
  intro H. unfold getSimLockState. destruct (str_eqb tok (s2b "READY")); [reflexivity|].
  repeat match goal with |- context [str_eqb tok ?x] => let E := fresh in destruct (str_eqb tok x) eqn:E; [exfalso; apply str_eqb_eq in E; subst tok; apply H; cbn; tauto|] end.
  reflexivity.
Qed.
Lemma filter_no_space l : ~ In 32%N (filter_loop isspace l).
Proof.
  induction l as [|c l IH]; [tauto|]. cbn [filter_loop]. destruct (isspace c) eqn:E; [exact IH|]. intros [->|H]; [discriminate|contradiction].
Qed.
Lemma take_until_in d s c : In c (take_until d s) -> In c s.
Proof. induction s as [|x s IH]; cbn [take_until]; [tauto|]. destruct (x =? d)%N; cbn [In]; tauto. Qed.
Lemma in_skipn {A} n (l : list A) x : In x (skipn n l) -> In x l.
Proof. intro H. rewrite <- (firstn_skipn n l). apply in_or_app. now right. Qed.

Lemma lock_cb lines s0 st s : RecvFuncGetSimLockStatus lines s0 = Ok (st, s) -> st = PKT_OK -> (s = SIM_READY \/ s = SIM_LOCK_UNKNOWN) \/ s = s0.
Proof.
  unfold RecvFuncGetSimLockStatus, cb_first. destruct lines as [|l ls]; [intro E; injection E; auto|].
  destruct (ATRemoveAllWhiteSpaces (Some l)) as [e s1] eqn:E1; destruct e; try (intro E; injection E; auto; fail).
  destruct (ATRemovePrefix s1) as [e s2] eqn:E2; destruct e; try (intro E; injection E; auto; fail).
  destruct (ATGetNextTok s2) as [[e s3] [tok|]] eqn:E3; destruct e; try (intro E; injection E; auto; fail).
  intro E. injection E as <- <-. intros _. left.
  assert (~ In 32%N tok).
  { unfold ATRemoveAllWhiteSpaces in E1. destruct (is_valid l); [|discriminate]. injection E1 as <-.
    unfold ATRemovePrefix in E2. destruct (is_valid (filter_loop isspace l)); [|discriminate].
    destruct (strchr (filter_loop isspace l) chCOLON) as [n|]; [|discriminate]. injection E2 as <-.
    unfold ATGetNextTok, ATGetSpecificNextTok in E3.
    match type of E3 with context [is_valid ?x] => destruct (is_valid x); [|discriminate]; set (y := x) in * end.
    injection E3 as _ <-. intro H. apply (filter_no_space l).
    assert (In 32%N y) by (destruct (hd 0%N y =? chCOMMA)%N; [destruct H|exact (take_until_in _ _ _ H)]).
    exact (in_skipn (S n) _ _ H0). }
  rewrite lock_two by assumption. destruct (str_eqb tok (s2b "READY")); auto.
Qed.
Lemma lock_success lib m o r : GetSimCardLockStatus lib m (Some o) = Ok r -> ret r = C_SUCCESS ->
  out r = Some SIM_READY \/ out r = Some SIM_LOCK_UNKNOWN.
Proof.
  unfold GetSimCardLockStatus, rejected. destruct (CheckLibraryStatus lib); try (intro E; injection E as <-; discriminate).
  unfold finish, request. cbn [app]. match goal with |- context [m ?h] => destruct (m h) as [t| |ls] end; cbn [bind].
  - destruct t; intro E; injection E as <-; discriminate.
  - intro E; injection E as <-; discriminate.
  - destruct (RecvFuncGetSimLockStatus ls SIM_LOCK_UNKNOWN) as [[st s]| |] eqn:E1; cbn [bind]; try discriminate.
    intro E; injection E as <-. cbn [ret out]. intro H. assert (st = PKT_OK) by (destruct st; try discriminate; reflexivity).
    destruct (lock_cb _ _ _ _ E1 H0) as [[-> | ->] | ->]; auto.
Qed.
Lemma lock_fields lib m o (raw : str) more (code : str) extra : lib_ok lib -> m [req_cpin] = Answered (raw :: more) ->
  spaced_line raw (join 44 (code :: extra)) -> no_nul raw -> code <> [] -> Forall (fun f => ~ In 44%N f) (code :: extra) ->
  GetSimCardLockStatus lib m (Some o) = Ok {| sent := [req_cpin]; ret := C_SUCCESS;
    out := Some (if str_eqb code (s2b "READY") then SIM_READY else SIM_LOCK_UNKNOWN) |}.
Proof.
  intros HL M HS Hn Hc HF. unfold GetSimCardLockStatus. rewrite HL. unfold finish, request. cbn [app].
  change {| rq_cmd := s2b "AT+CPIN?"; rq_type := T_WITH_PREFIX; rq_prefix := Some (s2b "+CPIN") |} with req_cpin. rewrite M.
  unfold RecvFuncGetSimLockStatus, cb_first. destruct (spaced_front _ _ HS) as (s & E1 & E2 & L). rewrite E1, E2.
  destruct HS as (p & Hw & Hp & Hl).
  assert (Sub : forall a b, without space_char a b -> forall c, In c b -> In c a /\ ~ space_char c).
  { induction 1 as [|c a b Hs W IH|c a b Hs W IH]; intros x Hx; [destruct Hx|destruct (IH _ Hx); split; [now right|assumption]|].
    destruct Hx as [->|Hx]; [split; [now left|assumption]|destruct (IH _ Hx); split; [now right|assumption]]. }
  assert (K : length (p ++ 58%N :: join 44 (code :: extra)) <= length raw) by (clear - Hw; induction Hw; cbn [length]; lia).
  rewrite app_length in K. cbn [length] in K.
  destruct (head_field code extra HF Hc) as (rest & F).
  - intro H0. apply Hn. apply (Sub _ _ Hw). apply in_or_app. right. now right.
  - lia.
  - tok_rewrite F. cbn [bind]. rewrite lock_two; [reflexivity|].
    intro H. destruct (Sub _ _ Hw 32%N) as [_ B]; [|apply B; now right].
    apply in_or_app. right. right. apply (join_in 44%N (code :: extra) code); [now left|exact H].
Qed.

(** ** IP address *)
Lemma cgpaddr_text cid : (cid < 256)%N -> snprintf AT_CMD_TYPICAL_MAX_SIZE (s2b "AT+CGPADDR=" ++ dec cid) = s2b "AT+CGPADDR=" ++ dec cid.
Proof.
  intro H. destruct (dec_spec _ H) as (_ & L & Hn). apply snprintf_fits.
  - apply nonul_app; [nonul_lit|exact Hn].
  - rewrite app_length. unfold AT_CMD_TYPICAL_MAX_SIZE. cbn [s2b length]. lia.
Qed.
Lemma pdn_range cid : IsValidPdn cid = C_SUCCESS <-> (1 <= cid <= 16)%N.
Proof. unfold IsValidPdn, PDN_MAX, PDN_MIN. destruct ((16 <? cid) || (cid <? 1))%N eqn:E; split; intro; try discriminate; try reflexivity; lia. Qed.

Lemma ip_good lib m cid b len (raw : str) more (field addr : str) : lib_ok lib -> (1 <= cid <= 16)%N -> (0 < len)%N ->
  (N.to_nat len <= length b) -> m [req_cgpaddr cid] = Answered (raw :: more) ->
  response_line raw (field ++ 44%N :: addr) -> ~ In 44%N field -> length addr < N.to_nat (len mod 65536) ->
  exists b', GetIPAddress lib m cid (Some b) len = Ok {| sent := [req_cgpaddr cid]; ret := C_SUCCESS; out := Some b' |} /\ holds b' addr.
Proof.
  intros HL Hc Hlen Hb M HR Hf Ha. unfold GetIPAddress. rewrite HL. replace (len =? 0)%N with false by lia.
  rewrite (proj2 (pdn_range cid) Hc). unfold finish, request. cbn [app]. rewrite cgpaddr_text by lia. fold (req_cgpaddr cid). rewrite M.
  unfold RecvFuncIpAddress, cb_first. replace (len mod 65536 =? 0)%N with false by lia.
  pose proof (body_facts _ _ HR) as [Hn Hl]. rewrite (rp_ok _ _ HR).
  assert (E : ATGetNextTok (Some (field ++ 44%N :: addr)) = (AT_SUCCESS, Some addr, Some field)).
  { apply tok_content_split; [|exact Hf|intro H; apply Hn; apply in_or_app; right; now right].
    split; [destruct field; discriminate|rewrite app_length in Hl |- *; cbn [length] in Hl |- *; lia]. }
  tok_rewrite E.
  assert (Hmod : (len mod 65536 <= len)%N) by (apply N.mod_le; lia).
  destruct addr as [|a addr].
  - unfold wr. rewrite repeat_length. cbn [Nat.add firstn app]. replace (N.to_nat (len mod 65536) <=? length b) with true by lia.
    cbn [bind]. eexists. split; [reflexivity|]. destruct (N.to_nat (len mod 65536)) as [|k] eqn:Ek; [lia|]. cbn [repeat app]. eexists. reflexivity.
  - rewrite strncpy_ok by lia. cbn [bind]. eexists. split; [reflexivity|].
    rewrite firstn_all2 by lia.
    destruct (N.to_nat (len mod 65536) - length (a :: addr)) as [|k] eqn:Ek; [lia|]. eexists. reflexivity.
Qed.
Lemma ip_total lib m cid b len : N.to_nat len <= length b -> exists r, GetIPAddress lib m cid (Some b) len = Ok r.
Proof.
  intro Hb. unfold GetIPAddress, rejected. destruct (CheckLibraryStatus lib); eauto. destruct (N.eqb_spec len 0) as [->|Hlen]; eauto.
  destruct (IsValidPdn cid); eauto. unfold finish, request. cbn [app].
  assert (Hmod : (len mod 65536 <= len)%N) by (apply N.mod_le; lia).
  match goal with |- context [m ?h] => destruct (m h) as [t| |ls] end; cbn [bind]; [eauto|eauto|].
  unfold RecvFuncIpAddress, cb_first. destruct ls as [|l ls]; [cbn; eauto|]. destruct (N.eqb_spec (len mod 65536) 0); [cbn; eauto|].
  destruct (ATRemovePrefix (Some l)) as [e s1]; destruct e; cbn; eauto.
  destruct (ATGetNextTok s1) as [[e [rest|]] tk]; destruct e; cbn; eauto.
  destruct rest as [|c rest].
  - unfold wr. rewrite repeat_length. cbn [Nat.add firstn app]. replace (N.to_nat (len mod 65536) <=? length b) with true by lia. cbn [bind]. eauto.
  - rewrite strncpy_ok by lia. cbn [bind]. eauto.
Qed.

(** Agreement of the content-level (AtCore.v) and pointer-level (AtMem.v) models. *)
From Coq Require Import List NArith ZArith Bool Lia ZifyBool ZifyNat ZifyN Arith.
From Verif Require Import Bytes AtCore AtMem SpecAt AtProofs AtProofs2 AtProofs3.
Import ListNotations.

Lemma agree_prefix pre s post r : no_nul s ->
  exists st x, ATIsPrefixPresent_m (obj pre s post) (length pre) = Ok (st, x) /\
    ATIsPrefixPresent (Some s) (Some r) = (st, match x with Some b => Some b | None => Some r end).
Proof.
  intros. rewrite ATIsPrefixPresent_m_eq, ATIsPrefixPresent_bool by assumption.
  destruct (is_valid s); do 2 eexists; split; reflexivity.
Qed.
Lemma agree_startwith pre s post kpre k kpost r : no_nul s -> no_nul k ->
  exists st x, ATStrStartWith_m (obj pre s post) (length pre) (obj kpre k kpost) (length kpre) = Ok (st, x) /\
    ATStrStartWith (Some s) (Some k) (Some r) = (st, match x with Some b => Some b | None => Some r end).
Proof.
  intros. rewrite startwith_m_eq by assumption. unfold ATStrStartWith.
  destruct (is_valid s && is_valid k); do 2 eexists; split; reflexivity.
Qed.
Lemma agree_removeprefix pre s post : no_nul s ->
  exists st q, ATRemovePrefix_m (obj pre s post) (length pre) = Ok (st, q) /\
    ATRemovePrefix (Some s) = (st, match q with Some q => cstr_get (obj pre s post) q | None => None end).
Proof.
  intros Hn. unfold ATRemovePrefix_m, ATRemovePrefix. rewrite validated_obj by assumption.
  destruct (is_valid s).
  - rewrite strchr_obj' by (assumption || discriminate). cbn [bind].
    destruct (strchr s chCOLON) as [n|] eqn:E; [|do 2 eexists; split; reflexivity].
    do 2 eexists. split; [reflexivity|]. apply strchr_split in E as (a & b & -> & <- & _).
    replace (skipn (S (length a)) (a ++ chCOLON :: b)) with b.
    + replace (obj pre (a ++ chCOLON :: b) post) with (obj (pre ++ a ++ [chCOLON]) b post) by (unfold obj; lst).
      replace (S (length pre + length a)) with (length (pre ++ a ++ [chCOLON])) by (rewrite !app_length; cbn; lia).
      rewrite cstr_get_obj; [reflexivity|]. apply no_nul_app in Hn as [_ Hn]. now apply no_nul_cons in Hn.
    + rewrite skipn_app, skipn_all2 by lia. replace (S (length a) - length a)%nat with 1%nat by lia. reflexivity.
  - do 2 eexists. split; [cbv beta iota; reflexivity|]. cbv beta iota. now rewrite cstr_get_obj.
Qed.
Lemma agree_filter drop fm fc pre s post : no_nul s ->
  (forall m p, fm m p = validated m p (fun e => (e, m))
      (do m' <- filter_loop_m (S (length m)) drop m p p; Ok (AT_SUCCESS, m'))) ->
  (fc (Some s) = if is_valid s then (AT_SUCCESS, Some (filter_loop drop s)) else (AT_BAD_PARAMETER, Some s)) ->
  exists st m', fm (obj pre s post) (length pre) = Ok (st, m') /\ fc (Some s) = (st, cstr_get m' (length pre)).
Proof.
  intros Hn Hm Hc. rewrite Hm, Hc, validated_obj by assumption. destruct (is_valid s).
  - rewrite filter_m_eq; [|assumption|rewrite obj_len; lia]. cbn [bind]. do 2 eexists. split; [reflexivity|].
    destruct (overlay_string pre (filter_loop drop s) s post) as [E _]; [now apply filter_loop_nonul|apply filter_loop_len|].
    now rewrite E.
  - do 2 eexists. split; [cbv beta iota; reflexivity|]. cbv beta iota. now rewrite cstr_get_obj.
Qed.
Lemma agree_allws pre s post : no_nul s ->
  exists st m', ATRemoveAllWhiteSpaces_m (obj pre s post) (length pre) = Ok (st, m') /\
    ATRemoveAllWhiteSpaces (Some s) = (st, cstr_get m' (length pre)).
Proof. intros. apply agree_filter with (drop := isspace); auto. Qed.
Lemma agree_alldq pre s post : no_nul s ->
  exists st m', ATRemoveAllDoubleQuote_m (obj pre s post) (length pre) = Ok (st, m') /\
    ATRemoveAllDoubleQuote (Some s) = (st, cstr_get m' (length pre)).
Proof. intros. apply agree_filter with (drop := fun c => (c =? chDQ)%N); auto. Qed.
Lemma agree_lead pre s post : no_nul s ->
  exists st q, ATRemoveLeadingWhiteSpaces_m (obj pre s post) (length pre) = Ok (st, q) /\
    ATRemoveLeadingWhiteSpaces (Some s) = (st, cstr_get (obj pre s post) q).
Proof.
  intros Hn. unfold ATRemoveLeadingWhiteSpaces_m, ATRemoveLeadingWhiteSpaces. rewrite validated_obj by assumption.
  destruct (is_valid s).
  - rewrite lead_loop_obj; [|assumption|rewrite obj_len; lia]. cbn [bind]. do 2 eexists; split; [reflexivity|].
    destruct (skip_spaces_split s) as (a & H1 & _). remember (skip_spaces s) as t. clear Heqt. subst s.
    replace (obj pre (a ++ t) post) with (obj (pre ++ a) t post) by (unfold obj; lst).
    replace (length pre + (length (a ++ t) - length t))%nat with (length (pre ++ a)) by (rewrite !app_length; lia).
    rewrite cstr_get_obj; [reflexivity|]. now apply no_nul_app in Hn.
  - do 2 eexists. split; [cbv beta iota; reflexivity|]. cbv beta iota. now rewrite cstr_get_obj.
Qed.
Lemma agree_outer pre s post : no_nul s ->
  exists st q m', ATRemoveOutermostDoubleQuote_m (obj pre s post) (length pre) = Ok (st, q, m') /\
    ATRemoveOutermostDoubleQuote (Some s) = (st, cstr_get m' q).
Proof.
  intros Hn. rewrite outer_dq_m by assumption. unfold ATRemoveOutermostDoubleQuote.
  assert (B : cstr_get (obj pre s post) (length pre) = Some s) by now apply cstr_get_obj.
  destruct (is_valid s); [|do 3 eexists; split; [reflexivity|now rewrite B]].
  destruct (2 <? length s)%nat; [|do 3 eexists; split; [reflexivity|now rewrite B]].
  destruct s as [|c t].
  { do 3 eexists; split; [reflexivity|]. rewrite B. reflexivity. }
  assert (R : forall u, no_nul u -> no_nul (removelast u)).
  { intros u Hu. destruct u as [|x u _] using rev_ind; [assumption|]. rewrite removelast_last. now apply no_nul_app in Hu. }
  destruct (c =? chDQ)%N.
  - apply no_nul_cons in Hn as [Hc Hn]. destruct (last t 0%N =? chDQ)%N; do 3 eexists; (split; [reflexivity|]).
    + rewrite <- (len_snoc pre c), cstr_get_obj; auto.
    + rewrite obj_cons, <- (len_snoc pre c), cstr_get_obj; auto.
  - destruct (last (c :: t) 0%N =? chDQ)%N; do 3 eexists; (split; [reflexivity|]).
    + rewrite cstr_get_obj; auto.
    + rewrite B. reflexivity.
Qed.
Lemma agree_digit pre s post r : no_nul s ->
  exists st x, ATIsStrDigit_m (obj pre s post) (length pre) = Ok (st, x) /\
    ATIsStrDigit (Some s) (Some r) = (st, match x with Some b => Some b | None => Some r end).
Proof.
  intros Hn. unfold ATIsStrDigit_m, ATIsStrDigit. rewrite validated_obj by assumption. destruct (is_valid s).
  - rewrite digit_loop_obj; [|assumption|rewrite obj_len; lia]. do 2 eexists. split; reflexivity.
  - do 2 eexists. split; reflexivity.
Qed.
Lemma trail_loop_content t c w : Forall space_char w -> (~ space_char c \/ t = []) ->
  trail_loop (t ++ c :: w) (length t + length w) = length t.
Proof.
  induction w as [|x w IH] using rev_ind; intros Hw Hc.
  - cbn [length]. rewrite Nat.add_0_r. destruct t as [|y t]; [reflexivity|]. destruct Hc as [Hc|]; [|discriminate].
    cbn [length trail_loop]. change (S (length t)) with (length (y :: t)). rewrite app_nth2, Nat.sub_diag by lia. cbn [nth].
    destruct (isspace c) eqn:E; [apply isspace_iff in E; contradiction|reflexivity].
  - apply Forall_app in Hw as [Hw Hx]. inversion Hx as [|? ? Hx1 _]; subst. rewrite app_length. cbn [length].
    replace (length t + (length w + 1))%nat with (S (length t + length w)) by lia. cbn [trail_loop].
    replace (t ++ c :: w ++ [x]) with ((t ++ c :: w) ++ [x]) by lst.
    assert (L : length (t ++ c :: w) = S (length t + length w)) by (rewrite app_length; cbn [length]; lia).
    rewrite app_nth2 by lia. rewrite L, Nat.sub_diag. cbn [nth]. apply isspace_iff in Hx1. rewrite Hx1.
    rewrite <- (IH Hw Hc) at 2.
    assert (G : forall n l1 l2, (n < length l1)%nat -> trail_loop (l1 ++ l2) n = trail_loop l1 n).
    { clear. induction n as [|n IH]; intros l1 l2 H; [reflexivity|]. cbn [trail_loop].
      rewrite app_nth1 by assumption. rewrite IH by lia. reflexivity. }
    apply G. lia.
Qed.
Lemma agree_trail pre s post : no_nul s ->
  exists st m', ATRemoveTrailingWhiteSpaces_m (obj pre s post) (length pre) = Ok (st, m') /\
    ATRemoveTrailingWhiteSpaces (Some s) = (st, cstr_get m' (length pre)).
Proof.
  intros Hn. unfold ATRemoveTrailingWhiteSpaces. destruct (is_valid s) eqn:Hv.
  2:{ unfold ATRemoveTrailingWhiteSpaces_m. rewrite validated_obj, Hv by assumption. do 2 eexists. split; [reflexivity|].
      now rewrite cstr_get_obj. }
  destruct (Nat.ltb_spec 2 (length s)) as [Hl|Hl].
  2:{ unfold ATRemoveTrailingWhiteSpaces_m. rewrite validated_obj, Hv, strlen_obj' by assumption. cbn [bind].
      replace (2 <? length s)%nat with false by lia. do 2 eexists. split; [cbv beta iota; reflexivity|]. cbv beta iota. now rewrite cstr_get_obj. }
  apply is_valid_iff in Hv. destruct (trail_split s) as (t & c & w & -> & Hw & Hc); [apply Hv|].
  rewrite trail_m by auto. do 2 eexists. split; [reflexivity|].
  replace (length (t ++ c :: w) - 1)%nat with (length t + length w)%nat by (rewrite app_length; cbn [length]; lia).
  rewrite trail_loop_content by assumption.
  replace (firstn (S (length t)) (t ++ c :: w)) with (t ++ [c]).
  2:{ rewrite firstn_app, firstn_all2 by lia. replace (S (length t) - length t)%nat with 1%nat by lia. reflexivity. }
  unfold overlay. replace (pre ++ ((t ++ [c; 0%N]) ++ skipn (length (t ++ [c; 0%N])) (t ++ c :: w ++ [0%N])) ++ post)
    with (obj pre (t ++ [c]) (skipn (length (t ++ [c; 0%N])) (t ++ c :: w ++ [0%N]) ++ post)) by (unfold obj; lst).
  rewrite cstr_get_obj; [reflexivity|]. apply no_nul_app in Hn as [H1 H2]. apply no_nul_cons in H2 as [H2 _].
  apply no_nul_app. split; [assumption|]. apply no_nul_cons. split; [assumption|apply no_nul_nil].
Qed.
Lemma outer_dq_refuted : exists s : str, no_nul s /\ at_len_ok s /\ s = 34%N :: [] ++ [34%N] /\
  exists q m', ATRemoveOutermostDoubleQuote_m (obj [] s []) 0 = Ok (AT_SUCCESS, q, m') /\ cstr_get m' q <> Some [].
Proof.
  exists [34;34]%N. split; [vm_compute; intuition discriminate|]. split; [split; [discriminate|vm_compute; discriminate]|].
  split; [reflexivity|]. exists 0%nat, [34;34;0]%N. split; [vm_compute; reflexivity|vm_compute; discriminate].
Qed.
Lemma null_rejected (pb : option bool) (pz : option Z) (s : option str) b fuel ks base d :
  ATIsPrefixPresent None pb = (AT_BAD_PARAMETER, pb) /\ ATIsPrefixPresent s None = (AT_BAD_PARAMETER, None) /\
  ATStrStartWith None s pb = (AT_BAD_PARAMETER, pb) /\ ATStrStartWith s None pb = (AT_BAD_PARAMETER, pb) /\
  ATStrStartWith s s None = (AT_BAD_PARAMETER, None) /\
  ATRemovePrefix None = (AT_BAD_PARAMETER, None) /\ ATRemoveLeadingWhiteSpaces None = (AT_BAD_PARAMETER, None) /\
  ATRemoveTrailingWhiteSpaces None = (AT_BAD_PARAMETER, None) /\ ATRemoveAllWhiteSpaces None = (AT_BAD_PARAMETER, None) /\
  ATRemoveOutermostDoubleQuote None = (AT_BAD_PARAMETER, None) /\ ATRemoveAllDoubleQuote None = (AT_BAD_PARAMETER, None) /\
  ATGetSpecificNextTok None d = (AT_BAD_PARAMETER, None, None) /\
  ATIsStrDigit None pb = (AT_BAD_PARAMETER, pb) /\ ATIsStrDigit s None = (AT_BAD_PARAMETER, None) /\
  ATcheckErrorCode fuel None ks pb = Ok (AT_BAD_PARAMETER, pb) /\ ATcheckErrorCode fuel s None pb = Ok (AT_BAD_PARAMETER, pb) /\
  ATStrtoi b None base pz = (AT_BAD_PARAMETER, pz) /\ ATStrtoi b s base None = (AT_BAD_PARAMETER, None).
Proof. destruct s, pb, pz; repeat split; destruct ks; reflexivity. Qed.

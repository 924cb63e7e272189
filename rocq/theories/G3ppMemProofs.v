(** The pointer-level callbacks of G3ppMem.v do what the string-level ones of G3pp.v and RegStatus.v do. *)
From Coq Require Import String List NArith ZArith Bool Arith Lia.
From Verif Require Import Bytes AtCore AtMem SpecAt AtProofs AtProofs2 AtProofs3 AtProofs4 Status Pktio SendCmd Socket RegStatus G3pp G3ppMem SpecMem.
Import ListNotations.
Local Open Scope nat_scope.

(** ** Changes *)
Lemma ch_refl R m : only_changed R m m. Proof. split; auto. Qed.
Lemma ch_trans R m1 m2 m3 : only_changed R m1 m2 -> only_changed R m2 m3 -> only_changed R m1 m3.
Proof. intros [L1 H1] [L2 H2]. split; [congruence|]. intros i Hi. rewrite H2, H1; auto. Qed.
Lemma ch_weaken (R R' : nat -> Prop) m m' : (forall i, R i -> R' i) -> only_changed R m m' -> only_changed R' m m'.
Proof. intros W [L H]. split; auto. Qed.

Lemma cstr_list_inv l s : cstr_list l = Some s -> exists post, l = s ++ 0%N :: post /\ no_nul s.
Proof.
  revert s; induction l as [|c l IH]; cbn; intros s H; [discriminate|]. destruct (N.eqb_spec c 0) as [->|Hc].
  - injection H as <-. exists l. split; [reflexivity|apply no_nul_nil].
  - destruct (cstr_list l) as [t|]; [|discriminate]. injection H as <-. destruct (IH t eq_refl) as (post & -> & Hn).
    exists post. split; [reflexivity|]. apply no_nul_cons. auto.
Qed.
Lemma cstr_inv m p s : cstr_get m p = Some s -> exists pre post, m = obj pre s post /\ length pre = p /\ no_nul s.
Proof.
  intros H. unfold cstr_get in H. apply cstr_list_inv in H as (post & E & Hn). exists (firstn p m), post. split; [|split; [|exact Hn]].
  - unfold obj. rewrite <- E. symmetry. apply firstn_skipn.
  - apply firstn_length_le. assert (length (skipn p m) = length (s ++ 0%N :: post)) by now rewrite E.
    rewrite skipn_length, app_length in H. cbn in H. lia.
Qed.
Lemma cstr_end m p s : cstr_get m p = Some s -> p + length s < length m.
Proof. intros H. apply cstr_inv in H as (pre & post & -> & <- & _). rewrite obj_len. lia. Qed.

Lemma nth_error_mid {A} (pre a b post : list A) i : length a = length b -> ~ (length pre <= i < length pre + length a) ->
  nth_error (pre ++ a ++ post) i = nth_error (pre ++ b ++ post) i.
Proof.
  intros E H. destruct (Nat.lt_ge_cases i (length pre)).
  - rewrite !nth_error_app1 by assumption. reflexivity.
  - rewrite !(nth_error_app2 pre) by assumption. rewrite !(nth_error_app2 _ post) by lia. now rewrite E.
Qed.
Lemma ch_mid (R : nat -> Prop) pre a b post : length a = length b -> (forall i, length pre <= i < length pre + length a -> R i) ->
  only_changed R (pre ++ a ++ post) (pre ++ b ++ post).
Proof.
  intros E W. split; [rewrite !app_length; lia|]. intros i Hi. symmetry. apply nth_error_mid; [exact E|]. intros H. apply Hi, W, H.
Qed.

(** ** The AT utilities inside a region *)
Section Region.
Variables lo hi : nat.
Definition inside (i : nat) : Prop := lo <= i <= hi.
Definition ch m m' := only_changed inside m m' /\ (nth_error m hi = Some 0%N -> nth_error m' hi = Some 0%N).
Lemma chR m : ch m m. Proof. split; [apply ch_refl|auto]. Qed.
Lemma chT m1 m2 m3 : ch m1 m2 -> ch m2 m3 -> ch m1 m3.
Proof. intros [A1 B1] [A2 B2]. split; [eapply ch_trans; eassumption|auto]. Qed.
Lemma chM pre a b post : length a = length b -> (forall i, length pre <= i < length pre + length a -> inside i) -> b <> [] -> last b 0%N = 0%N ->
  ch (pre ++ a ++ post) (pre ++ b ++ post).
Proof.
  intros E W Hb Z. split; [now apply ch_mid|]. intros H. destruct (Nat.lt_ge_cases hi (length pre)) as [L|L].
  - rewrite nth_error_app1 in * by assumption. exact H.
  - rewrite (nth_error_app2 pre) in * by assumption. destruct (Nat.lt_ge_cases (hi - length pre) (length b)) as [L2|L2].
    + assert (K : hi = length pre + length b - 1).
      { destruct (Nat.eq_dec hi (length pre + length b - 1)) as [K|K]; [exact K|]. unfold inside in W. specialize (W (S hi)). lia. }
      rewrite nth_error_app1 by assumption. rewrite (app_removelast_last 0%N Hb) at 1. rewrite nth_error_app2.
      * assert (length b = length (removelast b) + 1) by (rewrite (app_removelast_last 0%N Hb) at 1; rewrite app_length; reflexivity).
        replace (hi - length pre - length (removelast b)) with 0 by lia. rewrite Z. reflexivity.
      * assert (length b = length (removelast b) + 1) by (rewrite (app_removelast_last 0%N Hb) at 1; rewrite app_length; reflexivity). lia.
    + rewrite nth_error_app2 in * by lia. now rewrite <- E.
Qed.
Definition text (m : list N) (p : nat) (s : str) : Prop := cstr_get m p = Some s /\ lo <= p /\ p + length s <= hi.
Definition ptext (m : list N) (p : ptr) (s : option str) : Prop :=
  match p, s with Some a, Some x => text m a x | None, None => True | _, _ => False end.

Lemma text_obj pre s post : no_nul s -> lo <= length pre -> length pre + length s <= hi -> text (obj pre s post) (length pre) s.
Proof. intros. split; [now apply cstr_get_obj|]. auto. Qed.

Lemma pRead_ok m p s : text m p s -> pRead m (Some p) = Ok s.
Proof.
  intros (C & _). apply cstr_inv in C as (pre & post & -> & <- & Hn). unfold pRead.
  assert (G : forall fuel pre, length s < fuel -> read_m fuel (obj pre s post) (length pre) = Ok s).
  { clear - Hn. induction s as [|c s IH]; intros [|fuel] pre Hf; try (cbn in Hf; lia); cbn [read_m].
    - now rewrite ld_obj_nil.
    - apply no_nul_cons in Hn as [Hc Hn]. rewrite ld_obj_cons. cbn [bind]. destruct (N.eqb_spec c 0); [congruence|].
      rewrite obj_cons, <- (len_snoc pre c), IH; [reflexivity|assumption|cbn in Hf; lia]. }
  apply G. rewrite obj_len. lia.
Qed.

Lemma pRemovePrefix_ok m p s : ptext m p s ->
  exists q, pRemovePrefix m p = Ok (fst (ATRemovePrefix s), q) /\ ptext m q (snd (ATRemovePrefix s)).
Proof.
  destruct p as [a|], s as [s|]; cbn [ptext]; intros T; try contradiction; [|exists None; split; [reflexivity|exact I]].
  destruct T as (C & Lo & Hi). pose proof C as C0. apply cstr_inv in C as (pre & post & -> & <- & Hn). cbn [pRemovePrefix].
  destruct (agree_removeprefix pre s post Hn) as (st & q & E & A). unfold str in *; rewrite E, A. cbn [fst snd]. exists q. split; [reflexivity|].
  destruct q as [q|]; [|exact I]. unfold ATRemovePrefix_m in E. rewrite validated_obj in E by assumption. unfold ATRemovePrefix in A.
  destruct (is_valid s) eqn:Hv.
  - rewrite strchr_obj' in E by (assumption || discriminate). cbn [bind] in E.
    destruct (strchr s chCOLON) as [n|] eqn:En; [|discriminate]. injection E as <- <-. injection A as A. cbn [ptext]. rewrite <- A.
    split; [now symmetry|]. change (match s with [] => [] | _ :: l => skipn n l end) with (skipn (S n) s). rewrite skipn_length. clear A. apply strchr_split in En as (x & y & -> & <- & _). rewrite app_length in *. cbn [length] in *. lia.
  - injection E as <- <-. rewrite C0. cbn. split; auto.
Qed.

Lemma pLead_ok m p s : ptext m p s ->
  exists q, pLead m p = Ok (fst (ATRemoveLeadingWhiteSpaces s), q) /\ ptext m q (snd (ATRemoveLeadingWhiteSpaces s)).
Proof.
  destruct p as [a|], s as [s|]; cbn [ptext]; intros T; try contradiction; [|exists None; split; [reflexivity|exact I]].
  destruct T as (C & Lo & Hi). pose proof C as C0. apply cstr_inv in C as (pre & post & -> & <- & Hn). cbn [pLead].
  destruct (agree_lead pre s post Hn) as (st & q & E & A). unfold str in *; rewrite E, A. cbn [fst snd bind]. exists (Some q). split; [reflexivity|].
  unfold ATRemoveLeadingWhiteSpaces_m in E. rewrite validated_obj in E by assumption. unfold ATRemoveLeadingWhiteSpaces in A.
  destruct (is_valid s) eqn:Hv.
  - rewrite lead_loop_obj in E; [|assumption|rewrite obj_len; lia]. cbn [bind] in E. injection E as <- <-. injection A as A. rewrite <- A. cbn [ptext].
    split; [now symmetry|]. destruct (skip_spaces_split s) as (x & H1 & _). assert (length s = length x + length (skip_spaces s)) by (rewrite H1 at 1; apply app_length).
    lia.
  - injection E as <- <-. rewrite C0. split; auto.
Qed.

(** In-place functions: the result is described by a string of at most the old length. *)
Lemma overlay_text pre t s post : no_nul t -> length t <= length s -> lo <= length pre -> length pre + length s <= hi ->
  ch (obj pre s post) (pre ++ overlay (t ++ [0%N]) (s ++ [0%N]) ++ post) /\ text (pre ++ overlay (t ++ [0%N]) (s ++ [0%N]) ++ post) (length pre) t.
Proof.
  intros Ht L Lo Hi. split.
  - unfold obj. replace (pre ++ s ++ 0%N :: post) with (pre ++ (s ++ [0%N]) ++ post) by now rewrite <- app_assoc.
    assert (LE : length (overlay (t ++ [0%N]) (s ++ [0%N])) = length s + 1) by (unfold overlay; rewrite !app_length, skipn_length, !app_length; cbn; lia).
    apply chM.
    + rewrite LE, app_length. reflexivity.
    + rewrite app_length. cbn. unfold inside. lia.
    + intros K. rewrite K in LE. cbn in LE. lia.
    + unfold overlay. rewrite app_length. cbn [length]. rewrite Nat.add_1_r. destruct (Nat.eq_dec (length t) (length s)) as [Q|Q].
      * rewrite skipn_all2 by (rewrite app_length; cbn; lia). rewrite app_nil_r. apply last_last.
      * rewrite skipn_app. replace (S (length t) - length s) with 0 by lia. cbn [skipn]. rewrite app_assoc. apply last_last.
  - split; [apply overlay_string; assumption|lia].
Qed.

Lemma filter_ok drop fm fc m p s : text m p s ->
  (forall m p, fm m p = validated m p (fun e => (e, m)) (do m' <- filter_loop_m (S (length m)) drop m p p; Ok (AT_SUCCESS, m'))) ->
  (fc (Some s) = if is_valid s then (AT_SUCCESS, Some (filter_loop drop s)) else (AT_BAD_PARAMETER, Some s)) ->
  exists m' s', fm m p = Ok (fst (fc (Some s)), m') /\ ch m m' /\ snd (fc (Some s)) = Some s' /\ text m' p s'.
Proof.
  intros (C & Lo & Hi) Hm Hc. pose proof C as C0. apply cstr_inv in C as (pre & post & -> & <- & Hn).
  rewrite Hm, Hc, validated_obj by assumption. destruct (is_valid s).
  - rewrite filter_m_eq; [|assumption|rewrite obj_len; lia]. cbn [bind fst snd]. do 2 eexists. split; [reflexivity|].
    destruct (overlay_text pre (filter_loop drop s) s post (filter_loop_nonul _ _ Hn) (filter_loop_len _ _) Lo Hi) as [H1 H2].
    split; [exact H1|]. split; [reflexivity|exact H2].
  - do 2 eexists. split; [reflexivity|]. split; [apply chR|]. split; [reflexivity|]. split; auto.
Qed.
Lemma pAllWs_ok m p s : ptext m p s ->
  exists m', pAllWs m p = Ok (fst (ATRemoveAllWhiteSpaces s), m') /\ ch m m' /\ ptext m' p (snd (ATRemoveAllWhiteSpaces s)).
Proof.
  destruct p as [a|], s as [s|]; cbn [ptext]; intros T; try contradiction; [|exists m; split; [reflexivity|split; [apply chR|exact I]]].
  destruct (filter_ok isspace ATRemoveAllWhiteSpaces_m ATRemoveAllWhiteSpaces m a s T) as (m' & s' & E & H & Es & T'); [reflexivity|reflexivity|].
  exists m'. split; [exact E|]. split; [exact H|]. now rewrite Es.
Qed.
Lemma pAllDq_ok m p s : ptext m p s ->
  exists m', pAllDq m p = Ok (fst (ATRemoveAllDoubleQuote s), m') /\ ch m m' /\ ptext m' p (snd (ATRemoveAllDoubleQuote s)).
Proof.
  destruct p as [a|], s as [s|]; cbn [ptext]; intros T; try contradiction; [|exists m; split; [reflexivity|split; [apply chR|exact I]]].
  destruct (filter_ok (fun c => (c =? chDQ)%N) ATRemoveAllDoubleQuote_m ATRemoveAllDoubleQuote m a s T) as (m' & s' & E & H & Es & T'); [reflexivity|reflexivity|].
  exists m'. split; [exact E|]. split; [exact H|]. now rewrite Es.
Qed.

Lemma pTrail_ok m p s : ptext m p s ->
  exists m', pTrail m p = Ok (fst (ATRemoveTrailingWhiteSpaces s), m') /\ ch m m' /\ ptext m' p (snd (ATRemoveTrailingWhiteSpaces s)).
Proof.
  destruct p as [a|], s as [s|]; cbn [ptext]; intros T; try contradiction; [|exists m; split; [reflexivity|split; [apply chR|exact I]]].
  destruct T as (C & Lo & Hi). pose proof C as C0. apply cstr_inv in C as (pre & post & -> & <- & Hn). cbn [pTrail].
  destruct (agree_trail pre s post Hn) as (st & m' & E & A). unfold str in *; rewrite E, A. cbn [fst snd]. exists m'. split; [reflexivity|].
  unfold ATRemoveTrailingWhiteSpaces in A. destruct (is_valid s) eqn:Hv.
  2:{ unfold ATRemoveTrailingWhiteSpaces_m in E. rewrite validated_obj, Hv in E by assumption. injection E as <- <-. rewrite C0.
      split; [apply chR|split; auto]. }
  destruct (Nat.ltb_spec 2 (length s)) as [Hl|Hl].
  2:{ unfold ATRemoveTrailingWhiteSpaces_m in E. rewrite validated_obj, Hv, strlen_obj' in E by assumption. cbn [bind] in E.
      replace (2 <? length s) with false in E by (symmetry; apply Nat.ltb_ge; lia). injection E as <- <-. rewrite C0. split; [apply chR|split; auto]. }
  apply is_valid_iff in Hv. destruct (trail_split s) as (t & c & w & -> & Hw & Hc); [apply Hv|].
  rewrite trail_m in E by auto. injection E as <- <-. apply no_nul_app in Hn as [N1 N2]. apply no_nul_cons in N2 as [N2 N3].
  destruct (overlay_text pre (t ++ [c]) (t ++ c :: w) post) as [H1 H2]; auto.
  { apply no_nul_app. split; [assumption|]. apply no_nul_cons. split; [assumption|apply no_nul_nil]. }
  { rewrite !app_length. cbn. lia. }
  replace ((t ++ [c]) ++ [0%N]) with (t ++ [c; 0%N]) in * by now rewrite <- app_assoc.
  replace ((t ++ c :: w) ++ [0%N]) with (t ++ c :: w ++ [0%N]) in * by now rewrite <- app_assoc.
  split; [exact H1|]. destruct H2 as (C2 & B). rewrite C2. split; [exact C2|exact B].
Qed.

Lemma pOuter_ok m p s : ptext m p s ->
  exists q m', pOuter m p = Ok (fst (ATRemoveOutermostDoubleQuote s), q, m') /\ ch m m' /\ ptext m' q (snd (ATRemoveOutermostDoubleQuote s)).
Proof.
  destruct p as [a|], s as [s|]; cbn [ptext]; intros T; try contradiction; [|exists None, m; split; [reflexivity|split; [apply chR|exact I]]].
  destruct T as (C & Lo & Hi). pose proof C as C0. apply cstr_inv in C as (pre & post & -> & <- & Hn). cbn [pOuter].
  destruct (agree_outer pre s post Hn) as (st & q & m' & E & A). unfold str in *; rewrite E, A. cbn [fst snd bind]. exists (Some q), m'. split; [reflexivity|].
  rewrite outer_dq_m in E by assumption. unfold ATRemoveOutermostDoubleQuote in A.
  assert (B : text (obj pre s post) (length pre) s) by (split; auto).
  assert (RL : forall u : list N, u <> [] -> length (removelast u) = length u - 1 /\ removelast u ++ [last u 0%N] = u).
  { intros u Hu. rewrite <- (app_removelast_last 0%N Hu). split; [|reflexivity]. rewrite (app_removelast_last 0%N Hu) at 2. rewrite app_length. cbn. lia. }
  assert (CM : forall pre' u, u <> [] -> lo <= length pre' -> length pre' + length u <= hi ->
             ch (obj pre' u post) (obj pre' (removelast u) (0%N :: post))).
  { intros pre' u Hu L1 L2. destruct (RL u Hu) as [Ru Eu].
    assert (O1 : obj pre' u post = (pre' ++ removelast u) ++ [last u 0%N] ++ 0%N :: post).
    { unfold obj. rewrite <- Eu at 1. rewrite <- !app_assoc. reflexivity. }
    assert (O2 : obj pre' (removelast u) (0%N :: post) = (pre' ++ removelast u) ++ [0%N] ++ 0%N :: post).
    { unfold obj. rewrite <- !app_assoc. reflexivity. }
    rewrite O1, O2. apply chM; [reflexivity| |discriminate|reflexivity]. intros i Hi'. rewrite app_length in Hi'. cbn in Hi'. unfold inside.
    assert (length u > 0) by (destruct u; [congruence|cbn; lia]). lia. }
  destruct (is_valid s) eqn:Hv; [|injection E as <- <- <-; rewrite C0; split; [apply chR|exact B]].
  destruct (Nat.ltb_spec 2 (length s)) as [Hl|Hl]; [|injection E as <- <- <-; rewrite C0; split; [apply chR|exact B]].
  destruct s as [|c t]; [cbn in Hl; lia|].
  assert (Nt : t <> []) by (intros ->; cbn in Hl; lia). cbn [length] in *.
  assert (S1 : length (pre ++ [c]) = S (length pre)) by apply len_snoc.
  destruct (c =? chDQ)%N; [destruct (last t 0%N =? chDQ)%N|destruct (last (c :: t) 0%N =? chDQ)%N]; injection E as <- <- <-; injection A as A; rewrite <- A in *; cbn [ptext].
  - split; [rewrite obj_cons; apply CM; [assumption|lia|lia]|]. split; [now symmetry|]. destruct (RL t Nt). lia.
  - split; [apply chR|]. split; [now symmetry|]. lia.
  - split; [apply CM; [discriminate|lia|cbn [length]; lia]|]. split; [now symmetry|]. destruct (RL (c :: t)) as [R1 _]; [discriminate|]. cbn [removelast length] in *. lia.
  - split; [apply chR|]. split; [now symmetry|cbn [length]; lia].
Qed.

Lemma pTok_ok d m p s : d <> 0%N -> ptext m p s ->
  exists m' q t, pTok m p d = Ok (fst (fst (ATGetSpecificNextTok s d)), m', q, t) /\ ch m m' /\
    ptext m' q (snd (fst (ATGetSpecificNextTok s d))) /\ ptext m' t (snd (ATGetSpecificNextTok s d)).
Proof.
  intros Hd. destruct p as [a|], s as [s|]; cbn [ptext]; intros T; try contradiction; [|exists m, None, None; split; [reflexivity|split; [apply chR|split; exact I]]].
  destruct T as (C & Lo & Hi). pose proof C as C0. apply cstr_inv in C as (pre & post & -> & <- & Hn). cbn [pTok].
  destruct (tok_refines pre s post d Hn Hd) as (st & m' & q & t & E & A & _). unfold str in *; rewrite E, A. cbn [fst snd bind].
  exists m', (Some q), t. split; [reflexivity|].
  destruct (is_valid s) eqn:Hv.
  2:{ assert (Hv' := Hv). apply is_valid_false in Hv'. rewrite tok_m_bad in E by assumption. injection E as <- <- <- <-. rewrite C0.
      split; [apply chR|]. split; [split; auto|exact I]. }
  assert (Hv' := Hv). apply is_valid_iff in Hv'. unfold ATGetSpecificNextTok in A. rewrite Hv in A.
  destruct (take_until_split d s) as [[H1 H2]|(r & H1 & H2)].
  - rewrite tok_m_last in E by assumption. injection E as <- <- <- <-. split; [apply chR|]. rewrite C0. split; [|split; auto].
    assert (Cq : cstr_get (obj pre s post) (length pre + length s) = Some []).
    { unfold obj. rewrite app_assoc, <- app_length. apply cstr_get_obj with (s := []). apply no_nul_nil. }
    rewrite Cq. split; [exact Cq|]. cbn. lia.
  - remember (take_until d s) as f eqn:Ef. clear Ef. subst s. rewrite app_length in Hi. cbn [length] in Hi.
    assert (Nf : no_nul f) by now apply no_nul_app in Hn. assert (Nr : no_nul r) by (apply no_nul_app in Hn as [_ Hr]; now apply no_nul_cons in Hr).
    rewrite tok_m_split in E by assumption. injection E as <- <- <- <-.
    split.
    { assert (O1 : obj pre (f ++ d :: r) post = (pre ++ f) ++ [d] ++ (r ++ 0%N :: post)) by (unfold obj; rewrite <- !app_assoc; reflexivity).
      assert (O2 : obj pre f (r ++ 0%N :: post) = (pre ++ f) ++ [0%N] ++ (r ++ 0%N :: post)) by (unfold obj; rewrite <- !app_assoc; reflexivity).
      rewrite O1, O2. apply chM; [reflexivity| |discriminate|reflexivity]. intros i Hi'. rewrite app_length in Hi'. cbn in Hi'. unfold inside. lia. }
    split.
    2:{ rewrite cstr_get_obj by assumption. split; [now apply cstr_get_obj|lia]. }
    destruct r as [|x r].
    + assert (Cq : cstr_get (obj pre f ([] ++ 0%N :: post)) (length pre + length f) = Some []).
      { unfold obj. rewrite app_assoc, <- app_length. apply cstr_get_obj with (s := []). apply no_nul_nil. }
      rewrite Cq. split; [exact Cq|cbn; lia].
    + assert (Cq : cstr_get (obj pre f ((x :: r) ++ 0%N :: post)) (length pre + length f + 1) = Some (x :: r)).
      { replace (obj pre f ((x :: r) ++ 0%N :: post)) with (obj (pre ++ f ++ [0%N]) (x :: r) post) by (unfold obj; rewrite <- !app_assoc; reflexivity).
        replace (length pre + length f + 1) with (length (pre ++ f ++ [0%N])) by (rewrite !app_length; cbn; lia). now apply cstr_get_obj. }
      rewrite Cq. split; [exact Cq|cbn [length] in *; lia].
Qed.
End Region.

(** Proofs about the AT string utilities. *)
From Coq Require Import List NArith ZArith Bool Lia ZifyBool ZifyNat ZifyN Arith.
From Verif Require Import Bytes AtCore AtMem SpecAt.
Import ListNotations.

Lemma ld_app a c b : ld (a ++ c :: b) (length a) = Ok c.
Proof. unfold ld. rewrite nth_error_app2, Nat.sub_diag by lia. reflexivity. Qed.

Lemma ld_app' a c b i : i = length a -> ld (a ++ c :: b) i = Ok c.
Proof. intros ->. apply ld_app. Qed.

Lemma upd_app a c b v : upd (a ++ c :: b) (length a) v = a ++ v :: b.
Proof. induction a; cbn; [reflexivity|]. now rewrite IHa. Qed.

Lemma st_app a c b v : st (a ++ c :: b) (length a) v = Ok (a ++ v :: b).
Proof.
  unfold st. rewrite app_length; cbn [length].
  replace (length a <? length a + S (length b))%nat with true by lia. now rewrite upd_app.
Qed.
Lemma st_app' a c b i v : i = length a -> st (a ++ c :: b) i v = Ok (a ++ v :: b).
Proof. intros ->. apply st_app. Qed.

Lemma no_nul_cons c s : no_nul (c :: s) <-> c <> 0%N /\ no_nul s.
Proof. unfold no_nul; cbn; intuition congruence. Qed.
Lemma no_nul_app a b : no_nul (a ++ b) <-> no_nul a /\ no_nul b.
Proof. unfold no_nul. rewrite in_app_iff. tauto. Qed.
Lemma no_nul_nil : no_nul []. Proof. unfold no_nul; cbn; tauto. Qed.

Lemma obj_cons pre c s post : obj pre (c :: s) post = obj (pre ++ [c]) s post.
Proof. unfold obj. now rewrite <- app_assoc. Qed.
Lemma obj_cons' pre c s post : obj pre (c :: s) post = pre ++ c :: (s ++ 0%N :: post).
Proof. reflexivity. Qed.
Lemma ld_obj_nil pre post : ld (obj pre [] post) (length pre) = Ok 0%N.
Proof. apply ld_app. Qed.
Lemma ld_obj_cons pre c s post : ld (obj pre (c :: s) post) (length pre) = Ok c.
Proof. apply ld_app. Qed.
Lemma len_snoc {A} (pre : list A) c : length (pre ++ [c]) = S (length pre).
Proof. rewrite app_length; cbn; lia. Qed.
Lemma obj_len pre s post : length (obj pre s post) = (length pre + length s + 1 + length post)%nat.
Proof. unfold obj. rewrite !app_length; cbn. lia. Qed.

Lemma cstr_list_app s post : no_nul s -> cstr_list (s ++ 0%N :: post) = Some s.
Proof.
  induction s as [|c s IH]; cbn; intros H; [reflexivity|].
  apply no_nul_cons in H as [H1 H2]. replace (c =? 0)%N with false by lia. now rewrite IH.
Qed.
Lemma cstr_get_obj pre s post : no_nul s -> cstr_get (obj pre s post) (length pre) = Some s.
Proof.
  intros. unfold cstr_get, obj. rewrite skipn_app, skipn_all, Nat.sub_diag. cbn.
  now apply cstr_list_app.
Qed.
Lemma cstr_list_inv m s : cstr_list m = Some s -> no_nul s /\ exists post, m = s ++ 0%N :: post.
Proof.
  revert s; induction m as [|c m IH]; cbn; intros s H; [discriminate|].
  destruct (N.eqb_spec c 0) as [->|Hc].
  - injection H as <-. split; [apply no_nul_nil|]. now exists m.
  - destruct (cstr_list m) as [t|] eqn:E; [|discriminate]. injection H as <-.
    destruct (IH _ eq_refl) as [H1 [post ->]]. split; [apply no_nul_cons; auto|]. now exists post.
Qed.
Lemma cstr_get_inv m p s : cstr_get m p = Some s ->
  no_nul s /\ exists pre post, m = obj pre s post /\ length pre = p.
Proof.
  intros H. unfold cstr_get in H. apply cstr_list_inv in H as [H1 [post H2]]. split; [assumption|].
  exists (firstn p m), post. unfold obj. rewrite <- H2, firstn_skipn. split; [reflexivity|].
  rewrite firstn_length. assert (p < length m)%nat; [|lia].
  destruct (Nat.lt_ge_cases p (length m)); [assumption|].
  rewrite skipn_all2 in H2 by lia. destruct s; discriminate.
Qed.

(** ** Validation *)
Lemma memchr0_obj pre s post n : no_nul s ->
  memchr0 (obj pre s post) (length pre) n =
  Ok (if (length s <? n)%nat then Some (length pre + length s)%nat else None).
Proof.
  revert pre n; induction s as [|c s IH]; intros pre n Hn.
  - destruct n; cbn [memchr0]; [reflexivity|]. rewrite ld_obj_nil. cbn.
    now rewrite Nat.add_0_r.
  - apply no_nul_cons in Hn as [Hc Hn]. destruct n; [reflexivity|].
    cbn [memchr0]. rewrite ld_obj_cons. cbn [bind].
    replace (c =? 0)%N with false by lia.
    rewrite obj_cons, <- (len_snoc pre c), IH by assumption. rewrite len_snoc. cbn [length].
    replace (S (length s) <? S n)%nat with (length s <? n)%nat by reflexivity.
    destruct (length s <? n)%nat; f_equal. f_equal. lia.
Qed.

Lemma validate_obj pre s post : no_nul s ->
  validateString_m (obj pre s post) (length pre) = Ok (validateString s).
Proof.
  intros Hn. unfold validateString_m. rewrite memchr0_obj by assumption. cbn [bind].
  unfold validateString, AT_MAX_STRING_SIZE. destruct s as [|c s].
  - cbn [length]. replace (0 <? N.to_nat (256+1))%nat with true by lia.
    replace (length pre + 0 =? length pre)%nat with true by lia. reflexivity.
  - destruct (Nat.ltb_spec (length (c :: s)) (N.to_nat (256+1))).
    + replace (length pre + length (c :: s) =? length pre)%nat with false by (cbn [length]; lia).
      replace (256 <? N.of_nat (length (c :: s)))%N with false by lia. reflexivity.
    + replace (256 <? N.of_nat (length (c :: s)))%N with true by lia. reflexivity.
Qed.

Lemma is_valid_iff s : is_valid s = true <-> at_len_ok s.
Proof.
  unfold is_valid, validateString, at_len_ok, AT_MAX_STRING_SIZE. destruct s as [|c s].
  - split; [discriminate|]. intros [H _]. congruence.
  - destruct (N.ltb_spec 256 (N.of_nat (length (c :: s)))); split; try discriminate; intros.
    + destruct H0. lia.
    + split; [discriminate|lia].
    + reflexivity.
Qed.
Lemma is_valid_false s : is_valid s = false <-> ~ at_len_ok s.
Proof. rewrite <- is_valid_iff. destruct (is_valid s); intuition congruence. Qed.

Lemma validated_obj {A} pre s post (d : at_status -> A) k : no_nul s ->
  validated (obj pre s post) (length pre) d k = if is_valid s then k else Ok (d AT_BAD_PARAMETER).
Proof.
  intros. unfold validated. rewrite validate_obj by assumption. cbn [bind]. unfold is_valid.
  now destruct (validateString s).
Qed.

(** ** strlen / strchr *)
Lemma strlen_obj pre s post fuel : no_nul s -> (length s < fuel)%nat ->
  strlen_m fuel (obj pre s post) (length pre) = Ok (length s).
Proof.
  revert pre fuel; induction s as [|c s IH]; intros pre [|fuel] Hn Hf; try (cbn in Hf; lia).
  - cbn [strlen_m]. now rewrite ld_obj_nil.
  - apply no_nul_cons in Hn as [Hc Hn]. cbn [strlen_m]. rewrite ld_obj_cons. cbn [bind].
    replace (c =? 0)%N with false by lia.
    rewrite obj_cons, <- (len_snoc pre c), IH; [reflexivity|assumption|cbn in Hf; lia].
Qed.
Lemma strlen_obj' pre s post : no_nul s ->
  strlen_m (S (length (obj pre s post))) (obj pre s post) (length pre) = Ok (length s).
Proof. intros. apply strlen_obj; [assumption|]. rewrite obj_len. lia. Qed.

Lemma strchr_obj pre s post fuel c : no_nul s -> c <> 0%N -> (length s < fuel)%nat ->
  strchr_m fuel (obj pre s post) (length pre) c =
  Ok (match strchr s c with Some n => Some (length pre + n)%nat | None => None end).
Proof.
  revert pre fuel; induction s as [|x s IH]; intros pre [|fuel] Hn Hz Hf; try (cbn in Hf; lia).
  - cbn [strchr_m]. rewrite ld_obj_nil. cbn [bind strchr].
    replace (0 =? c)%N with false by lia. reflexivity.
  - apply no_nul_cons in Hn as [Hc Hn]. cbn [strchr_m strchr]. rewrite ld_obj_cons. cbn [bind].
    destruct (N.eqb_spec x c) as [->|Hx].
    + now rewrite Nat.add_0_r.
    + replace (x =? 0)%N with false by lia.
      rewrite obj_cons, <- (len_snoc pre x), IH; [|assumption|assumption|cbn in Hf; lia].
      rewrite len_snoc. destruct (strchr s c); [|reflexivity]. do 2 f_equal. lia.
Qed.
Lemma strchr_obj' pre s post c : no_nul s -> c <> 0%N ->
  strchr_m (S (length (obj pre s post))) (obj pre s post) (length pre) c =
  Ok (match strchr s c with Some n => Some (length pre + n)%nat | None => None end).
Proof. intros. apply strchr_obj; auto. rewrite obj_len. lia. Qed.

Lemma strchr_split s c n : strchr s c = Some n ->
  exists a b, s = a ++ c :: b /\ length a = n /\ ~ In c a.
Proof.
  revert n; induction s as [|x s IH]; cbn; intros n H; [discriminate|].
  destruct (N.eqb_spec x c) as [->|Hx].
  - injection H as <-. exists [], s. cbn. tauto.
  - destruct (strchr s c) as [k|]; [|discriminate]. injection H as <-.
    destruct (IH _ eq_refl) as (a & b & -> & <- & Hi). exists (x :: a), b. cbn. intuition.
Qed.
Lemma strchr_none s c : strchr s c = None <-> ~ In c s.
Proof.
  induction s as [|x s IH]; cbn; [intuition|].
  destruct (N.eqb_spec x c) as [->|Hx]; [intuition discriminate|].
  destruct (strchr s c); intuition congruence.
Qed.
Lemma strchr_app a b c : ~ In c a -> strchr (a ++ c :: b) c = Some (length a).
Proof.
  induction a as [|x a IH]; cbn; intros H; [now rewrite N.eqb_refl|].
  destruct (N.eqb_spec x c); [intuition|]. rewrite IH by intuition. reflexivity.
Qed.

(** ** Prefix detection *)
Lemma check_prefix_char c : CHECK_IS_PREFIX_CHAR c = false <-> prefix_char c.
Proof.
  unfold CHECK_IS_PREFIX_CHAR, IS_PREFIX_LEADING_CHAR, isalpha, isupper, islower, isdigit, prefix_char,
    chUNDER, chPLUS. lia.
Qed.
Lemma prefix_loop_m_obj m s pre post n fuel : m = obj pre s post -> (n <= length s)%nat -> (n < fuel)%nat ->
  prefix_loop_m fuel m (length pre) (length pre + n) = Ok (prefix_loop s n).
Proof.
  revert m pre n fuel; induction s as [|c s IH]; intros m pre n [|fuel] -> Hn Hf; try lia.
  - cbn in Hn. replace n with O by lia. cbn [prefix_loop_m prefix_loop].
    replace (length pre <? length pre + 0)%nat with false by lia. reflexivity.
  - destruct n; cbn [prefix_loop_m prefix_loop].
    + replace (length pre <? length pre + 0)%nat with false by lia. reflexivity.
    + replace (length pre <? length pre + S n)%nat with true by lia.
      rewrite ld_obj_cons. cbn [bind].
      destruct (CHECK_IS_PREFIX_CHAR c); [reflexivity|].
      rewrite obj_cons. rewrite <- (len_snoc pre c).
      replace (length pre + S n)%nat with (length (pre ++ [c]) + n)%nat by (rewrite len_snoc; lia).
      apply IH; [reflexivity|cbn in Hn; lia|lia].
Qed.
Lemma prefix_loop_true a b : prefix_loop (a ++ b) (length a) = true <-> Forall prefix_char a.
Proof.
  induction a as [|c a IH]; cbn.
  { destruct b; cbn; intuition. }
  destruct (CHECK_IS_PREFIX_CHAR c) eqn:E.
  - split; [discriminate|]. intros H; inversion H as [|x y H2 H3]; subst. apply check_prefix_char in H2. congruence.
  - rewrite IH. split; [intros; constructor; [now apply check_prefix_char|auto]|].
    intros H; now inversion H.
Qed.

Lemma prefix_form_iff s : s <> [] ->
  (exists n, strchr s chCOLON = Some n /\ IS_PREFIX_LEADING_CHAR (hd 0%N s) = true /\ prefix_loop s n = true)
  <-> prefix_form s.
Proof.
  intros Hs. unfold prefix_form, IS_PREFIX_LEADING_CHAR, chPLUS. split.
  - intros (n & H1 & H2 & H3). apply strchr_split in H1 as (a & b & -> & <- & Hi).
    apply prefix_loop_true in H3. destruct a as [|c a].
    + cbn in H2. discriminate.
    + cbn in H2. apply N.eqb_eq in H2 as ->. exists a, b. split; [reflexivity|]. now inversion H3.
  - intros (w & rest & -> & Hw). exists (S (length w)).
    assert (Hi : ~ In chCOLON w).
    { intros Hi. rewrite Forall_forall in Hw. apply Hw in Hi. unfold prefix_char, chCOLON in Hi. lia. }
    split; [|split; [reflexivity|]].
    + change (43%N :: w ++ 58%N :: rest) with ((43%N :: w) ++ chCOLON :: rest).
      rewrite strchr_app; [reflexivity|]. intros [H|H]; [discriminate|auto].
    + change (43%N :: w ++ 58%N :: rest) with ((43%N :: w) ++ chCOLON :: rest).
      change (S (length w)) with (length (43%N :: w)). apply prefix_loop_true.
      constructor; [unfold prefix_char; lia|assumption].
Qed.

Definition isPrefix_bool (s : str) : bool :=
  match strchr s chCOLON with
  | None => false
  | Some n => IS_PREFIX_LEADING_CHAR (hd 0%N s) && prefix_loop s n
  end.
Lemma ATIsPrefixPresent_bool s r :
  ATIsPrefixPresent (Some s) (Some r) =
  if is_valid s then (AT_SUCCESS, Some (isPrefix_bool s)) else (AT_BAD_PARAMETER, Some r).
Proof.
  unfold ATIsPrefixPresent, isPrefix_bool. destruct (is_valid s); [|reflexivity].
  destruct (strchr s chCOLON); [|reflexivity].
  destruct (IS_PREFIX_LEADING_CHAR (hd 0%N s)); reflexivity.
Qed.
Lemma isPrefix_bool_iff s : s <> [] -> (isPrefix_bool s = true <-> prefix_form s).
Proof.
  intros Hs. rewrite <- prefix_form_iff by assumption. unfold isPrefix_bool.
  destruct (strchr s chCOLON) as [n|].
  - rewrite andb_true_iff. split; [intros [? ?]; eauto|]. intros (k & [= <-] & ? & ?). auto.
  - split; [discriminate|]. intros (k & ? & _). discriminate.
Qed.

Lemma ATIsPrefixPresent_m_eq pre s post : no_nul s ->
  ATIsPrefixPresent_m (obj pre s post) (length pre) =
  Ok (if is_valid s then (AT_SUCCESS, Some (isPrefix_bool s)) else (AT_BAD_PARAMETER, None)).
Proof.
  intros Hn. unfold ATIsPrefixPresent_m. rewrite validated_obj by assumption.
  destruct (is_valid s) eqn:Hv; [|reflexivity].
  apply is_valid_iff in Hv as [Hs _]. rewrite strchr_obj' by (assumption || (unfold chCOLON; lia)).
  cbn [bind]. unfold isPrefix_bool. destruct (strchr s chCOLON) as [n|] eqn:E; [|reflexivity].
  destruct s as [|c s]; [congruence|]. rewrite ld_obj_cons. cbn [bind hd].
  destruct (IS_PREFIX_LEADING_CHAR c); cbn [negb andb]; [|reflexivity].
  apply strchr_split in E as E'. destruct E' as (a & b & E' & El & _).
  assert (n < length (c :: s))%nat by (rewrite E', app_length; cbn; lia).
  rewrite prefix_loop_m_obj with (s := c :: s) (post := post); [reflexivity|reflexivity|lia|].
  rewrite obj_len. lia.
Qed.

Lemma prefix_present_exact pre s post : no_nul s ->
  exists st r, ATIsPrefixPresent_m (obj pre s post) (length pre) = Ok (st, r) /\
  ((at_len_ok s /\ st = AT_SUCCESS /\ exists b, r = Some b /\ (b = true <-> prefix_form s))
   \/ (~ at_len_ok s /\ st = AT_BAD_PARAMETER /\ r = None)).
Proof.
  intros Hn. rewrite ATIsPrefixPresent_m_eq by assumption. destruct (is_valid s) eqn:Hv.
  - do 2 eexists. split; [reflexivity|]. left. apply is_valid_iff in Hv. split; [assumption|].
    split; [reflexivity|]. eexists; split; [reflexivity|]. apply isPrefix_bool_iff, Hv.
  - do 2 eexists. split; [reflexivity|]. right. apply is_valid_false in Hv. auto.
Qed.

(** ** Starts-with *)
Lemma startwith_loop_m_obj : forall p s pre post kpre kpost fuel,
  no_nul s -> no_nul p -> (length p < fuel)%nat ->
  startwith_loop_m fuel (obj pre s post) (length pre) (obj kpre p kpost) (length kpre)
  = Ok (startwith_loop s p).
Proof.
  induction p as [|x p IH]; intros s pre post kpre kpost [|fuel] Hs Hp Hf; try (cbn in Hf; lia).
  - cbn [startwith_loop_m]. rewrite ld_obj_nil. reflexivity.
  - apply no_nul_cons in Hp as [Hx Hp]. cbn [startwith_loop_m]. rewrite ld_obj_cons.
    cbn [bind]. replace (x =? 0)%N with false by lia. destruct s as [|y s].
    + rewrite ld_obj_nil. cbn [bind]. replace (x =? 0)%N with false by lia. reflexivity.
    + apply no_nul_cons in Hs as [Hy Hs]. rewrite ld_obj_cons. cbn [bind startwith_loop].
      destruct (x =? y)%N; cbn [negb]; [|reflexivity].
      rewrite (obj_cons pre), (obj_cons kpre), <- (len_snoc pre y), <- (len_snoc kpre x).
      apply IH; [assumption|assumption|cbn in Hf; lia].
Qed.
Lemma startwith_loop_iff s p : startwith_loop s p = true <-> is_prefix_of p s.
Proof.
  revert s; induction p as [|x p IH]; intros s; cbn.
  - split; [intros _; now exists s|reflexivity].
  - destruct s as [|y s].
    + split; [discriminate|]. intros [r H]. discriminate.
    + destruct (N.eqb_spec x y) as [->|Hxy].
      * rewrite IH. split; intros [r H]; exists r; cbn in *; congruence.
      * split; [discriminate|]. intros [r H]. cbn in H. congruence.
Qed.
Lemma startwith_m_eq pre s post kpre p kpost : no_nul s -> no_nul p ->
  ATStrStartWith_m (obj pre s post) (length pre) (obj kpre p kpost) (length kpre) =
  Ok (if is_valid s && is_valid p then (AT_SUCCESS, Some (startwith_loop s p)) else (AT_BAD_PARAMETER, None)).
Proof.
  intros. unfold ATStrStartWith_m. rewrite !validated_obj by assumption.
  destruct (is_valid s), (is_valid p); try reflexivity. cbn [andb].
  rewrite startwith_loop_m_obj; try assumption; [reflexivity|]. rewrite obj_len. lia.
Qed.
Lemma startwith_exact pre s post kpre p kpost : no_nul s -> no_nul p ->
  exists st r, ATStrStartWith_m (obj pre s post) (length pre) (obj kpre p kpost) (length kpre) = Ok (st, r) /\
  ((at_len_ok s /\ at_len_ok p /\ st = AT_SUCCESS /\ exists b, r = Some b /\ (b = true <-> is_prefix_of p s))
   \/ (~ (at_len_ok s /\ at_len_ok p) /\ st = AT_BAD_PARAMETER /\ r = None)).
Proof.
  intros. rewrite startwith_m_eq by assumption.
  destruct (is_valid s) eqn:E1; destruct (is_valid p) eqn:E2; cbn [andb]; do 2 eexists; (split; [reflexivity|]);
    repeat match goal with H : is_valid _ = true |- _ => apply is_valid_iff in H
                      | H : is_valid _ = false |- _ => apply is_valid_false in H end.
  - left. repeat split; try apply E1; try apply E2. eexists; split; [reflexivity|]. apply startwith_loop_iff.
  - right. tauto.
  - right. tauto.
  - right. tauto.
Qed.

(** ** Prefix removal *)
Lemma removeprefix_exact pre s post : no_nul s ->
  (forall a b, at_len_ok s -> s = a ++ 58%N :: b -> ~ In 58%N a ->
     exists q, ATRemovePrefix_m (obj pre s post) (length pre) = Ok (AT_SUCCESS, Some q) /\
               cstr_get (obj pre s post) q = Some b) /\
  (~ (at_len_ok s /\ In 58%N s) ->
     exists q, ATRemovePrefix_m (obj pre s post) (length pre) = Ok (AT_BAD_PARAMETER, q)).
Proof.
  intros Hn. unfold ATRemovePrefix_m. rewrite validated_obj by assumption. split.
  - intros a b Hv -> Hi. apply is_valid_iff in Hv. rewrite Hv.
    rewrite strchr_obj' by (assumption || (unfold chCOLON; lia)).
    change 58%N with chCOLON. rewrite strchr_app by assumption. cbn [bind].
    eexists. split; [reflexivity|].
    replace (obj pre (a ++ chCOLON :: b) post) with (obj (pre ++ a ++ [chCOLON]) b post)
      by (unfold obj; rewrite <- !app_assoc; reflexivity).
    replace (S (length pre + length a)) with (length (pre ++ a ++ [chCOLON])) by (rewrite !app_length; cbn; lia).
    apply cstr_get_obj. apply no_nul_app in Hn as [_ Hn]. now apply no_nul_cons in Hn.
  - intros H. destruct (is_valid s) eqn:Hv; [|eauto].
    apply is_valid_iff in Hv. rewrite strchr_obj' by (assumption || (unfold chCOLON; lia)).
    replace (strchr s chCOLON) with (@None nat); [cbn; eauto|]. symmetry. apply strchr_none. tauto.
Qed.
Lemma removeprefix_content s : 
  ATRemovePrefix (Some s) =
  if is_valid s then match strchr s chCOLON with
                     | None => (AT_BAD_PARAMETER, None)
                     | Some n => (AT_SUCCESS, Some (skipn (S n) s)) end
  else (AT_BAD_PARAMETER, Some s).
Proof. reflexivity. Qed.

(** ** Filters *)
Lemma isspace_iff c : isspace c = true <-> space_char c.
Proof. unfold isspace, space_char. lia. Qed.
Lemma isdigit_iff c : isdigit c = true <-> digit_char c.
Proof. unfold isdigit, digit_char. lia. Qed.

Lemma filter_without drop P s : (forall c, drop c = true <-> P c) -> without P s (filter_loop drop s).
Proof.
  intros H; induction s as [|c s IH]; cbn; [constructor|].
  destruct (drop c) eqn:E.
  - apply without_drop; [now apply H|assumption].
  - apply without_keep; [|assumption]. rewrite <- H. congruence.
Qed.
Lemma filter_loop_len drop s : (length (filter_loop drop s) <= length s)%nat.
Proof. induction s; cbn; [lia|]. destruct (drop a); cbn; lia. Qed.
Lemma filter_loop_app drop a b : filter_loop drop (a ++ b) = filter_loop drop a ++ filter_loop drop b.
Proof. induction a; cbn; [reflexivity|]. destruct (drop a); cbn; now rewrite IHa. Qed.
Lemma filter_loop_in drop s c : In c (filter_loop drop s) <-> In c s /\ drop c = false.
Proof.
  induction s as [|x s IH]; cbn; [tauto|]. destruct (drop x) eqn:E; cbn; rewrite IH; intuition congruence.
Qed.
Lemma filter_loop_nonul drop s : no_nul s -> no_nul (filter_loop drop s).
Proof. unfold no_nul. rewrite filter_loop_in. tauto. Qed.

(* invariant: memory = pre ++ done ++ mid ++ rem ++ 0 :: post *)
Lemma filter_loop_m_inv drop rem : forall pre dn mid post fuel,
  no_nul rem -> (length rem < fuel)%nat ->
  exists mid',
  filter_loop_m fuel drop (pre ++ dn ++ mid ++ rem ++ 0%N :: post) (length pre + length dn)
     (length pre + length dn + length mid)
  = Ok (pre ++ (dn ++ filter_loop drop rem ++ [0%N]) ++ mid' ++ post) /\
  mid' = skipn (length (filter_loop drop rem) + 1) (mid ++ rem ++ [0%N]).
Proof.
  induction rem as [|c rem IH]; intros pre dn mid post [|fuel] Hn Hf; try (cbn in Hf; lia).
  - cbn [filter_loop_m filter_loop app length].
    replace (pre ++ dn ++ mid ++ 0%N :: post) with ((pre ++ dn ++ mid) ++ 0%N :: post)
      by (now rewrite <- !app_assoc).
    rewrite ld_app' by (rewrite !app_length; lia). cbn [bind]. replace (0 =? 0)%N with true by reflexivity.
    exists (skipn 1 (mid ++ [0%N])). split; [|reflexivity].
    destruct mid as [|x mid]; cbn [app skipn].
    + rewrite app_nil_r. rewrite st_app' by (rewrite app_length; lia). rewrite <- !app_assoc. reflexivity.
    + replace ((pre ++ dn ++ x :: mid) ++ 0%N :: post) with ((pre ++ dn) ++ x :: (mid ++ 0%N :: post))
        by (rewrite <- !app_assoc; reflexivity).
      rewrite st_app' by (rewrite app_length; lia). rewrite <- !app_assoc. reflexivity.
  - apply no_nul_cons in Hn as [Hc Hn]. cbn [filter_loop_m].
    replace (pre ++ dn ++ mid ++ (c :: rem) ++ 0%N :: post)
      with ((pre ++ dn ++ mid) ++ c :: (rem ++ 0%N :: post)) by (rewrite <- !app_assoc; reflexivity).
    rewrite ld_app' by (rewrite !app_length; lia). cbn [bind]. replace (c =? 0)%N with false by lia.
    cbn [filter_loop]. destruct (drop c) eqn:Ed.
    + destruct (IH pre dn (mid ++ [c]) post fuel Hn) as (mid' & E & Em); [cbn in Hf; lia|].
      exists mid'. rewrite app_length in E. cbn [length] in E. rewrite Nat.add_1_r, Nat.add_succ_r in E.
      rewrite <- !app_assoc in E. cbn [app] in E. rewrite <- !app_assoc. cbn [app]. split; [exact E|].
      rewrite Em, <- app_assoc. reflexivity.
    + destruct mid as [|x mid].
      * rewrite app_nil_r.
        rewrite st_app' by (rewrite app_length; lia). cbn [bind].
        destruct (IH pre (dn ++ [c]) [] post fuel Hn) as (mid' & E & Em); [cbn in Hf; lia|].
        exists mid'. cbn [app length] in E. rewrite app_length in E. cbn [length] in E.
        rewrite !Nat.add_0_r in *. rewrite <- !app_assoc in E. cbn [app] in E.
        replace (length pre + (length dn + 1))%nat with (S (length pre + length dn))%nat in E by lia.
        rewrite <- app_assoc. split; [rewrite E; cbn [app]; rewrite <- !app_assoc; cbn [app]; rewrite <- ?app_assoc; reflexivity|].
        rewrite Em. cbn [app length]. reflexivity.
      * replace ((pre ++ dn ++ x :: mid) ++ c :: rem ++ 0%N :: post)
          with ((pre ++ dn) ++ x :: (mid ++ c :: rem ++ 0%N :: post)) by (rewrite <- !app_assoc; reflexivity).
        rewrite st_app' by (rewrite app_length; lia). cbn [bind].
        destruct (IH pre (dn ++ [c]) (mid ++ [c]) post fuel Hn) as (mid' & E & Em); [cbn in Hf; lia|].
        exists mid'. rewrite !app_length in E. cbn [length] in E.
        rewrite <- !app_assoc in E. cbn [app] in E. rewrite <- app_assoc. cbn [app length].
        replace (length pre + (length dn + 1))%nat with (S (length pre + length dn))%nat in E by lia.
        replace (S (length pre + length dn) + (length mid + 1))%nat
          with (S (length pre + length dn + S (length mid)))%nat in E by lia.
        split; [rewrite E; cbn [app]; rewrite <- !app_assoc; cbn [app]; rewrite <- ?app_assoc; reflexivity|].
        rewrite Em, <- app_assoc. reflexivity.
Qed.
Lemma filter_m_eq drop pre s post fuel : no_nul s -> (length s < fuel)%nat ->
  filter_loop_m fuel drop (obj pre s post) (length pre) (length pre) =
  Ok (pre ++ overlay (filter_loop drop s ++ [0%N]) (s ++ [0%N]) ++ post).
Proof.
  intros Hn Hf. destruct (filter_loop_m_inv drop s pre [] [] post fuel Hn Hf) as (mid' & E & Em).
  cbn [app length] in E. rewrite !Nat.add_0_r in E. unfold obj. rewrite E. subst mid'.
  unfold overlay. cbn [app]. rewrite app_length; cbn [length]. rewrite <- !app_assoc. reflexivity.
Qed.

Lemma filter_in_place (drop : N -> bool) (P : N -> Prop) fm pre s post :
  (forall c, drop c = true <-> P c) ->
  (forall m p, fm m p = validated m p (fun e => (e, m))
      (do m' <- filter_loop_m (S (length m)) drop m p p; Ok (AT_SUCCESS, m'))) ->
  no_nul s ->
  (at_len_ok s -> exists t, without P s t /\ no_nul t /\
     fm (obj pre s post) (length pre) = Ok (AT_SUCCESS, pre ++ overlay (t ++ [0%N]) (s ++ [0%N]) ++ post)) /\
  (~ at_len_ok s -> fm (obj pre s post) (length pre) = Ok (AT_BAD_PARAMETER, obj pre s post)).
Proof.
  intros HP Hfm Hn. rewrite Hfm, validated_obj by assumption. split; intros Hv.
  - apply is_valid_iff in Hv. rewrite Hv. exists (filter_loop drop s).
    split; [now apply filter_without|]. split; [now apply filter_loop_nonul|].
    rewrite filter_m_eq; [reflexivity|assumption|rewrite obj_len; lia].
  - apply is_valid_false in Hv. now rewrite Hv.
Qed.
Lemma without_len P s t : without P s t -> (length t <= length s)%nat.
Proof. induction 1; cbn; lia. Qed.
Lemma overlay_string pre t s post : no_nul t -> (length t <= length s)%nat ->
  cstr_get (pre ++ overlay (t ++ [0%N]) (s ++ [0%N]) ++ post) (length pre) = Some t
  /\ length (pre ++ overlay (t ++ [0%N]) (s ++ [0%N]) ++ post) = length (obj pre s post).
Proof.
  intros Ht Hl. unfold overlay. split.
  - replace (pre ++ ((t ++ [0%N]) ++ skipn (length (t ++ [0%N])) (s ++ [0%N])) ++ post)
      with (obj pre t (skipn (length (t ++ [0%N])) (s ++ [0%N]) ++ post))
      by (unfold obj; rewrite <- !app_assoc; reflexivity).
    now apply cstr_get_obj.
  - rewrite obj_len, !app_length, skipn_length, !app_length. cbn. lia.
Qed.

Lemma remove_spaces_exact pre s post : no_nul s ->
  (at_len_ok s -> exists t, without space_char s t /\ no_nul t /\
     ATRemoveAllWhiteSpaces_m (obj pre s post) (length pre)
       = Ok (AT_SUCCESS, pre ++ overlay (t ++ [0%N]) (s ++ [0%N]) ++ post)) /\
  (~ at_len_ok s -> ATRemoveAllWhiteSpaces_m (obj pre s post) (length pre) = Ok (AT_BAD_PARAMETER, obj pre s post)).
Proof. apply filter_in_place with (drop := isspace); [apply isspace_iff|reflexivity]. Qed.
Lemma remove_quotes_exact pre s post : no_nul s ->
  (at_len_ok s -> exists t, without (eq 34%N) s t /\ no_nul t /\
     ATRemoveAllDoubleQuote_m (obj pre s post) (length pre)
       = Ok (AT_SUCCESS, pre ++ overlay (t ++ [0%N]) (s ++ [0%N]) ++ post)) /\
  (~ at_len_ok s -> ATRemoveAllDoubleQuote_m (obj pre s post) (length pre) = Ok (AT_BAD_PARAMETER, obj pre s post)).
Proof.
  apply filter_in_place with (drop := fun c => (c =? chDQ)%N); [|reflexivity]. unfold chDQ. intros; lia.
Qed.

(** ** Leading spaces *)
Lemma lead_loop_obj s pre post fuel : no_nul s -> (length s < fuel)%nat ->
  lead_loop_m fuel (obj pre s post) (length pre) = Ok (length pre + (length s - length (skip_spaces s)))%nat.
Proof.
  revert pre fuel; induction s as [|c s IH]; intros pre [|fuel] Hn Hf; try (cbn in Hf; lia).
  - cbn [lead_loop_m]. rewrite ld_obj_nil. cbn. f_equal. lia.
  - apply no_nul_cons in Hn as [Hc Hn]. cbn [lead_loop_m]. rewrite ld_obj_cons. cbn [bind].
    replace (c =? 0)%N with false by lia. cbn [negb andb skip_spaces]. destruct (isspace c).
    + rewrite obj_cons, <- (len_snoc pre c), IH; [|assumption|cbn in Hf; lia].
      rewrite len_snoc. cbn [length]. f_equal.
      assert (length (skip_spaces s) <= length s)%nat.
      { clear. induction s; cbn; [lia|]. destruct (isspace a); cbn; lia. }
      lia.
    + f_equal. lia.
Qed.
Lemma skip_spaces_split s : exists a, s = a ++ skip_spaces s /\ Forall space_char a /\
   (forall c t, skip_spaces s = c :: t -> ~ space_char c).
Proof.
  induction s as [|c s IH]; cbn.
  - exists []. repeat split; auto. discriminate.
  - destruct (isspace c) eqn:E.
    + destruct IH as (a & H1 & H2 & H3). exists (c :: a). cbn. rewrite <- H1. repeat split; auto.
      constructor; auto. now apply isspace_iff.
    + exists []. repeat split; auto. intros c' t [= <- <-]. rewrite <- isspace_iff. congruence.
Qed.
Lemma lead_exact pre s post : no_nul s ->
  (at_len_ok s -> exists a t, s = a ++ t /\ Forall space_char a /\
      (forall c t', t = c :: t' -> ~ space_char c) /\
      exists q, ATRemoveLeadingWhiteSpaces_m (obj pre s post) (length pre) = Ok (AT_SUCCESS, q) /\
                cstr_get (obj pre s post) q = Some t) /\
  (~ at_len_ok s -> ATRemoveLeadingWhiteSpaces_m (obj pre s post) (length pre) = Ok (AT_BAD_PARAMETER, length pre)).
Proof.
  intros Hn. unfold ATRemoveLeadingWhiteSpaces_m. rewrite validated_obj by assumption. split; intros Hv.
  - apply is_valid_iff in Hv. rewrite Hv. destruct (skip_spaces_split s) as (a & H1 & H2 & H3).
    exists a, (skip_spaces s). repeat split; auto.
    rewrite lead_loop_obj; [|assumption|rewrite obj_len; lia]. cbn [bind]. eexists; split; [reflexivity|].
    remember (skip_spaces s) as t. clear Heqt. subst s.
    replace (obj pre (a ++ t) post) with (obj (pre ++ a) t post) by (unfold obj; now rewrite <- !app_assoc).
    replace (length pre + (length (a ++ t) - length t))%nat with (length (pre ++ a)) by (rewrite !app_length; lia).
    apply cstr_get_obj. now apply no_nul_app in Hn.
  - apply is_valid_false in Hv. now rewrite Hv.
Qed.

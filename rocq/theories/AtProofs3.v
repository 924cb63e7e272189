(** Proofs about the AT string utilities, part 3: tokenizer, hex, digits, keyword tables, duplication, integers. *)
From Coq Require Import List NArith ZArith Bool Lia ZifyBool ZifyNat ZifyN Arith.
From Verif Require Import Bytes AtCore AtMem SpecAt AtProofs AtProofs2.
Import ListNotations.

(** ** Tokenizer, one-character delimiter *)
Lemma take_until_split d s :
  (~ In d s /\ take_until d s = s) \/
  (exists r, s = take_until d s ++ d :: r /\ ~ In d (take_until d s)).
Proof.
  induction s as [|c s IH]; cbn; [left; auto|].
  destruct (N.eqb_spec c d) as [->|Hc]; [right; exists s; auto|].
  destruct IH as [[H1 H2]|(r & H1 & H2)].
  - left. rewrite H2. intuition.
  - right. exists r. cbn. rewrite <- H1. intuition.
Qed.
Lemma in_delim1 d c : in_delim [d] c = (c =? d)%N.
Proof. unfold in_delim; cbn. now rewrite orb_false_r. Qed.
Lemma strcspn_none s : forall pre post d fuel, no_nul s -> ~ In d s -> (length s < fuel)%nat ->
  strcspn_m fuel (obj pre s post) (length pre) [d] = Ok (obj pre s post).
Proof.
  induction s as [|c s IH]; intros pre post d [|fuel] Hn Hd Hf; try (cbn in Hf; lia); cbn [strcspn_m].
  - now rewrite ld_obj_nil.
  - apply no_nul_cons in Hn as [Hc Hn]. rewrite ld_obj_cons. cbn [bind]. replace (c =? 0)%N with false by lia.
    rewrite in_delim1. destruct (N.eqb_spec c d); [subst; cbn in Hd; tauto|].
    rewrite obj_cons, <- (len_snoc pre c). apply IH; auto; [cbn in Hd; tauto|cbn in Hf; lia].
Qed.
Lemma strcspn_found f : forall pre r post d fuel, no_nul f -> d <> 0%N -> ~ In d f -> (length f < fuel)%nat ->
  strcspn_m fuel (obj pre (f ++ d :: r) post) (length pre) [d] = Ok (obj pre (f ++ 0%N :: r) post).
Proof.
  induction f as [|c f IH]; intros pre r post d [|fuel] Hn Hz Hd Hf; try (cbn in Hf; lia); cbn [strcspn_m].
  - cbn [app]. rewrite ld_obj_cons. cbn [bind]. replace (d =? 0)%N with false by lia.
    rewrite in_delim1, N.eqb_refl. apply st_app.
  - apply no_nul_cons in Hn as [Hc Hn]. cbn [app]. rewrite ld_obj_cons. cbn [bind]. replace (c =? 0)%N with false by lia.
    rewrite in_delim1. destruct (N.eqb_spec c d); [subst; cbn in Hd; tauto|].
    rewrite !obj_cons, <- (len_snoc pre c). apply IH; auto; [cbn in Hd; tauto|cbn in Hf; lia].
Qed.
Lemma obj_nul pre f r post : obj pre (f ++ 0%N :: r) post = obj pre f (r ++ 0%N :: post).
Proof. unfold obj. lst. Qed.

Lemma strspn_first c s pre post d fuel : c <> 0%N -> c <> d -> (0 < fuel)%nat ->
  strspn_m fuel (obj pre (c :: s) post) (length pre) [d] = Ok (Some (length pre)).
Proof.
  intros Hc Hd Hf. destruct fuel; [lia|]. cbn [strspn_m]. rewrite ld_obj_cons. cbn [bind].
  replace (c =? 0)%N with false by lia. rewrite in_delim1. now replace (c =? d)%N with false by lia.
Qed.

Lemma tok_m_last pre s post d : no_nul s -> at_len_ok s -> ~ In d s -> d <> 0%N ->
  ATGetSpecificNextTok_m (obj pre s post) (length pre) [d]
  = Ok (AT_SUCCESS, obj pre s post, (length pre + length s)%nat, Some (length pre)).
Proof.
  intros Hn Hv Hd Hz. unfold ATGetSpecificNextTok_m. rewrite validated_obj by assumption.
  pose proof Hv as Hv'. apply is_valid_iff in Hv'. rewrite Hv', strlen_obj' by assumption. cbn [bind hd].
  destruct s as [|c s]; [destruct Hv; congruence|]. rewrite ld_obj_cons. cbn [bind].
  assert (c <> d) by (intros ->; apply Hd; now left). replace (c =? d)%N with false by lia.
  unfold strtok_m. rewrite strspn_first; [|now apply no_nul_cons in Hn|assumption|lia]. cbn [bind].
  rewrite strcspn_none; [|assumption|assumption|rewrite obj_len; lia]. cbn [bind].
  rewrite strlen_obj' by assumption. cbn [bind]. now rewrite Nat.ltb_irrefl.
Qed.
Lemma tok_m_split pre f r post d : no_nul f -> no_nul r -> at_len_ok (f ++ d :: r) -> ~ In d f -> d <> 0%N ->
  ATGetSpecificNextTok_m (obj pre (f ++ d :: r) post) (length pre) [d]
  = Ok (AT_SUCCESS, obj pre f (r ++ 0%N :: post),
        match r with [] => (length pre + length f)%nat | _ => (length pre + length f + 1)%nat end, Some (length pre)).
Proof.
  intros Hf Hr Hv Hd Hz. unfold ATGetSpecificNextTok_m.
  assert (Hn : no_nul (f ++ d :: r)) by (apply no_nul_app; split; [assumption|apply no_nul_cons; auto]).
  rewrite validated_obj by assumption. apply is_valid_iff in Hv. rewrite Hv, strlen_obj' by assumption. cbn [bind hd].
  assert (E : (do c <- ld (obj pre (f ++ d :: r) post) (length pre);
               if (c =? d)%N then do m' <- st (obj pre (f ++ d :: r) post) (length pre) 0%N; Ok (Some (length pre), m')
               else strtok_m (obj pre (f ++ d :: r) post) (length pre) [d])
              = Ok (Some (length pre), obj pre f (r ++ 0%N :: post))).
  { destruct f as [|c f]; cbn [app].
    - rewrite ld_obj_cons. cbn [bind]. rewrite N.eqb_refl. unfold obj at 1. cbn [app]. rewrite st_app. reflexivity.
    - rewrite ld_obj_cons. cbn [bind]. assert (c <> d) by (intros ->; apply Hd; now left).
      replace (c =? d)%N with false by lia. unfold strtok_m.
      rewrite strspn_first; [|now apply no_nul_cons in Hf|assumption|lia]. cbn [bind].
      change (c :: f ++ d :: r) with ((c :: f) ++ d :: r).
      rewrite strcspn_found; [|assumption|assumption|assumption|rewrite obj_len, app_length; lia].
      cbn [bind]. now rewrite obj_nul. }
  destruct (ld (obj pre (f ++ d :: r) post) (length pre)) as [c| |] eqn:El; cbn [bind] in E |- *; try discriminate.
  rewrite E. cbn [bind]. rewrite strlen_obj' by assumption. cbn [bind].
  replace (length f <? length (f ++ d :: r))%nat with true by (rewrite app_length; cbn [length]; lia).
  unfold obj at 1. replace (pre ++ f ++ 0%N :: r ++ 0%N :: post) with ((pre ++ f ++ [0%N]) ++ r ++ 0%N :: post) by lst.
  assert (Ep : (length pre + length f + 1)%nat = length (pre ++ f ++ [0%N])) by (rewrite !app_length; cbn [length]; lia).
  destruct r as [|x r].
  - cbn [app]. rewrite ld_app' by exact Ep. cbn [bind]. reflexivity.
  - cbn [app]. rewrite ld_app' by exact Ep. cbn [bind]. apply no_nul_cons in Hr as [Hx _].
    now replace (x =? 0)%N with false by lia.
Qed.
Lemma tok_m_bad pre s post d : no_nul s -> ~ at_len_ok s ->
  ATGetSpecificNextTok_m (obj pre s post) (length pre) d = Ok (AT_BAD_PARAMETER, obj pre s post, length pre, None).
Proof.
  intros Hn Hv. unfold ATGetSpecificNextTok_m. rewrite validated_obj by assumption.
  apply is_valid_false in Hv. now rewrite Hv.
Qed.

(** Content-level model agrees with the memory-level one. *)
Lemma tok_refines pre s post d : no_nul s -> d <> 0%N ->
  exists st m' p' t, ATGetSpecificNextTok_m (obj pre s post) (length pre) [d] = Ok (st, m', p', t) /\
    ATGetSpecificNextTok (Some s) d = (st, cstr_get m' p', match t with Some q => cstr_get m' q | None => None end) /\
    length m' = length (obj pre s post).
Proof.
  intros Hn Hz. unfold ATGetSpecificNextTok. destruct (is_valid s) eqn:Hv.
  2:{ apply is_valid_false in Hv. rewrite tok_m_bad by assumption. do 4 eexists. split; [reflexivity|].
      rewrite cstr_get_obj by assumption. auto. }
  apply is_valid_iff in Hv.
  assert (Eh : (if (hd 0%N s =? d)%N then [] else take_until d s) = take_until d s).
  { destruct s as [|c s]; [cbn [hd take_until]; destruct (0 =? d)%N; reflexivity|]; cbn. destruct (c =? d)%N; reflexivity. }
  rewrite Eh. destruct (take_until_split d s) as [[H1 H2]|(r & H1 & H2)].
  - rewrite H2, tok_m_last by assumption. do 4 eexists. split; [reflexivity|]. split; [|reflexivity].
    rewrite Nat.ltb_irrefl. cbn [andb]. rewrite cstr_get_obj by assumption. f_equal. f_equal.
    replace (obj pre s post) with (obj (pre ++ s) [] post) by (unfold obj; lst).
    rewrite <- app_length, cstr_get_obj; [reflexivity|apply no_nul_nil].
  - remember (take_until d s) as f. clear Heqf Eh. subst s.
    apply no_nul_app in Hn as [Hf Hr]. apply no_nul_cons in Hr as [_ Hr].
    rewrite tok_m_split by assumption. do 4 eexists. split; [reflexivity|]. split.
    2:{ unfold obj. repeat (rewrite !app_length; cbn [length]). lia. }
    replace (length f <? length (f ++ d :: r))%nat with true by (rewrite app_length; cbn [length]; lia).
    cbn [andb]. rewrite cstr_get_obj by assumption.
    assert (En : nth (S (length f)) (f ++ d :: r) 0%N = nth 0 r 0%N).
    { rewrite app_nth2 by lia. replace (S (length f) - length f)%nat with 1%nat by lia. reflexivity. }
    assert (Es : skipn (S (length f)) (f ++ d :: r) = r).
    { rewrite skipn_app, skipn_all2 by lia. replace (S (length f) - length f)%nat with 1%nat by lia. reflexivity. }
    rewrite En, Es. f_equal. f_equal. destruct r as [|x r]; cbn [nth].
    + cbn [N.eqb negb]. cbn [app]. replace (obj pre f (0%N :: post)) with (obj (pre ++ f) [] (0%N :: post)) by (unfold obj; lst).
      rewrite <- app_length, cstr_get_obj; [reflexivity|apply no_nul_nil].
    + apply no_nul_cons in Hr as Hx. destruct Hx as [Hx _]. replace (x =? 0)%N with false by lia. cbn [negb].
      replace (obj pre f ((x :: r) ++ 0%N :: post)) with (obj (pre ++ f ++ [0%N]) (x :: r) post) by (unfold obj; lst).
      replace (length pre + length f + 1)%nat with (length (pre ++ f ++ [0%N])) by (rewrite !app_length; cbn [length]; lia).
      now rewrite cstr_get_obj.
Qed.

Lemma reported_cons f g l : reported_fields (f :: g :: l) = f :: reported_fields (g :: l).
Proof.
  unfold reported_fields. change (last (f :: g :: l) [0%N]) with (last (g :: l) [0%N]).
  destruct (last (g :: l) [0%N]); reflexivity.
Qed.

Lemma tokens_m_gen d : d <> 0%N -> forall l pre post fuel,
  Forall (fun f => ~ In d f /\ no_nul f) l -> (N.of_nat (length (join d l)) <= 256)%N ->
  (length l < fuel)%nat ->
  exists offs mf, tokens_m fuel (obj pre (join d l) post) (length pre) [d] = Ok (offs, mf) /\
    map (cstr_get mf) offs = map Some (reported_fields l) /\
    firstn (length pre) mf = pre /\ skipn (length pre + length (join d l) + 1) mf = post
    /\ length mf = length (obj pre (join d l) post).
Proof.
  intros Hz.
  assert (Kf : forall pre s post, firstn (length pre) (obj pre s post) = pre).
  { intros. unfold obj. rewrite firstn_app, firstn_all, Nat.sub_diag. cbn. now rewrite app_nil_r. }
  assert (Ks : forall pre s post, skipn (length pre + length s + 1) (obj pre s post) = post).
  { intros. unfold obj. replace (pre ++ s ++ 0%N :: post) with ((pre ++ s ++ [0%N]) ++ post) by lst.
    rewrite skipn_app, skipn_all2 by (rewrite !app_length; cbn; lia).
    replace (length pre + length s + 1 - length (pre ++ s ++ [0%N]))%nat with O by (rewrite !app_length; cbn; lia).
    reflexivity. }
  assert (Bad : forall pre post fuel, (0 < fuel)%nat -> tokens_m fuel (obj pre [] post) (length pre) [d] = Ok ([], obj pre [] post)).
  { intros pre post [|fuel] Hf; [lia|]. cbn [tokens_m]. rewrite tok_m_bad; [reflexivity|apply no_nul_nil|].
    intros [H _]. congruence. }
  induction l as [|f l IH]; intros pre post fuel Hl Hlen Hf.
  - cbn [join]. rewrite Bad by (cbn in Hf; lia). do 2 eexists. split; [reflexivity|]. split; [reflexivity|]. split; [apply Kf|]. split; [apply (Ks pre [])|reflexivity].
  - inversion Hl as [|? ? [Hd Hn] Hl']; subst. destruct fuel as [|fuel]; [cbn in Hf; lia|].
    destruct l as [|g l].
    + cbn [join]. destruct f as [|c f].
      * rewrite Bad by lia. do 2 eexists. split; [reflexivity|]. split; [reflexivity|]. split; [apply Kf|]. split; [apply (Ks pre [])|reflexivity].
      * cbn [tokens_m]. rewrite tok_m_last; auto. 2:{ split; [discriminate|exact Hlen]. }
        cbn [bind]. replace (obj pre (c :: f) post) with (obj (pre ++ c :: f) [] post) by (unfold obj; lst).
        rewrite <- (app_length pre), Bad by (cbn in Hf; lia). cbn [bind fst snd].
        do 2 eexists. split; [reflexivity|].
        replace (obj (pre ++ c :: f) [] post) with (obj pre (c :: f) post) by (unfold obj; lst).
        cbn [map]. rewrite cstr_get_obj by assumption.
        split; [reflexivity|]. split; [apply Kf|]. split; [rewrite app_length; apply Ks|reflexivity].
    + change (join d (f :: g :: l)) with (f ++ d :: join d (g :: l)) in *.
      assert (Hnr : no_nul (join d (g :: l))).
      { clear - Hl' Hz. induction Hl' as [|x l0 [_ Hx] Hl0 IH0]; [apply no_nul_nil|].
        destruct l0 as [|y l0]; [exact Hx|].
        change (join d (x :: y :: l0)) with (x ++ d :: join d (y :: l0)). apply no_nul_app. split; [assumption|].
        apply no_nul_cons. auto. }
      cbn [tokens_m]. rewrite tok_m_split; auto.
      2:{ split; [destruct f; discriminate|exact Hlen]. }
      cbn [bind]. rewrite app_length in Hlen. cbn [length] in Hlen.
      assert (EL : forall mf offs post', map (cstr_get mf) offs = map Some (reported_fields (g :: l)) ->
          firstn (length (pre ++ f ++ [0%N])) mf = pre ++ f ++ [0%N] ->
          skipn (length (pre ++ f ++ [0%N]) + length (join d (g :: l)) + 1) mf = post' ->
          map (cstr_get mf) (length pre :: offs) = map Some (reported_fields (f :: g :: l)) /\
          firstn (length pre) mf = pre /\ skipn (length pre + length (f ++ d :: join d (g :: l)) + 1) mf = post').
      { intros mf offs post' H1 H2 H3.
        assert (Em : mf = obj pre f (skipn (length (pre ++ f ++ [0%N])) mf)).
        { rewrite <- (firstn_skipn (length (pre ++ f ++ [0%N])) mf) at 1. rewrite H2. unfold obj. lst. }
        split; [|split].
        - rewrite reported_cons. cbn [map]. rewrite H1, Em, cstr_get_obj by assumption. reflexivity.
        - rewrite Em. apply Kf.
        - rewrite <- H3. f_equal. repeat (rewrite !app_length; cbn [length]). lia. }
      destruct (join d (g :: l)) as [|x jr] eqn:Ej.
      * cbn [app]. replace (obj pre f (0%N :: post)) with (obj (pre ++ f) [] (0%N :: post)) by (unfold obj; lst).
        rewrite <- (app_length pre), Bad by (cbn in Hf; lia). cbn [bind fst snd].
        destruct l; [|destruct g; discriminate]. destruct g; [|discriminate].
        do 2 eexists. split; [reflexivity|]. 
        replace (obj (pre ++ f) [] (0%N :: post)) with (obj pre f (0%N :: post)) by (unfold obj; lst).
        cbn [map]. rewrite cstr_get_obj by assumption. split; [reflexivity|]. split; [apply Kf|].
        split; [|unfold obj; repeat (rewrite !app_length; cbn [length]); lia].
        replace (obj pre f (0%N :: post)) with (obj pre (f ++ [0%N]) post) by (unfold obj; lst).
        rewrite <- (Ks pre (f ++ [0%N]) post) at 2. f_equal. rewrite !app_length. reflexivity.
      * replace (obj pre f ((x :: jr) ++ 0%N :: post)) with (obj (pre ++ f ++ [0%N]) (x :: jr) post) by (unfold obj; lst).
        replace (length pre + length f + 1)%nat with (length (pre ++ f ++ [0%N])) by (rewrite !app_length; cbn [length]; lia).
        destruct (IH (pre ++ f ++ [0%N]) post fuel) as (offs & mf & E & H1 & H2 & H3 & H4); auto.
        { lia. } { cbn in Hf |- *. lia. }
        rewrite E. cbn [bind fst snd]. do 2 eexists. split; [reflexivity|].
        destruct (EL mf offs post H1 H2 H3) as (G1 & G2 & G3). split; [exact G1|]. split; [exact G2|].
        split; [exact G3|]. rewrite H4. unfold obj. repeat (rewrite !app_length; cbn [length]). lia.
Qed.

(** content-level iteration *)
Lemma tok_content_last s d : at_len_ok s -> ~ In d s -> ATGetSpecificNextTok (Some s) d = (AT_SUCCESS, Some [], Some s).
Proof.
  intros Hv Hd. unfold ATGetSpecificNextTok. apply is_valid_iff in Hv. rewrite Hv.
  assert (Et : (if (hd 0%N s =? d)%N then [] else take_until d s) = s).
  { destruct (take_until_split d s) as [[_ H]|(r & H & _)].
    - destruct s as [|c s]; [cbn [hd take_until]; destruct (0 =? d)%N; reflexivity|].
      cbn [hd]. destruct (N.eqb_spec c d); [subst; cbn in Hd; tauto|exact H].
    - exfalso. apply Hd. rewrite H. apply in_or_app. right. now left. }
  rewrite Et, Nat.ltb_irrefl. reflexivity.
Qed.
Lemma tok_content_split f r d : at_len_ok (f ++ d :: r) -> ~ In d f -> no_nul r ->
  ATGetSpecificNextTok (Some (f ++ d :: r)) d = (AT_SUCCESS, Some r, Some f).
Proof.
  intros Hv Hd Hr. unfold ATGetSpecificNextTok. apply is_valid_iff in Hv. rewrite Hv.
  assert (Et : (if (hd 0%N (f ++ d :: r) =? d)%N then [] else take_until d (f ++ d :: r)) = f).
  { clear Hv. destruct f as [|c f].
    - cbn. now rewrite N.eqb_refl.
    - cbn [app hd]. destruct (N.eqb_spec c d); [subst; cbn in Hd; tauto|].
      change (c :: f ++ d :: r) with ((c :: f) ++ d :: r). revert Hd. clear.
      induction (c :: f) as [|x l IH]; cbn; intros H; [now rewrite N.eqb_refl|].
      destruct (N.eqb_spec x d); [tauto|]. rewrite IH by tauto. reflexivity. }
  rewrite Et. replace (length f <? length (f ++ d :: r))%nat with true by (rewrite app_length; cbn [length]; lia).
  assert (En : nth (S (length f)) (f ++ d :: r) 0%N = nth 0 r 0%N).
  { rewrite app_nth2 by lia. replace (S (length f) - length f)%nat with 1%nat by lia. reflexivity. }
  assert (Es : skipn (S (length f)) (f ++ d :: r) = r).
  { rewrite skipn_app, skipn_all2 by lia. replace (S (length f) - length f)%nat with 1%nat by lia. reflexivity. }
  rewrite En, Es. cbn [andb]. destruct r as [|x r]; cbn [nth]; [reflexivity|].
  apply no_nul_cons in Hr as [Hx _]. now replace (x =? 0)%N with false by lia.
Qed.
Lemma tok_content_bad s d : ~ at_len_ok s -> ATGetSpecificNextTok (Some s) d = (AT_BAD_PARAMETER, Some s, None).
Proof. intros Hv. unfold ATGetSpecificNextTok. apply is_valid_false in Hv. now rewrite Hv. Qed.

Lemma join_nonul d l : d <> 0%N -> Forall (fun f => ~ In d f /\ no_nul f) l -> no_nul (join d l).
Proof.
  intros Hz Hl. induction Hl as [|x l0 [_ Hx] Hl0 IH0]; [apply no_nul_nil|].
  destruct l0 as [|y l0]; [exact Hx|].
  change (join d (x :: y :: l0)) with (x ++ d :: join d (y :: l0)). apply no_nul_app. split; [assumption|].
  apply no_nul_cons. auto.
Qed.
Lemma tokens_join l : forall fuel,
  Forall (fun f => ~ In chCOMMA f /\ no_nul f) l -> (N.of_nat (length (join chCOMMA l)) <= 256)%N ->
  (length l < fuel)%nat -> tokens fuel (Some (join chCOMMA l)) = reported_fields l.
Proof.
  assert (Bad : forall fuel, tokens fuel (Some []) = []).
  { intros [|fuel]; [reflexivity|]. reflexivity. }
  induction l as [|f l IH]; intros fuel Hl Hlen Hf.
  - apply Bad.
  - inversion Hl as [|? ? [Hd Hn] Hl']; subst. destruct fuel as [|fuel]; [cbn in Hf; lia|].
    destruct l as [|g l].
    + cbn [join]. destruct f as [|c f]; [apply Bad|].
      cbn [tokens]. unfold ATGetNextTok. rewrite tok_content_last; [|split; [discriminate|exact Hlen]|assumption].
      rewrite Bad. reflexivity.
    + change (join chCOMMA (f :: g :: l)) with (f ++ chCOMMA :: join chCOMMA (g :: l)) in *.
      cbn [tokens]. unfold ATGetNextTok. rewrite tok_content_split; auto.
      * rewrite reported_cons. f_equal. apply IH; auto; [|cbn in Hf |- *; lia].
        rewrite app_length in Hlen. cbn [length] in Hlen. lia.
      * split; [destruct f; discriminate|exact Hlen].
      * apply join_nonul; [discriminate|assumption].
Qed.

Lemma multichar_delim_refuted : exists (s d : str), no_nul s /\ no_nul d /\ at_len_ok s /\ d <> [] /\
  ATGetSpecificNextTok_m (obj [] s []) 0 d = UB.
Proof.
  exists [59%N], [44; 59]%N. repeat split; try discriminate; vm_compute; intuition discriminate.
Qed.

(** ** Hex *)
Lemma charToNibble_good c v : hex_char c v -> charToNibble c = v /\ (v < 16)%N.
Proof.
  unfold hex_char, charToNibble. intros H.
  destruct ((48 <=? c) && (c <=? 57))%N eqn:E1; [lia|].
  destruct ((97 <=? c) && (c <=? 102))%N eqn:E2; [lia|].
  destruct ((65 <=? c) && (c <=? 70))%N eqn:E3; lia.
Qed.
Lemma charToNibble_bad c : (~ exists v, hex_char c v) -> charToNibble c = 255%N.
Proof.
  intros H. unfold charToNibble.
  destruct ((48 <=? c) && (c <=? 57))%N eqn:E1; [exfalso; apply H; exists (c-48)%N; unfold hex_char; lia|].
  destruct ((97 <=? c) && (c <=? 102))%N eqn:E2; [exfalso; apply H; exists (c-87)%N; unfold hex_char; lia|].
  destruct ((65 <=? c) && (c <=? 70))%N eqn:E3; [exfalso; apply H; exists (c-55)%N; unfold hex_char; lia|].
  reflexivity.
Qed.
Lemma nibble_range c : (charToNibble c < 16 \/ charToNibble c = 255)%N.
Proof.
  unfold charToNibble.
  destruct ((48 <=? c) && (c <=? 57))%N eqn:E1; [lia|].
  destruct ((97 <=? c) && (c <=? 102))%N eqn:E2; [lia|].
  destruct ((65 <=? c) && (c <=? 70))%N eqn:E3; lia.
Qed.
Lemma lor_nibbles : forall a b, (a < 16)%N -> (b < 16)%N -> N.lor ((a * 16) mod 256) b = (16 * a + b)%N.
Proof.
  intros a b Ha Hb.
  assert (H : forallb (fun x => forallb (fun y => N.eqb (N.lor ((x * 16) mod 256) y) (16 * x + y))
     (map N.of_nat (seq 0 16))) (map N.of_nat (seq 0 16)) = true) by (vm_compute; reflexivity).
  rewrite forallb_forall in H. specialize (H a).
  assert (In a (map N.of_nat (seq 0 16))).
  { apply in_map_iff. exists (N.to_nat a). rewrite in_seq. lia. }
  specialize (H H0). rewrite forallb_forall in H. apply N.eqb_eq, H. apply in_map_iff. exists (N.to_nat b). rewrite in_seq. lia.
Qed.
Lemma lor_255 : forall a, (a < 16)%N -> N.lor ((a * 16) mod 256) 255 = 255%N.
Proof.
  intros a Ha.
  assert (H : forallb (fun x => N.eqb (N.lor ((x * 16) mod 256) 255) 255)
     (map N.of_nat (seq 0 16)) = true) by (vm_compute; reflexivity).
  rewrite forallb_forall in H. apply N.eqb_eq, H. apply in_map_iff. exists (N.to_nat a). rewrite in_seq. lia.
Qed.
Lemma hex_decodes_total : forall n s, (length s <= n)%nat -> exists bs, hex_decodes s bs.
Proof.
  induction n as [|n IH]; intros s Hs; destruct s as [|c1 [|c2 s]]; try (cbn in Hs; lia); try solve [eexists; constructor].
  destruct (IH s) as [bs Hb]; [cbn in Hs; lia|].
  assert (D : forall c, (exists v, hex_char c v) \/ ~ exists v, hex_char c v).
  { intros c. destruct (nibble_range c) as [H|H].
    - left. exists (charToNibble c). unfold charToNibble in *. unfold hex_char.
      destruct ((48 <=? c) && (c <=? 57))%N eqn:E1; [lia|].
      destruct ((97 <=? c) && (c <=? 102))%N eqn:E2; [lia|].
      destruct ((65 <=? c) && (c <=? 70))%N eqn:E3; lia.
    - right. intros [v Hv]. apply charToNibble_good in Hv. lia. }
  destruct (D c1) as [[v1 H1]|H1]; [destruct (D c2) as [[v2 H2]|H2]|]; eexists.
  - apply hd_good; eauto.
  - apply hd_bad; eauto.
  - apply hd_bad; eauto.
Qed.
Lemma hex_decodes_len s bs : hex_decodes s bs -> length bs = Nat.div (length s) 2.
Proof.
  induction 1; cbn [length]; try reflexivity.
  - rewrite IHhex_decodes. change (S (S (length s))) with (2 + length s)%nat.
    replace (2 + length s)%nat with (length s + 1 * 2)%nat by lia. rewrite Nat.div_add by lia. lia.
  - rewrite IHhex_decodes. change (S (S (length s))) with (2 + length s)%nat.
    replace (2 + length s)%nat with (length s + 1 * 2)%nat by lia. rewrite Nat.div_add by lia. lia.
Qed.
Lemma hex_byte_good c1 c2 v1 v2 : hex_char c1 v1 -> hex_char c2 v2 -> hex_byte c1 c2 = (16 * v1 + v2)%N.
Proof.
  intros H1 H2. apply charToNibble_good in H1 as [E1 L1]. apply charToNibble_good in H2 as [E2 L2].
  unfold hex_byte. rewrite E1, E2. replace (v1 =? 255)%N with false by lia. now apply lor_nibbles.
Qed.
Lemma hex_byte_bad c1 c2 : (~ exists v, hex_char c1 v) \/ (~ exists v, hex_char c2 v) -> hex_byte c1 c2 = 255%N.
Proof.
  unfold hex_byte. intros [H|H]; apply charToNibble_bad in H.
  - now rewrite H.
  - rewrite H. destruct (nibble_range c1) as [H1|H1].
    + replace (charToNibble c1 =? 255)%N with false by lia. now apply lor_255.
    + now rewrite H1.
Qed.
Lemma hex_loop_obj s bs : hex_decodes s bs -> forall pre post dd de,
  (length bs <= length de)%nat ->
  hex_loop_m (length bs) (obj pre s post) (length pre) (dd ++ de) (length dd)
  = Ok (dd ++ overlay bs de).
Proof.
  induction 1 as [|c|c1 c2 v1 v2 s bs H1 H2 H IH|c1 c2 s bs H1 H IH]; intros pre post dd de Hl;
    cbn [length hex_loop_m].
  - reflexivity.
  - reflexivity.
  - rewrite ld_obj_cons. cbn [bind]. rewrite obj_cons, <- (len_snoc pre c1), ld_obj_cons. cbn [bind].
    rewrite (hex_byte_good _ _ _ _ H1 H2). destruct de as [|y de]; [cbn in Hl; lia|].
    rewrite st_app. cbn [bind]. rewrite obj_cons, <- (len_snoc (pre ++ [c1]) c2), <- (len_snoc dd (16*v1+v2)%N).
    replace (dd ++ (16*v1+v2)%N :: de) with ((dd ++ [(16*v1+v2)%N]) ++ de) by lst.
    rewrite IH by (cbn in Hl; lia). unfold overlay. cbn [length skipn app]. lst.
  - rewrite ld_obj_cons. cbn [bind]. rewrite obj_cons, <- (len_snoc pre c1), ld_obj_cons. cbn [bind].
    rewrite (hex_byte_bad _ _ H1). destruct de as [|y de]; [cbn in Hl; lia|].
    rewrite st_app. cbn [bind]. rewrite obj_cons, <- (len_snoc (pre ++ [c1]) c2), <- (len_snoc dd 255%N).
    replace (dd ++ 255%N :: de) with ((dd ++ [255%N]) ++ de) by lst.
    rewrite IH by (cbn in Hl; lia). unfold overlay. cbn [length skipn app]. lst.
Qed.
Lemma hex_exact pre s post d hexDataLen : no_nul s -> (hexDataLen <= N.of_nat (length d))%N ->
  (forall bs, hex_decodes s bs -> at_len_ok s -> (N.of_nat (length s / 2) < hexDataLen)%N ->
     ATHexStrToHex_m (obj pre s post) (length pre) d hexDataLen = Ok (AT_SUCCESS, overlay bs d)) /\
  (at_len_ok s -> (hexDataLen <= N.of_nat (length s / 2))%N ->
     ATHexStrToHex_m (obj pre s post) (length pre) d hexDataLen = Ok (AT_NO_MEMORY, d)) /\
  (~ at_len_ok s -> ATHexStrToHex_m (obj pre s post) (length pre) d hexDataLen = Ok (AT_BAD_PARAMETER, d)) /\
  (exists bs, hex_decodes s bs /\ length bs = (length s / 2)%nat).
Proof.
  intros Hn Hd. unfold ATHexStrToHex_m. rewrite validated_obj by assumption. split; [|split; [|split]].
  - intros bs Hb Hv Hl. apply is_valid_iff in Hv. rewrite Hv, strlen_obj' by assumption. cbn [bind].
    replace (hexDataLen <=? N.of_nat (length s / 2))%N with false by lia.
    rewrite <- (hex_decodes_len _ _ Hb).
    pose proof (hex_loop_obj s bs Hb pre post [] d) as E. cbn [app length] in E.
    rewrite E; [reflexivity|]. rewrite (hex_decodes_len _ _ Hb). lia.
  - intros Hv Hl. apply is_valid_iff in Hv. rewrite Hv, strlen_obj' by assumption. cbn [bind].
    now replace (hexDataLen <=? N.of_nat (length s / 2))%N with true by lia.
  - intros Hv. apply is_valid_false in Hv. now rewrite Hv.
  - destruct (hex_decodes_total (length s) s) as [bs Hb]; [lia|]. exists bs. split; [assumption|now apply hex_decodes_len].
Qed.
Lemma hex_digit_char u v : (v < 16)%N -> hex_char (hex_digit u v) v.
Proof. unfold hex_char, hex_digit. intros. destruct u, (N.ltb_spec v 10); lia. Qed.
Lemma hex_text_decodes u bs : Forall (fun b => (b < 256)%N) bs -> hex_decodes (hex_text u bs) bs.
Proof.
  induction 1 as [|b bs Hb H IH]; [constructor|].
  change (hex_text u (b :: bs)) with (hex_digit u (b / 16) :: hex_digit u (b mod 16) :: hex_text u bs)%N.
  replace (b :: bs) with ((16 * (b / 16) + b mod 16)%N :: bs) by (f_equal; symmetry; apply N.div_mod; lia).
  constructor; [apply hex_digit_char; apply N.div_lt_upper_bound; lia|apply hex_digit_char; apply N.mod_lt; lia|assumption].
Qed.

(** ** Digit check *)
Lemma digit_loop_obj s : forall pre post fuel r, no_nul s -> (length s < fuel)%nat ->
  digit_loop_m fuel (obj pre s post) (length pre) r = Ok (fold_left (fun r c => if isdigit c then r else false) s r).
Proof.
  induction s as [|c s IH]; intros pre post [|fuel] r Hn Hf; try (cbn in Hf; lia); cbn [digit_loop_m fold_left].
  - now rewrite ld_obj_nil.
  - apply no_nul_cons in Hn as [Hc Hn]. rewrite ld_obj_cons. cbn [bind]. replace (c =? 0)%N with false by lia.
    rewrite obj_cons, <- (len_snoc pre c). apply IH; [assumption|cbn in Hf; lia].
Qed.
Lemma digit_fold s r : fold_left (fun r c => if isdigit c then r else false) s r = true <-> r = true /\ Forall digit_char s.
Proof.
  revert r; induction s as [|c s IH]; intros r; cbn; [intuition|]. rewrite IH. destruct (isdigit c) eqn:E.
  - apply isdigit_iff in E. split; [intros [H1 H2]; auto|]. intros [H1 H2]. inversion H2; auto.
  - split; [intros [H _]; discriminate|]. intros [_ H]. inversion H as [|? ? H1]; subst. apply isdigit_iff in H1. congruence.
Qed.
Lemma digit_exact pre s post : no_nul s ->
  exists st r, ATIsStrDigit_m (obj pre s post) (length pre) = Ok (st, r) /\
  ((at_len_ok s /\ st = AT_SUCCESS /\ exists b, r = Some b /\ (b = true <-> Forall digit_char s))
   \/ (~ at_len_ok s /\ st = AT_BAD_PARAMETER /\ r = None)).
Proof.
  intros Hn. unfold ATIsStrDigit_m. rewrite validated_obj by assumption. destruct (is_valid s) eqn:Hv.
  - rewrite digit_loop_obj; [|assumption|rewrite obj_len; lia]. cbn [bind]. do 2 eexists. split; [reflexivity|].
    left. apply is_valid_iff in Hv. split; [assumption|]. split; [reflexivity|]. eexists. split; [reflexivity|].
    rewrite digit_fold. tauto.
  - do 2 eexists. split; [reflexivity|]. right. apply is_valid_false in Hv. auto.
Qed.

(** ** Keyword tables *)
Definition key_hit (line k : str) : bool := is_valid line && is_valid k && startwith_loop line k.
Lemma startwith_hit line k : (match ATStrStartWith (Some line) (Some k) (Some false) with
            | (AT_SUCCESS, Some true) => true | _ => false end) = key_hit line k.
Proof.
  unfold ATStrStartWith, key_hit. destruct (is_valid line && is_valid k); [|reflexivity].
  destruct (startwith_loop line k); reflexivity.
Qed.
Lemma check_loop_step fuel i line keys :
  checkErrorCode_loop (S fuel) i line keys =
  if (i <? N.of_nat (length keys))%N then
    match nth_error keys (N.to_nat i) with
    | None => UB
    | Some k => if key_hit line k then Ok true else checkErrorCode_loop fuel ((i + 1) mod 256)%N line keys
    end
  else Ok false.
Proof.
  cbn [checkErrorCode_loop]. destruct (i <? _)%N; [|reflexivity]. destruct (nth_error _ _); [|reflexivity].
  rewrite <- startwith_hit. destruct (ATStrStartWith _ _ _) as [[] [[]|]]; reflexivity.
Qed.
Lemma check_loop_spec line keys : (length keys <= 255)%nat -> forall rest dn fuel,
  keys = dn ++ rest -> existsb (key_hit line) dn = false -> (length rest < fuel)%nat ->
  checkErrorCode_loop fuel (N.of_nat (length dn)) line keys = Ok (existsb (key_hit line) rest).
Proof.
  intros Hk. induction rest as [|k rest IH]; intros dn [|fuel] Ek Hd Hf; try (cbn in Hf; lia); rewrite check_loop_step.
  - rewrite Ek, app_nil_r. now rewrite N.ltb_irrefl.
  - assert (Hlt : (length dn < length keys)%nat) by (rewrite Ek, app_length; cbn [length]; lia).
    replace (N.of_nat (length dn) <? N.of_nat (length keys))%N with true by lia.
    rewrite Nat2N.id. rewrite Ek at 1. rewrite nth_error_app2, Nat.sub_diag by lia. cbn [nth_error existsb].
    destruct (key_hit line k) eqn:Eh; [reflexivity|]. cbn [orb].
    replace ((N.of_nat (length dn) + 1) mod 256)%N with (N.of_nat (length (dn ++ [k]))).
    + apply IH; [rewrite Ek; lst|rewrite existsb_app, Hd; cbn; now rewrite Eh|cbn in Hf; lia].
    + rewrite app_length. cbn [length]. rewrite N.mod_small by lia. lia.
Qed.
Lemma key_hit_iff line k : key_hit line k = true <-> at_len_ok line /\ at_len_ok k /\ is_prefix_of k line.
Proof. unfold key_hit. rewrite !andb_true_iff, !is_valid_iff, startwith_loop_iff. tauto. Qed.
Lemma check_partial line keys r : (length keys <= 255)%nat ->
  (at_len_ok line -> exists b, (forall fuel, (length keys < fuel)%nat ->
        ATcheckErrorCode fuel (Some line) (Some keys) (Some r) = Ok (AT_SUCCESS, Some b)) /\
     (b = true <-> exists k, In k keys /\ at_len_ok k /\ is_prefix_of k line)) /\
  (~ at_len_ok line -> forall fuel, ATcheckErrorCode fuel (Some line) (Some keys) (Some r) = Ok (AT_BAD_PARAMETER, Some r)).
Proof.
  intros Hk. unfold ATcheckErrorCode. split; intros Hv.
  - exists (existsb (key_hit line) keys). split.
    + intros fuel Hf. pose proof Hv as Hv'. apply is_valid_iff in Hv'. rewrite Hv'.
      pose proof (check_loop_spec line keys Hk keys [] fuel eq_refl eq_refl Hf) as E. cbn in E. rewrite E. reflexivity.
    + rewrite existsb_exists. split; intros (k & H1 & H2); exists k.
      * apply key_hit_iff in H2. tauto.
      * split; [assumption|]. apply key_hit_iff. tauto.
  - intros. apply is_valid_false in Hv. now rewrite Hv.
Qed.
(** Table of 256 or more entries none of which matches: the loop never ends. *)
Lemma check_diverges line keys r : at_len_ok line -> (256 <= N.of_nat (length keys))%N ->
  (forall k, In k keys -> ~ is_prefix_of k line) ->
  forall fuel, ATcheckErrorCode fuel (Some line) (Some keys) (Some r) = Diverge.
Proof.
  intros Hv Hk Hno fuel. unfold ATcheckErrorCode. apply is_valid_iff in Hv. rewrite Hv.
  assert (E : forall fuel i, (i < 256)%N -> checkErrorCode_loop fuel i line keys = Diverge).
  { clear fuel. induction fuel as [|fuel IH]; intros i Hi; [reflexivity|]. rewrite check_loop_step.
    replace (i <? N.of_nat (length keys))%N with true by lia.
    destruct (nth_error keys (N.to_nat i)) as [k|] eqn:En.
    - destruct (key_hit line k) eqn:Eh.
      + apply key_hit_iff in Eh. exfalso. apply (Hno k); [|tauto]. eapply nth_error_In; eauto.
      + apply IH. apply N.mod_lt. lia.
    - apply nth_error_None in En. lia. }
  rewrite E by lia. reflexivity.
Qed.
Lemma check_refuted : exists line keys, at_len_ok line /\ Forall at_len_ok keys /\
  (forall k, In k keys -> ~ is_prefix_of k line) /\
  forall fuel r, ATcheckErrorCode fuel (Some line) (Some keys) (Some r) = Diverge.
Proof.
  exists [79;75]%N, (repeat [69%N] 256).
  assert (H : forall k, In k (repeat [69%N] 256) -> k = [69%N]) by (intros k; apply repeat_spec).
  assert (Hno : forall k, In k (repeat [69%N] 256) -> ~ is_prefix_of k [79;75]%N).
  { intros k Hk [t Ht]. apply H in Hk as ->. discriminate. }
  assert (Hv : at_len_ok [79;75]%N) by (split; [discriminate|vm_compute; discriminate]).
  split; [assumption|]. split; [|split; [assumption|]].
  - apply Forall_forall. intros k Hk. apply H in Hk as ->. split; [discriminate|vm_compute; discriminate].
  - intros. apply check_diverges; auto. rewrite repeat_length. vm_compute. discriminate.
Qed.

(** ** Duplication *)
Lemma dup_loop_obj s : forall pre post dd de fuel, no_nul s -> length de = S (length s) -> (length s < fuel)%nat ->
  dup_loop_m fuel (obj pre s post) (length pre) (dd ++ de) (length dd) = Ok (dd ++ s ++ [0%N]).
Proof.
  induction s as [|c s IH]; intros pre post dd de [|fuel] Hn Hl Hf; try (cbn in Hf; lia); cbn [dup_loop_m].
  - rewrite ld_obj_nil. cbn [bind]. destruct de as [|y [|z de]]; try discriminate. cbn [N.eqb]. now rewrite st_app.
  - apply no_nul_cons in Hn as [Hc Hn]. rewrite ld_obj_cons. cbn [bind]. replace (c =? 0)%N with false by lia.
    destruct de as [|y de]; [discriminate|]. rewrite st_app. cbn [bind].
    rewrite obj_cons, <- (len_snoc pre c), <- (len_snoc dd c).
    replace (dd ++ c :: de) with ((dd ++ [c]) ++ de) by lst.
    rewrite IH; [|assumption|cbn in Hl; lia|cbn in Hf; lia]. f_equal. lst.
Qed.
Lemma dup_exact alloc pre s post : no_nul s -> (forall n d, alloc n = Some d -> length d = n) ->
  (at_len_ok s -> forall d, alloc (length s + 1)%nat = Some d ->
     ATStrDup_m alloc (obj pre s post) (length pre) = Ok (AT_SUCCESS, Some (s ++ [0%N]))) /\
  (at_len_ok s -> alloc (length s + 1)%nat = None ->
     ATStrDup_m alloc (obj pre s post) (length pre) = Ok (AT_NO_MEMORY, None)) /\
  (~ at_len_ok s -> ATStrDup_m alloc (obj pre s post) (length pre) = Ok (AT_BAD_PARAMETER, None)).
Proof.
  intros Hn Ha. unfold ATStrDup_m. rewrite validated_obj by assumption. rewrite Nat.add_1_r. split; [|split].
  - intros Hv d Hd. apply is_valid_iff in Hv. rewrite Hv, strlen_obj' by assumption. cbn [bind]. rewrite Hd.
    pose proof (dup_loop_obj s pre post [] d (S (length (obj pre s post))) Hn (Ha _ _ Hd)) as E. cbn [app length] in E.
    rewrite E; [reflexivity|]. rewrite obj_len. lia.
  - intros Hv Hd. apply is_valid_iff in Hv. rewrite Hv, strlen_obj' by assumption. cbn [bind]. now rewrite Hd.
  - intros Hv. apply is_valid_false in Hv. now rewrite Hv.
Qed.

(** ** Integers *)
Lemma digit_val_iff c d : digit_val c = Some d <-> alnum_value c d.
Proof.
  unfold digit_val, alnum_value, isdigit, isupper, islower.
  destruct ((48 <=? c) && (c <=? 57))%N eqn:E1; [|destruct ((65 <=? c) && (c <=? 90))%N eqn:E2;
    [|destruct ((97 <=? c) && (c <=? 122))%N eqn:E3]]; (split; [intros H; try discriminate; injection H; lia|intros H; try (f_equal; lia); lia]).
Qed.
Lemma strtol_digits_app base cs ds tl : Forall2 alnum_value cs ds -> Forall (fun d => (d < base)%N) ds ->
  (tl = [] \/ exists c t, tl = c :: t /\ ~ exists d, alnum_value c d) -> forall acc n,
  strtol_digits base (cs ++ tl) acc n =
  ((acc * Z.of_N base ^ Z.of_nat (length ds) + numeral_value (Z.of_N base) ds)%Z, (n + length cs)%nat).
Proof.
  intros H Hb Ht. induction H as [|c d cs ds Hc H IH]; intros acc n; cbn [app].
  - replace (strtol_digits base tl acc n) with (acc, n).
    + cbn [length numeral_value]. rewrite Z.pow_0_r, Nat.add_0_r. f_equal. lia.
    + destruct Ht as [->|(c & t & -> & Hc)]; [reflexivity|]. cbn [strtol_digits].
      destruct (digit_val c) as [d|] eqn:E; [|reflexivity]. exfalso. apply Hc. exists d. now apply digit_val_iff.
  - inversion Hb as [|? ? Hd Hb']; subst. cbn [strtol_digits]. apply digit_val_iff in Hc. rewrite Hc.
    replace (d <? base)%N with true by lia. rewrite IH by assumption. cbn [length numeral_value]. f_equal; [|lia].
    rewrite Nat2Z.inj_succ, Z.pow_succ_r by lia. ring.
Qed.
Lemma skip_spaces_app sp s : Forall space_char sp -> (match s with [] => True | c :: _ => ~ space_char c end) ->
  skip_spaces (sp ++ s) = s.
Proof.
  intros Hs Hc. induction Hs as [|c sp H Hs IH]; cbn [app].
  - destruct s as [|c s]; [reflexivity|]. cbn. destruct (isspace c) eqn:E; [apply isspace_iff in E; contradiction|reflexivity].
  - cbn. apply isspace_iff in H. now rewrite H.
Qed.
Lemma alnum_not_space c d : alnum_value c d -> ~ space_char c /\ c <> 43%N /\ c <> 45%N.
Proof. unfold alnum_value, space_char. lia. Qed.
Lemma skip_0x_id base cs ds tl : Forall2 alnum_value cs ds -> Forall (fun d => (d < base)%N) ds -> cs <> [] ->
  (tl = [] \/ exists c t, tl = c :: t /\ ~ exists d, alnum_value c d) -> skip_0x base (cs ++ tl) = cs ++ tl.
Proof.
  intros H Hb Hne Ht. destruct cs as [|c cs]; [congruence|]. cbn [app]. unfold skip_0x.
  destruct (cs ++ tl) as [|x [|y r]] eqn:E; try reflexivity.
  destruct ((base =? 16)%N && (c =? 48)%N && ((x =? 120)%N || (x =? 88)%N)) eqn:G; [|reflexivity].
  exfalso. assert (Hx : alnum_value x 33 /\ base = 16%N) by (unfold alnum_value; lia). destruct Hx as [Hx ->].
  destruct cs as [|z cs].
  - cbn in E. subst tl. destruct Ht as [Ht|(c0 & t & [= <- <-] & Ht)]; [discriminate|]. apply Ht. eauto.
  - cbn in E. injection E as -> E. inversion H as [|? ? ? ? _ H']; subst. inversion H' as [|? d2 ? ? Hz H'']; subst.
    inversion Hb as [|? ? _ Hb']; subst. inversion Hb' as [|? ? Hd2 _]; subst.
    apply digit_val_iff in Hx, Hz. rewrite Hx in Hz. injection Hz as <-. lia.
Qed.
Lemma clampZ_id lo hi x : (lo <= x <= hi)%Z -> clampZ lo hi x = x.
Proof. intros. unfold clampZ. destruct (x <? lo)%Z eqn:?; [lia|]. destruct (hi <? x)%Z eqn:?; lia. Qed.
Lemma strtol_numeral bits base s v : starts_with_numeral base s v ->
  strtol bits s base = Some (clampZ (- 2 ^ (bits - 1)) (2 ^ (bits - 1) - 1) v).
Proof.
  intros (sp & sg & cs & ds & tl & -> & Hsp & Hne & H2 & Hb & Ht & Hv). unfold strtol.
  assert (Hc : exists c d cs', cs = c :: cs' /\ alnum_value c d).
  { destruct cs as [|c cs']; [congruence|]. inversion H2; subst. eauto. }
  destruct Hc as (c & d & cs' & Ec & Hc). pose proof (alnum_not_space _ _ Hc) as (N1 & N2 & N3).
  assert (Ed : forall b, (let '(v0, n) := strtol_digits base (skip_0x base (cs ++ tl)) 0%Z 0%nat in
      match n with O => None | S _ => Some (clampZ (- 2 ^ (bits - 1)) (2 ^ (bits - 1) - 1) (if b : bool then - v0 else v0)%Z) end)
     = Some (clampZ (- 2 ^ (bits - 1)) (2 ^ (bits - 1) - 1) (if b then - numeral_value (Z.of_N base) ds else numeral_value (Z.of_N base) ds)%Z)).
  { intros b. rewrite (skip_0x_id base cs ds tl) by assumption. rewrite (strtol_digits_app base cs ds tl) by assumption.
    subst cs. cbn [length Nat.add]. rewrite Z.mul_0_l, Z.add_0_l. reflexivity. }
  subst cs. destruct Hv as [[[->| ->] ->]|[-> ->]].
  - rewrite skip_spaces_app; [|assumption|cbn; exact N1]. cbn [app].
    replace (c =? chMINUS)%N with false by (unfold chMINUS; lia). replace (c =? chPLUS)%N with false by (unfold chPLUS; lia).
    exact (Ed false).
  - rewrite skip_spaces_app; [|assumption|cbn; unfold space_char; lia]. cbn [app].
    change (43 =? chMINUS)%N with false. change (43 =? chPLUS)%N with true. apply (Ed false).
  - rewrite skip_spaces_app; [|assumption|cbn; unfold space_char; lia]. cbn [app].
    change (45 =? chMINUS)%N with true. apply (Ed true).
Qed.
Lemma to_int32_id v : int32_range v -> to_int32 v = v.
Proof. unfold int32_range, to_int32. intros. rewrite Z.mod_small by lia. lia. Qed.
Lemma strtoi_exact bits base s v r : (32 <= bits)%Z -> starts_with_numeral base s v -> int32_range v ->
  ATStrtoi bits (Some s) base (Some r) = (AT_SUCCESS, Some v).
Proof.
  intros Hb Hs Hv. unfold ATStrtoi. rewrite (strtol_numeral _ _ _ _ Hs).
  assert (2 ^ 31 <= 2 ^ (bits - 1))%Z by (apply Z.pow_le_mono_r; lia).
  unfold int32_range in Hv. rewrite clampZ_id by lia. now rewrite to_int32_id.
Qed.
Lemma strtol_no_numeral bits base s : no_numeral base s -> strtol bits s base = None.
Proof.
  intros Hno. unfold strtol. destruct (skip_spaces_split s) as (sp & Es & Hsp & _).
  assert (K : forall t, (forall c d tl, t = c :: tl -> alnum_value c d -> (base <= d)%N) ->
     strtol_digits base (skip_0x base t) 0%Z 0%nat = (0%Z, 0%nat)).
  { intros t Ht. destruct t as [|c t]; [reflexivity|].
    assert (D0 : forall u, strtol_digits base (c :: u) 0 0 = (0%Z, 0%nat)).
    { intros u. cbn [strtol_digits]. destruct (digit_val c) as [d|] eqn:E; [|reflexivity].
      apply digit_val_iff in E. specialize (Ht c d t eq_refl E). now replace (d <? base)%N with false by lia. }
    unfold skip_0x. destruct t as [|x [|y t]]; try apply D0.
    destruct ((base =? 16)%N && (c =? 48)%N && ((x =? 120)%N || (x =? 88)%N)) eqn:G; [|apply D0].
    exfalso. assert (alnum_value c 0) by (unfold alnum_value; lia). specialize (Ht c 0%N _ eq_refl H). lia. }
  assert (R : forall b t, (forall c d tl, t = c :: tl -> alnum_value c d -> (base <= d)%N) ->
     (let '(v0, n) := strtol_digits base (skip_0x base t) 0%Z 0%nat in
      match n with O => None | S _ => Some (clampZ (- 2 ^ (bits - 1)) (2 ^ (bits - 1) - 1) (if b : bool then - v0 else v0)%Z) end) = None).
  { intros b t Ht. now rewrite (K t Ht). }
  destruct (skip_spaces s) as [|c t] eqn:E1.
  - apply (R false []). discriminate.
  - destruct (N.eqb_spec c chMINUS) as [->|H1]; [|destruct (N.eqb_spec c chPLUS) as [->|H2]].
    + apply (R true t). intros c d tl -> Hd. apply (Hno sp [45%N] c d tl); auto.
    + apply (R false t). intros c d tl -> Hd. apply (Hno sp [43%N] c d tl); auto.
    + apply (R false (c :: t)). intros c' d tl [= -> ->] Hd. apply (Hno sp [] c' d tl); auto.
Qed.
Lemma strtoi_error bits base s r : no_numeral base s -> ATStrtoi bits (Some s) base (Some r) = (AT_ERROR, Some r).
Proof. intros H. unfold ATStrtoi. now rewrite strtol_no_numeral. Qed.
Lemma strtoi_refuted : exists s v, starts_with_numeral 10 s v /\ ~ int32_range v /\
  forall bits, bits = 32%Z \/ bits = 64%Z -> exists w, ATStrtoi bits (Some s) 10 (Some 0%Z) = (AT_SUCCESS, Some w) /\ w <> v.
Proof.
  exists [52;50;57;52;57;54;55;50;57;55]%N, 4294967297%Z. split; [|split].
  - exists [], [], [52;50;57;52;57;54;55;50;57;55]%N, [4;2;9;4;9;6;7;2;9;7]%N, [].
    repeat split; auto; try discriminate.
    + repeat constructor; unfold alnum_value; lia.
    + repeat constructor; lia.
  - unfold int32_range. lia.
  - intros bits [-> | ->].
    + exists 2147483647%Z. split; [vm_compute; reflexivity|lia].
    + exists 1%Z. split; [vm_compute; reflexivity|lia].
Qed.

(** Proofs about the AT string utilities, part 2. *)
From Coq Require Import List NArith ZArith Bool Lia ZifyBool ZifyNat ZifyN Arith.
From Verif Require Import Bytes AtCore AtMem SpecAt AtProofs.
Import ListNotations.

Ltac lst := repeat (rewrite <- ?app_assoc; cbn [app]); reflexivity.

Lemma ld_mid pre a c b post i : i = (length pre + length a)%nat ->
  ld (obj pre (a ++ c :: b) post) i = Ok c.
Proof.
  intros ->. unfold obj. replace (pre ++ (a ++ c :: b) ++ 0%N :: post) with ((pre ++ a) ++ c :: (b ++ 0%N :: post))
    by (rewrite <- !app_assoc; reflexivity).
  apply ld_app'. rewrite app_length; lia.
Qed.
Lemma ld_end pre s post i : i = (length pre + length s)%nat -> ld (obj pre s post) i = Ok 0%N.
Proof.
  intros ->. unfold obj. rewrite app_assoc. apply ld_app'. rewrite app_length; lia.
Qed.
Lemma st_mid pre a c b post i v : i = (length pre + length a)%nat ->
  st (obj pre (a ++ c :: b) post) i v = Ok (obj pre (a ++ v :: b) post).
Proof.
  intros ->. unfold obj.
  replace (pre ++ (a ++ c :: b) ++ 0%N :: post) with ((pre ++ a) ++ c :: (b ++ 0%N :: post))
    by (rewrite <- !app_assoc; reflexivity).
  rewrite st_app' by (rewrite app_length; lia). rewrite <- !app_assoc. reflexivity.
Qed.
Lemma st_end pre s post i v : i = (length pre + length s)%nat ->
  st (obj pre s post) i v = Ok (pre ++ s ++ v :: post).
Proof.
  intros ->. unfold obj. rewrite app_assoc, st_app' by (rewrite app_length; lia).
  now rewrite <- app_assoc.
Qed.

(** ** Trailing white space *)
Lemma trail_loop_gen w : forall pre t c R fuel,
  Forall space_char w -> (~ space_char c \/ t = []) -> (length t + length w + 1 < fuel)%nat ->
  trail_loop_m fuel (pre ++ t ++ c :: w ++ R) (length pre) (length pre + length t + 1 + length w)
  = Ok (length pre + length t)%nat.
Proof.
  induction w as [|x w IH] using rev_ind; intros pre t c R [|fuel] Hw Hc Hf; try lia.
  - cbn [trail_loop_m length app].
    replace (length pre + length t + 1 + 0 - 1)%nat with (length pre + length t)%nat by lia.
    destruct (Nat.ltb_spec (length pre) (length pre + length t)); [|reflexivity].
    rewrite app_assoc, ld_app' by (rewrite app_length; lia). cbn [bind].
    destruct Hc as [Hc| ->]; [|cbn in *; lia].
    destruct (isspace c) eqn:E; [apply isspace_iff in E; contradiction|reflexivity].
  - apply Forall_app in Hw as [Hw Hx]. inversion Hx as [|? ? Hx1 _]; subst.
    cbn [trail_loop_m]. rewrite app_length in *. cbn [length] in *.
    replace (length pre + length t + 1 + (length w + 1) - 1)%nat with (length pre + length t + 1 + length w)%nat by lia.
    replace (length pre <? length pre + length t + 1 + length w)%nat with true by lia.
    replace (pre ++ t ++ c :: (w ++ [x]) ++ R) with ((pre ++ t ++ c :: w) ++ x :: R)
      by lst.
    rewrite ld_app' by (rewrite !app_length; cbn [length]; lia). cbn [bind].
    apply isspace_iff in Hx1. rewrite Hx1.
    replace ((pre ++ t ++ c :: w) ++ x :: R) with (pre ++ t ++ c :: w ++ (x :: R))
      by lst.
    apply IH; auto; lia.
Qed.
Lemma app3 {A} (pre t : list A) c w R : pre ++ t ++ c :: w ++ R = (pre ++ (t ++ c :: w)) ++ R.
Proof. rewrite <- !app_assoc; cbn [app]; rewrite <- ?app_assoc; reflexivity. Qed.

(** every non-empty string is t ++ c :: w with w spaces and c the last non space (or the first char) *)
Lemma trail_split s : s <> [] -> exists t c w, s = t ++ c :: w /\ Forall space_char w /\ (~ space_char c \/ t = []).
Proof.
  induction s as [|x s IH] using rev_ind; [congruence|]. intros _.
  destruct (isspace x) eqn:E.
  - destruct s as [|y s].
    + exists [], x, []. cbn. auto.
    + destruct IH as (t & c & w & H1 & H2 & H3); [discriminate|].
      exists t, c, (w ++ [x]). rewrite H1, <- app_assoc. split; [reflexivity|]. split; [|assumption].
      apply Forall_app. split; [assumption|]. constructor; [now apply isspace_iff|constructor].
  - exists s, x, []. split; [reflexivity|]. split; [constructor|]. left. rewrite <- isspace_iff. congruence.
Qed.

Lemma trail_m pre t c w post : no_nul (t ++ c :: w) -> Forall space_char w -> (~ space_char c \/ t = []) ->
  at_len_ok (t ++ c :: w) -> (2 < length (t ++ c :: w))%nat ->
  ATRemoveTrailingWhiteSpaces_m (obj pre (t ++ c :: w) post) (length pre)
  = Ok (AT_SUCCESS, pre ++ overlay (t ++ [c; 0%N]) (t ++ c :: w ++ [0%N]) ++ post).
Proof.
  intros Hn Hw Hc Hv Hl. unfold ATRemoveTrailingWhiteSpaces_m. rewrite validated_obj by assumption.
  apply is_valid_iff in Hv. rewrite Hv. rewrite strlen_obj' by assumption. cbn [bind].
  replace (2 <? length (t ++ c :: w))%nat with true by lia.
  replace (length pre + length (t ++ c :: w))%nat with (length pre + length t + 1 + length w)%nat
    by (rewrite app_length; cbn [length]; lia).
  unfold obj at 2. replace (pre ++ (t ++ c :: w) ++ 0%N :: post) with (pre ++ t ++ c :: w ++ (0%N :: post))
    by lst.
  rewrite trail_loop_gen; [|assumption|assumption|].
  2:{ rewrite obj_len, app_length. cbn [length]. lia. }
  cbn [bind].
  assert (E : exists y r, w ++ [0%N] = y :: r) by (destruct w; cbn; eauto).
  destruct E as (y & r & E).
  replace (obj pre (t ++ c :: w) post) with ((pre ++ t ++ [c]) ++ y :: (r ++ post)).
  2:{ unfold obj. rewrite <- !app_assoc. cbn [app]. do 3 f_equal.
      change (y :: r ++ post) with ((y :: r) ++ post). rewrite <- E, <- app_assoc. reflexivity. }
  rewrite st_app' by (rewrite !app_length; cbn [length]; lia). cbn [bind]. do 2 f_equal.
  unfold overlay. rewrite E. rewrite <- !app_assoc. cbn [app]. do 4 f_equal.
  replace (skipn (length (t ++ [c; 0%N])) (t ++ c :: y :: r)) with r; [reflexivity|].
  replace (t ++ c :: y :: r) with ((t ++ [c; y]) ++ r) by (rewrite <- app_assoc; reflexivity).
  rewrite skipn_app, skipn_all2 by (rewrite !app_length; cbn [length]; lia).
  replace (length (t ++ [c; 0%N]) - length (t ++ [c; y]))%nat with O by (rewrite !app_length; cbn [length]; lia).
  reflexivity.
Qed.

Lemma trailing_partial pre s post : no_nul s ->
  (forall t c w, at_len_ok s -> (2 < length s)%nat ->
     s = t ++ c :: w -> ~ space_char c -> Forall space_char w ->
     exists m', ATRemoveTrailingWhiteSpaces_m (obj pre s post) (length pre) = Ok (AT_SUCCESS, m') /\
       m' = pre ++ overlay (t ++ [c; 0%N]) (s ++ [0%N]) ++ post /\
       cstr_get m' (length pre) = Some (t ++ [c])) /\
  (~ at_len_ok s -> ATRemoveTrailingWhiteSpaces_m (obj pre s post) (length pre) = Ok (AT_BAD_PARAMETER, obj pre s post)) /\
  (exists st m', ATRemoveTrailingWhiteSpaces_m (obj pre s post) (length pre) = Ok (st, m')
       /\ length m' = length (obj pre s post) /\ firstn (length pre) m' = pre
       /\ skipn (length pre + length s + 1) m' = post).
Proof.
  intros Hn. split; [|split].
  - intros t c w Hv Hl -> Hc Hw. eexists. split; [apply trail_m; auto|]. split.
    + rewrite <- app_assoc. reflexivity.
    + unfold overlay. rewrite <- !app_assoc. cbn [app].
      replace (pre ++ t ++ c :: 0%N :: skipn (length (t ++ [c; 0%N])) (t ++ c :: w ++ [0%N]) ++ post)
        with (obj pre (t ++ [c]) (skipn (length (t ++ [c; 0%N])) (t ++ c :: w ++ [0%N]) ++ post))
        by (unfold obj; rewrite <- !app_assoc; reflexivity).
      apply cstr_get_obj. apply no_nul_app in Hn as [H1 H2]. apply no_nul_cons in H2 as [H2 _].
      apply no_nul_app. split; [assumption|]. apply no_nul_cons. split; [assumption|apply no_nul_nil].
  - intros Hv. unfold ATRemoveTrailingWhiteSpaces_m. rewrite validated_obj by assumption.
    apply is_valid_false in Hv. now rewrite Hv.
  - assert (K : length (obj pre s post) = length (obj pre s post) /\ firstn (length pre) (obj pre s post) = pre
        /\ skipn (length pre + length s + 1) (obj pre s post) = post).
    { split; [reflexivity|]. unfold obj. split.
      - rewrite firstn_app, firstn_all, Nat.sub_diag. cbn. now rewrite app_nil_r.
      - replace (pre ++ s ++ 0%N :: post) with ((pre ++ s ++ [0%N]) ++ post)
          by (rewrite <- !app_assoc; reflexivity).
        rewrite skipn_app, skipn_all2 by (rewrite !app_length; cbn; lia).
        replace (length pre + length s + 1 - length (pre ++ s ++ [0%N]))%nat with O by (rewrite !app_length; cbn; lia).
        reflexivity. }
    destruct (is_valid s) eqn:Hv.
    2:{ unfold ATRemoveTrailingWhiteSpaces_m. rewrite validated_obj, Hv by assumption. eauto. }
    destruct (Nat.ltb_spec 2 (length s)) as [Hl|Hl].
    2:{ unfold ATRemoveTrailingWhiteSpaces_m. rewrite validated_obj, Hv, strlen_obj' by assumption. cbn [bind].
        replace (2 <? length s)%nat with false by lia. eauto. }
    apply is_valid_iff in Hv. destruct (trail_split s) as (t & c & w & -> & Hw & Hc); [apply Hv|].
    rewrite trail_m by auto. do 2 eexists. split; [reflexivity|]. unfold overlay.
    assert (L : length ((t ++ [c; 0%N]) ++ skipn (length (t ++ [c; 0%N])) (t ++ c :: w ++ [0%N])) = length (t ++ c :: w ++ [0%N])).
    { rewrite app_length, skipn_length. repeat (rewrite !app_length; cbn [length]). lia. }
    set (W := (t ++ [c; 0%N]) ++ skipn (length (t ++ [c; 0%N])) (t ++ c :: w ++ [0%N])) in *.
    assert (L' : length W = (length (t ++ c :: w) + 1)%nat).
    { rewrite L. repeat (rewrite !app_length; cbn [length]). lia. }
    split; [rewrite obj_len, 2 app_length; lia|]. split.
    + rewrite firstn_app, firstn_all, Nat.sub_diag. cbn. now rewrite app_nil_r.
    + rewrite app_assoc, skipn_app, skipn_all2 by (rewrite (app_length pre W); lia).
      replace (length pre + length (t ++ c :: w) + 1 - length (pre ++ W))%nat with O by (rewrite (app_length pre W); lia).
      reflexivity.
Qed.

Lemma trailing_refuted : exists s : str, no_nul s /\ at_len_ok s /\
  exists m' r c, ATRemoveTrailingWhiteSpaces_m (obj [] s []) 0 = Ok (AT_SUCCESS, m') /\
     cstr_get m' 0 = Some (r ++ [c]) /\ space_char c.
Proof.
  exists [97; 32]%N. split; [vm_compute; intuition discriminate|]. split; [split; [discriminate|vm_compute; discriminate]|].
  exists [97; 32; 0]%N, [97]%N, 32%N. vm_compute. repeat split. right. reflexivity.
Qed.

(** ** Outermost double quotes *)
Lemma no_nul_last s c : no_nul (s ++ [c]) -> c <> 0%N.
Proof. intros H. apply no_nul_app in H as [_ H]. now apply no_nul_cons in H. Qed.

(** strip one optional quote from the end *)
Lemma outer_dq_tail pre p1 s1 post : no_nul s1 -> s1 <> [] -> length pre = p1 ->
  (do n1 <- strlen_m (S (length (obj pre s1 post))) (obj pre s1 post) p1;
      let e := (p1 + n1 - 1)%nat in
      do l <- ld (obj pre s1 post) e;
      if (l =? chDQ)%N then do m' <- st (obj pre s1 post) e 0%N; Ok (AT_SUCCESS, p1, m')
      else Ok (AT_SUCCESS, p1, obj pre s1 post))
  = Ok (AT_SUCCESS, p1, if (last s1 0%N =? chDQ)%N then obj pre (removelast s1) (0%N :: post) else obj pre s1 post).
Proof.
  intros Hn Hs <-. rewrite strlen_obj' by assumption. cbn [bind].
  destruct s1 as [|y s1 _] using rev_ind; [congruence|]. rewrite last_last, removelast_last.
  rewrite app_length. cbn [length]. 
  replace (length pre + (length s1 + 1) - 1)%nat with (length pre + length s1)%nat by lia.
  rewrite ld_mid by reflexivity. cbn [bind]. destruct (y =? chDQ)%N; [|reflexivity].
  rewrite st_mid by reflexivity. cbn [bind]. do 2 f_equal. unfold obj. rewrite <- !app_assoc. reflexivity.
Qed.

(** Exact behaviour at memory level, for every string. *)
Lemma outer_dq_m pre s post : no_nul s ->
  ATRemoveOutermostDoubleQuote_m (obj pre s post) (length pre) =
  Ok (if is_valid s then
        if (2 <? length s)%nat then
          match s with
          | c :: t => if (c =? chDQ)%N
                      then (AT_SUCCESS, S (length pre), if (last t 0%N =? chDQ)%N then obj (pre ++ [c]) (removelast t) (0%N :: post) else obj pre s post)
                      else (AT_SUCCESS, length pre, if (last s 0%N =? chDQ)%N then obj pre (removelast s) (0%N :: post) else obj pre s post)
          | [] => (AT_SUCCESS, length pre, obj pre s post)
          end
        else (AT_SUCCESS, length pre, obj pre s post)
      else (AT_BAD_PARAMETER, length pre, obj pre s post)).
Proof.
  intros Hn. unfold ATRemoveOutermostDoubleQuote_m. rewrite validated_obj by assumption.
  destruct (is_valid s); [|reflexivity]. rewrite strlen_obj' by assumption. cbn [bind].
  destruct (Nat.ltb_spec 2 (length s)) as [Hl|]; [|reflexivity].
  destruct s as [|c t]; [cbn in Hl; lia|]. rewrite ld_obj_cons. cbn [bind].
  destruct (N.eqb_spec c chDQ) as [Hc|Hc].
  - apply no_nul_cons in Hn as [_ Hn]. rewrite obj_cons.
    apply (outer_dq_tail (pre ++ [c]) (S (length pre)) t post); auto.
    + intros ->. cbn in Hl. lia.
    + apply len_snoc.
  - apply outer_dq_tail; auto. discriminate.
Qed.
Lemma outer_dq_exact pre s post : no_nul s ->
  (forall t, at_len_ok s -> (1 <= length t)%nat -> s = 34%N :: t ++ [34%N] ->
     exists q m', ATRemoveOutermostDoubleQuote_m (obj pre s post) (length pre) = Ok (AT_SUCCESS, q, m') /\
       cstr_get m' q = Some t /\ m' = pre ++ [34%N] ++ t ++ [0%N; 0%N] ++ post) /\
  (forall c t e, at_len_ok s -> s = c :: t ++ [e] -> c <> 34%N -> e <> 34%N ->
       ATRemoveOutermostDoubleQuote_m (obj pre s post) (length pre) = Ok (AT_SUCCESS, length pre, obj pre s post)) /\
  (~ at_len_ok s -> ATRemoveOutermostDoubleQuote_m (obj pre s post) (length pre)
                    = Ok (AT_BAD_PARAMETER, length pre, obj pre s post)) /\
  (exists st q m' a b r, ATRemoveOutermostDoubleQuote_m (obj pre s post) (length pre) = Ok (st, q, m') /\
       cstr_get m' q = Some r /\ s = a ++ r ++ b /\ (a = [] \/ a = [34%N]) /\ (b = [] \/ b = [34%N])
       /\ length m' = length (obj pre s post) /\ firstn (length pre) m' = pre
       /\ skipn (length pre + length s + 1) m' = post).
Proof.
  intros Hn. rewrite outer_dq_m by assumption. split; [|split; [|split]].
  - intros t Hv Ht ->. apply is_valid_iff in Hv. rewrite Hv.
    replace (2 <? length (34%N :: t ++ [34%N]))%nat with true by (cbn [length]; rewrite app_length; cbn [length]; lia).
    change (34 =? chDQ)%N with true. cbv iota. rewrite last_last, removelast_last.
    change (34 =? chDQ)%N with true. do 2 eexists. split; [reflexivity|]. split.
    + rewrite <- (len_snoc pre 34%N). apply cstr_get_obj. apply no_nul_cons in Hn as [_ Hn].
      now apply no_nul_app in Hn.
    + unfold obj. rewrite <- !app_assoc. reflexivity.
  - intros c t e Hv -> Hc He. apply is_valid_iff in Hv. rewrite Hv.
    replace (c =? chDQ)%N with false by (unfold chDQ; lia).
    change (c :: t ++ [e]) with ((c :: t) ++ [e]). rewrite last_last.
    replace (e =? chDQ)%N with false by (unfold chDQ; lia). destruct (2 <? _)%nat; reflexivity.
  - intros Hv. apply is_valid_false in Hv. now rewrite Hv.
  - assert (K : forall a r b t1 post', pre ++ s ++ 0%N :: post = pre ++ a ++ r ++ b ++ 0%N :: post -> s = a ++ r ++ b ->
       t1 = pre ++ (a ++ r ++ post') ++ post -> length post' = (length b + 1)%nat ->
       length t1 = length (obj pre s post) /\ firstn (length pre) t1 = pre
       /\ skipn (length pre + length s + 1) t1 = post).
    { intros a r b t1 post' _ -> -> Hl. split; [|split].
      - rewrite obj_len, !app_length. lia.
      - rewrite firstn_app, firstn_all, Nat.sub_diag. cbn. now rewrite app_nil_r.
      - rewrite (app_assoc pre), skipn_app, skipn_all2 by (rewrite !app_length; lia).
        replace (length pre + length (a ++ r ++ b) + 1 - length (pre ++ a ++ r ++ post'))%nat with O
          by (rewrite !app_length; lia). reflexivity. }
    assert (K0 : exists st q m' a b r, @Ok (at_status * nat * list N) (st, q, m') = Ok (st, q, m') /\ q = length pre /\ m' = obj pre s post /\
       cstr_get m' q = Some r /\ s = a ++ r ++ b /\ (a = [] \/ a = [34%N]) /\ (b = [] \/ b = [34%N])
       /\ length m' = length (obj pre s post) /\ firstn (length pre) m' = pre
       /\ skipn (length pre + length s + 1) m' = post).
    { exists AT_SUCCESS, (length pre), (obj pre s post), [], [], s. split; [reflexivity|]. do 2 (split; [reflexivity|]).
      split; [now apply cstr_get_obj|]. rewrite app_nil_r. split; [reflexivity|].
      do 2 (split; [auto|]). apply (K [] s [] _ [0%N]); auto; cbn [app]; rewrite ?app_nil_r; try reflexivity.
      unfold obj. now rewrite <- app_assoc. }
    destruct K0 as (_ & q0 & m0 & a0 & b0 & r0 & _ & Eq0 & Em0 & K0). subst q0 m0.
    destruct (is_valid s); [|do 6 eexists; split; [reflexivity|exact K0]].
    destruct (2 <? length s)%nat eqn:Hl; [|do 6 eexists; split; [reflexivity|exact K0]].
    destruct s as [|c t] eqn:Es; [do 6 eexists; split; [reflexivity|exact K0]|]. rewrite <- Es in *.
    assert (Ht : t <> []) by (intros ->; subst s; cbn in Hl; discriminate).
    destruct (N.eqb_spec c chDQ) as [Hc|Hc].
    + destruct (N.eqb_spec (last t 0%N) chDQ) as [He|He].
      * do 2 eexists. exists (obj (pre ++ [c]) (removelast t) (0%N :: post)), [c], [chDQ], (removelast t). split; [reflexivity|].
        assert (Et : t = removelast t ++ [chDQ]) by (rewrite <- He at 1; now apply app_removelast_last).
        assert (Es' : s = [c] ++ removelast t ++ [chDQ]) by (rewrite <- Et; assumption).
        split.
        { rewrite <- (len_snoc pre c). apply cstr_get_obj. rewrite Es' in Hn. apply no_nul_cons in Hn as [_ Hn].
          now apply no_nul_app in Hn. }
        split; [assumption|]. split; [right; now rewrite Hc|]. split; [right; reflexivity|].
        apply (K [c] (removelast t) [chDQ] _ [0%N; 0%N]); auto.
        -- rewrite Es' at 1. rewrite <- !app_assoc. reflexivity.
        -- unfold obj. rewrite <- !app_assoc. reflexivity.
      * do 2 eexists. exists (obj pre s post), [c], [], t. split; [reflexivity|]. split.
        { rewrite Es at 1. rewrite obj_cons, <- (len_snoc pre c). apply cstr_get_obj. rewrite Es in Hn. now apply no_nul_cons in Hn. }
        rewrite app_nil_r. split; [assumption|]. split; [right; now rewrite Hc|]. split; [auto|].
        destruct K0 as (_ & _ & _ & _ & K0). exact K0.
    + destruct (N.eqb_spec (last s 0%N) chDQ) as [He|He].
      * assert (Et : s = removelast s ++ [chDQ]) by (rewrite <- He at 1; apply app_removelast_last; rewrite Es; discriminate).
        do 2 eexists. exists (obj pre (removelast s) (0%N :: post)), [], [chDQ], (removelast s). split; [reflexivity|].
        split. { apply cstr_get_obj. rewrite Et in Hn. now apply no_nul_app in Hn. }
        split; [assumption|]. split; [auto|]. split; [right; reflexivity|].
        apply (K [] (removelast s) [chDQ] _ [0%N; 0%N]); auto.
        -- rewrite Et at 1. rewrite <- !app_assoc. reflexivity.
        -- unfold obj. cbn [app]. rewrite <- !app_assoc. reflexivity.
      * do 6 eexists; split; [reflexivity|exact K0].
Qed.

(** The buffer machine refines the stream specification (C16, C19, C20, C22). *)
From Coq Require Import List NArith ZArith Bool Arith Lia.
From Verif Require Import Bytes AtCore Status SpecAt AtProofs AtProofs3 Pktio SpecPktio PktioLine PktioSafe SpecStream.
Import ListNotations.

Section Stream.
Variable cap : nat.

(** Item [i] shows content [c] in buffer [m] and lies entirely below offset [b]. *)
Definition content_at (m : list N) (b : nat) (i : item) (c : list N) : Prop :=
  match it_raw i with
  | None => cstr_get m (it_ptr i) = Some c /\ (it_ptr i + length c < b)%nat
  | Some k => k = length c /\ firstn k (skipn (it_ptr i) m) = c /\ (it_ptr i + k <= b)%nat
  end.
Definition items_rel (m : list N) (b : nat) (r : option response) (a : list (list N)) : Prop :=
  match r with None => a = [] | Some r => Forall2 (content_at m b) (r_items r) a end.
Definition agree (m m' : list N) (b : nat) : Prop := firstn b m = firstn b m'.

Lemma agree_refl m b : agree m m b. Proof. reflexivity. Qed.
Lemma agree_le m m' b b' : agree m m' b -> (b' <= b)%nat -> agree m m' b'.
Proof.
  unfold agree. intros H L. replace b' with (Nat.min b' b) by lia. rewrite <- !firstn_firstn, H. reflexivity.
Qed.
Lemma agree_trans m1 m2 m3 b : agree m1 m2 b -> agree m2 m3 b -> agree m1 m3 b.
Proof. unfold agree. congruence. Qed.
Lemma agree_wr m p bs m' : wr m p bs = Ok m' -> agree m m' p.
Proof.
  unfold wr, agree. destruct (p + length bs <=? length m)%nat eqn:E; [|discriminate]. apply Nat.leb_le in E. intro Q. inversion Q; subst.
  rewrite firstn_app, firstn_firstn, Nat.min_id, firstn_length, Nat.min_l by lia. rewrite Nat.sub_diag. cbn [firstn]. symmetry. apply app_nil_r.
Qed.
Lemma agree_upd m i v : agree m (upd m i v) i.
Proof.
  unfold agree. revert i; induction m as [|x m IH]; intros [|i]; cbn [upd firstn]; [reflexivity..|]. rewrite <- IH. reflexivity.
Qed.
Lemma skip_first {A} p k (m : list A) b : (p + k <= b)%nat -> firstn k (skipn p m) = firstn k (skipn p (firstn b m)).
Proof.
  intro H. rewrite skipn_firstn_comm, firstn_firstn. f_equal. lia.
Qed.
Lemma cstr_list_firstn m s k : cstr_list m = Some s <-> (length s < k)%nat /\ cstr_list (firstn k m) = Some s \/ (k <= length s)%nat /\ cstr_list m = Some s.
Proof.
  split.
  - intro H. destruct (Nat.lt_ge_cases (length s) k) as [L|L]; [left; split; [exact L|]|right; auto].
    revert s k H L. induction m as [|c m IH]; intros s k H L; [discriminate|]. destruct k as [|k]; [lia|].
    cbn [cstr_list firstn] in *. destruct (c =? 0)%N; [exact H|]. destruct (cstr_list m) as [s'|] eqn:E; [|discriminate].
    inversion H; subst. cbn [length] in L. rewrite (IH s' k eq_refl) by lia. reflexivity.
  - intros [[L H]|[_ H]]; [|exact H]. revert s k H L. induction m as [|c m IH]; intros s k H L; [destruct k; discriminate|]. destruct k as [|k]; [lia|].
    cbn [cstr_list firstn] in *. destruct (c =? 0)%N; [exact H|]. destruct (cstr_list (firstn k m)) as [s'|] eqn:E; [|discriminate].
    inversion H; subst. cbn [length] in L. rewrite (IH s' k E) by lia. reflexivity.
Qed.
Lemma content_agree m m' b b' i c : content_at m b i c -> agree m m' b -> (b <= b')%nat -> content_at m' b' i c.
Proof.
  unfold content_at, agree. intros H A L. destruct (it_raw i) as [k|].
  - destruct H as (H1 & H2 & H3). split; [exact H1|]. split; [|lia]. rewrite (skip_first _ _ m' b), <- A, <- skip_first by lia. exact H2.
  - destruct H as (H1 & H2). split; [|lia]. unfold cstr_get in *.
    apply (cstr_list_firstn _ _ (S (length c))) in H1. destruct H1 as [[_ H1]|[Q _]]; [|lia].
    apply (cstr_list_firstn _ _ (S (length c))). left. split; [lia|]. rewrite (skip_first _ _ m' b), <- A, <- skip_first by lia. exact H1.
Qed.
Lemma items_agree m m' b b' r a : items_rel m b r a -> agree m m' b -> (b <= b')%nat -> items_rel m' b' r a.
Proof.
  destruct r as [r|]; [|auto]. cbn. intros H A L. induction H; constructor; [|assumption]. eapply content_agree; eassumption.
Qed.
Lemma content_mono m b b' l a : Forall2 (content_at m b) l a -> (b <= b')%nat -> Forall2 (content_at m b') l a.
Proof. intros F L. induction F; constructor; [|assumption]. eapply content_agree; [eassumption|apply agree_refl|exact L]. Qed.
Lemma deliver_rel m b l a : (b <= length m)%nat -> Forall2 (content_at m b) l a -> deliver m l = Ok a.
Proof.
  intro LB. induction 1 as [|i c l a H F IH]; [reflexivity|]. cbn [deliver]. unfold item_content. unfold content_at in H.
  destruct (it_raw i) as [k|].
  - destruct H as (-> & H2 & H3). rewrite rd_ok by lia. cbn [bind]. rewrite IH, H2. reflexivity.
  - destruct H as (-> & _). cbn [bind]. rewrite IH. reflexivity.
Qed.
Lemma items_resp m b r a : items_rel m b r a -> Forall2 (content_at m b) (r_items (match r with Some r => r | None => AtResponseNew end)) a.
Proof. destruct r; cbn; [auto|intros ->; constructor]. Qed.

(** The concrete loop state ([line], [n]) holds the stream bytes [lft]. *)
Definition holds (s : rx) (line n : nat) (lft : str) (a : list (list N)) : Prop :=
  buf_ok cap (rx_buf s) /\ (line + n <= cap)%nat /\ firstn n (skipn line (rx_buf s)) = lft /\ items_rel (rx_buf s) line (rx_resp s) a.
Lemma holds_len s line n lft a : holds s line n lft a -> length lft = n.
Proof. intros ((BL & _) & L & E & _). rewrite <- E, firstn_length, skipn_length. lia. Qed.

(** ** Skipping *)
Fixpoint drop_eol (S : str) : str := match S with c :: t => if is_eol c then drop_eol t else S | [] => [] end.
Lemma slice_cons {A} (m : list A) p n d : (p < length m)%nat -> firstn (S n) (skipn p m) = nth p m d :: firstn n (skipn (S p) m).
Proof.
  revert m; induction p as [|p IH]; intros [|x m] H; cbn [length] in H; [lia| |lia|]; [reflexivity|].
  cbn [skipn nth]. rewrite IH by lia. reflexivity.
Qed.
Lemma skip_holds m : forall n p lft, (p + n <= length m)%nat -> firstn n (skipn p m) = lft ->
  exists p' n', skip_eol m p n = Ok (p', n') /\ firstn n' (skipn p' m) = drop_eol lft /\ (p' + n' = p + n)%nat /\ (p <= p')%nat.
Proof.
  induction n as [|n IH]; intros p lft H E; cbn [skip_eol].
  - cbn [firstn] in E. subst. exists p, 0%nat. repeat split; lia.
  - rewrite (slice_cons m p n 0%N) in E by lia. rewrite ld_ok by lia. cbn [bind]. subst lft. cbn [drop_eol].
    destruct (is_eol _).
    + destruct (IH (S p) _ ltac:(lia) eq_refl) as (p' & n' & -> & A & B & C). exists p', n'. repeat split; [exact A|lia|lia].
    + exists p, (S n). rewrite (slice_cons m p n 0%N) by lia. repeat split; lia.
Qed.
Lemma steps_trans env x y z : stream_steps env x y -> stream_steps env y z -> stream_steps env x z.
Proof. induction 1; [auto|]. intro. econstructor; [eassumption|auto]. Qed.
Lemma steps_one env x y : stream_step env x y -> stream_steps env x y.
Proof. intro. econstructor; [eassumption|constructor]. Qed.
Lemma skip_steps env h a S F : stream_steps env (h, a, 0%nat, S ++ F) (h, a, 0%nat, drop_eol S ++ F).
Proof.
  induction S as [|c S IH]; [constructor|]. cbn [drop_eol]. destruct (is_eol c) eqn:E; [|constructor].
  econstructor; [|exact IH]. cbn [app]. constructor. apply is_eol_iff. exact E.
Qed.
Lemma drop_eol_head S : drop_eol S = [] \/ exists c t, drop_eol S = c :: t /\ ~ eol c.
Proof.
  induction S as [|c S IH]; [left; reflexivity|]. cbn [drop_eol]. destruct (is_eol c) eqn:E; [exact IH|].
  right. exists c, S. split; [reflexivity|]. apply is_eol_false. exact E.
Qed.

(** ** One line *)
Definition aresp (s : rx) : response := match rx_resp s with Some r => r | None => AtResponseNew end.

Lemma unexpected_dec v txt : v_undef v txt = PKT_OK \/ v_undef v txt <> PKT_OK.
Proof. destruct (v_undef v txt); auto; right; discriminate. Qed.

(** A reader state without anything buffered or pending. *)
Definition fresh (s : rx) : Prop := buf_ok cap (rx_buf s) /\ rx_ptr s = None /\ rx_partial s = 0%nat /\ rx_dlen s = 0%nat /\ rx_resp s = None.
Lemma fresh_reset s : rx_dlen s = 0%nat -> fresh (set_resp (reset_buf cap s) None).
Proof. intro D. split; [apply buf_zero|]. cbn. auto. Qed.

(** handleMsgType against [line_step]; [b] is the offset just behind the line's terminator. *)
Lemma handleMsgType_step v s line txt a : 
  tables_ok (v_tokens v) -> prefix_usable (v_prefix v) -> v_cmd2 v = v_cmd v -> v_handler v = true ->
  buf_ok cap (rx_buf s) -> (line + length txt < cap + 1)%nat -> cstr_get (rx_buf s) line = Some txt -> items_rel (rx_buf s) line (rx_resp s) a ->
  exists st mt' ev s',
    handleMsgType cap v (getMsgType (v_tokens v) (v_cmd v) txt (v_prefix v)) s line txt = Ok (st, mt', ev, s') /\
    ((st = PKT_INVALID_DATA /\ ev = [EvUndef txt; EvDrop] /\ rejects v a txt /\ (rx_dlen s = 0%nat -> fresh s')) \/
     (exists a', line_step v a txt ev a' /\ rx_buf s' = rx_buf s /\ rx_dlen s' = rx_dlen s /\
       items_rel (rx_buf s) (line + length txt + 1) (rx_resp s') a' /\
       (st = PKT_OK /\ (mt' = AT_SOLICITED -> a' = [] /\ rx_resp s' = None) \/ st = PKT_PENDING_DATA \/ st = PKT_PENDING_BUFFER))).
Proof.
  intros HT HU HC HH HB HL HX HI.
  pose proof (classification (v_tokens v) (v_cmd v) (v_prefix v) txt HU) as (C1 & C2 & C3).
  unfold handleMsgType. rewrite HH. destruct (getMsgType (v_tokens v) (v_cmd v) txt (v_prefix v)) eqn:EM.
  - assert (LC : line_of_command (v_tokens v) (v_cmd v) (v_prefix v) txt) by (apply C1; reflexivity). clear C1 C2 C3.
    fold (aresp s). pose proof (items_resp _ _ _ _ HI) as F. fold (aresp s) in F.
    assert (LB : (line <= length (rx_buf s))%nat) by (destruct HB as [BL _]; lia).
    assert (F1 : Forall2 (content_at (rx_buf s) (line + length txt + 1)) (r_items (saveATData (aresp s) line)) (a ++ [txt])).
    { apply Forall2_app; [|constructor; [|constructor]].
      - eapply content_mono; [exact F|lia].
      - split; cbn; [exact HX|lia]. }
    assert (F0 : Forall2 (content_at (rx_buf s) (line + length txt + 1)) (r_items (aresp s)) a).
    { eapply content_mono; [exact F|lia]. }
    assert (UNDEF : forall st0, (v_cmd v = T_NO_RESULT \/ (single_line_type (v_cmd v) /\ a <> [])) -> plain_line (v_tokens v) txt ->
      exists st mt' ev s',
       (do r <- Ok (st0, AT_UNDEFINED, [], set_resp s (Some (aresp s)));
        let '(st, mt', ev, s1) := r in
        match mt' with
        | AT_UNDEFINED =>
            match v_undef v txt with
            | PKT_OK => Ok (PKT_OK, mt', ev ++ [EvUndef txt], s1)
            | _ => Ok (PKT_INVALID_DATA, mt', (ev ++ [EvUndef txt]) ++ [EvDrop], set_resp (reset_buf cap s1) None)
            end
        | _ => Ok (st, mt', ev, s1)
        end) = Ok (st, mt', ev, s') /\
        ((st = PKT_INVALID_DATA /\ ev = [EvUndef txt; EvDrop] /\ rejects v a txt /\ (rx_dlen s = 0%nat -> fresh s')) \/
        (exists a', line_step v a txt ev a' /\ rx_buf s' = rx_buf s /\ rx_dlen s' = rx_dlen s /\
          items_rel (rx_buf s) (line + length txt + 1) (rx_resp s') a' /\
          (st = PKT_OK /\ (mt' = AT_SOLICITED -> a' = [] /\ rx_resp s' = None) \/ st = PKT_PENDING_DATA \/ st = PKT_PENDING_BUFFER)))).
    { intros st0 U PL. cbn [bind]. destruct (v_undef v txt) eqn:EU;
        (eexists _, _, _, _; split; [reflexivity|]); try (left; split; [reflexivity|]; split; [reflexivity|]; split; [split; [right; auto|congruence]|intro; apply fresh_reset; assumption]).
      right. exists a. split; [apply ls_unexpected_ok; [right; auto|exact EU]|]. split; [reflexivity|]. split; [reflexivity|].
      split; [exact F0|]. left. split; [reflexivity|discriminate]. }
    destruct (process_line_spec (v_tokens v) line txt (aresp s) (v_cmd2 v) HT) as [[C E]|[[C E]|[C E]]]; rewrite E; cbn [bind].
    + cbn [r_items r_status]. rewrite (deliver_rel _ _ _ _ LB F). cbn [bind]. eexists _, _, _, _. split; [reflexivity|]. right.
      exists []. split; [apply ls_success; assumption|]. repeat split; auto.
    + cbn [r_items r_status]. rewrite (deliver_rel _ _ _ _ LB F). cbn [bind]. eexists _, _, _, _. split; [reflexivity|]. right.
      exists []. split; [apply ls_error; assumption|]. repeat split; auto.
    + rewrite HC. destruct (v_cmd v) eqn:EC; cbn [processIntermediateResponse]; cbv zeta.
      * apply UNDEF; [left; reflexivity|exact C].
      * destruct (r_items (aresp s)) eqn:EI.
        -- cbn [bind]. eexists _, _, _, _. split; [reflexivity|]. right. exists [txt].
           assert (a = []) by (inversion F; reflexivity). subst a.
           split; [apply ls_single; [rewrite EC; exact LC|exact C|left; exact EC|reflexivity]|]. split; [reflexivity|]. split; [reflexivity|].
           split; [exact F1|]. right; left; reflexivity.
        -- apply UNDEF; [|exact C]. right. split; [left; reflexivity|]. intro; subst a. inversion F.
      * destruct (r_items (aresp s)) eqn:EI.
        -- cbn [bind]. eexists _, _, _, _. split; [reflexivity|]. right. exists [txt].
           assert (a = []) by (inversion F; reflexivity). subst a.
           split; [apply ls_single; [rewrite EC; exact LC|exact C|right; exact EC|reflexivity]|]. split; [reflexivity|]. split; [reflexivity|].
           split; [exact F1|]. right; left; reflexivity.
        -- apply UNDEF; [|exact C]. right. split; [right; reflexivity|]. intro; subst a. inversion F.
      * cbn [bind]. eexists _, _, _, _. split; [reflexivity|]. right. exists (a ++ [txt]).
        split; [apply ls_multi; [rewrite EC; exact LC|exact C|left; exact EC]|]. split; [reflexivity|]. split; [reflexivity|]. split; [exact F1|]. right; left; reflexivity.
      * cbn [bind]. eexists _, _, _, _. split; [reflexivity|]. right. exists (a ++ [txt]).
        split; [apply ls_multi; [rewrite EC; exact LC|exact C|right; left; exact EC]|]. split; [reflexivity|]. split; [reflexivity|]. split; [exact F1|]. right; left; reflexivity.
      * cbn [bind]. eexists _, _, _, _. split; [reflexivity|]. right. exists (a ++ [txt]).
        split; [apply ls_multi; [rewrite EC; exact LC|exact C|right; right; exact EC]|]. split; [reflexivity|]. split; [reflexivity|]. split; [exact F1|]. right; right; reflexivity.
      * cbn [r_items r_status]. rewrite (deliver_rel _ (line + length txt + 1) _ (a ++ [txt])); [|destruct HB as [BL _]; lia|exact F1].
        cbn [bind]. eexists _, _, _, _. split; [reflexivity|]. right. exists [].
        split; [apply ls_no_code; [rewrite EC; exact LC|exact C|left; exact EC]|]. repeat split; auto.
      * cbn [r_items r_status]. rewrite (deliver_rel _ (line + length txt + 1) _ (a ++ [txt])); [|destruct HB as [BL _]; lia|exact F1].
        cbn [bind]. eexists _, _, _, _. split; [reflexivity|]. right. exists [].
        split; [apply ls_no_code; [rewrite EC; exact LC|exact C|right; exact EC]|]. repeat split; auto.
      * exfalso. destruct LC as (_ & Q & _). congruence.
  - cbn [bind]. eexists _, _, _, _. split; [reflexivity|]. right. exists a. split; [apply ls_urc, C2; reflexivity|]. split; [reflexivity|]. split; [reflexivity|].
    split; [eapply items_agree; [exact HI|apply agree_refl|lia]|]. left. split; [reflexivity|discriminate].
  - cbn [bind]. destruct (v_undef v txt) eqn:EU; (eexists _, _, _, _; split; [reflexivity|]); try (left; split; [reflexivity|]; split; [reflexivity|]; split; [split; [left; apply C3; reflexivity|congruence]|intro; apply fresh_reset; assumption]).
    right. exists a. split; [apply ls_unexpected_ok; [left; apply C3; reflexivity|exact EU]|]. split; [reflexivity|]. split; [reflexivity|].
    split; [eapply items_agree; [exact HI|apply agree_refl|lia]|]. left. split; [reflexivity|discriminate].
Qed.

(** ** One pass *)
Lemma items_resp_ok m b r a : items_rel m b r a -> (b <= cap)%nat -> resp_ok cap r.
Proof.
  destruct r as [r|]; [|intros; exact I]. cbn. intros F L. induction F as [|i c l a H F IH]; constructor; [|exact IH].
  unfold content_at in H. unfold item_ok. destruct (it_raw i); [destruct H as (_ & _ & ?); lia|destruct H as [_ ?]; split; [lia|exact I]].
Qed.
Lemma wr_id (m : list N) p n : (p + n <= length m)%nat -> wr m p (firstn n (skipn p m)) = Ok m.
Proof.
  intro H. assert (L : length (firstn n (skipn p m)) = n) by (rewrite firstn_length, skipn_length; lia).
  rewrite wr_ok by (rewrite L; exact H). rewrite L. f_equal.
  transitivity (firstn p m ++ skipn p m); [|apply firstn_skipn]. f_equal.
  replace (skipn (p + n) m) with (skipn n (skipn p m)) by (rewrite skipn_skipn'; reflexivity). apply firstn_skipn.
Qed.
Lemma set_buf_id s : set_buf s (rx_buf s) = s. Proof. destruct s; reflexivity. Qed.

(** The state between reads: the left-over bytes [lft] wait at the read pointer. *)
Definition parked (s : rx) (lft : str) (a : list (list N)) : Prop :=
  buf_ok cap (rx_buf s) /\ (off s + rx_partial s <= cap)%nat /\ firstn (rx_partial s) (skipn (off s) (rx_buf s)) = lft /\
  items_rel (rx_buf s) (off s) (rx_resp s) a /\ (rx_dlen s <> 0%nat -> rx_resp s <> None).

Lemma find_none_text m p n : (p + n <= length m)%nat -> find_eol m p n = Ok None -> line_text (firstn n (skipn p m)).
Proof.
  intros H E. destruct (find_eol_spec m n p H) as [(i & Q & _)|[_ C]]; [rewrite E in Q; discriminate|].
  apply Forall_nth. intros i d L. rewrite firstn_length, skipn_length in L. rewrite nth_firstn, nth_skipn by lia.
  apply is_eol_false. rewrite (nth_indep _ d 0%N) by lia. apply C. lia.
Qed.
Lemma find_some_split m p n i : (p + n <= length m)%nat -> find_eol m p n = Ok (Some i) ->
  exists l e, firstn n (skipn p m) = l ++ e :: firstn (n - S i) (skipn (p + S i) m) /\ line_text l /\ eol e /\ length l = i /\ (i < n)%nat /\
    cstr_get (upd m (p + i) 0%N) p = Some l.
Proof.
  intros H E. destruct (find_eol_spec m n p H) as [(j & Q & A & B & C)|[Q _]]; [|rewrite E in Q; discriminate].
  rewrite E in Q; inversion Q; subst j. exists (firstn i (skipn p m)), (nth (p + i) m 0%N).
  assert (L : length (firstn i (skipn p m)) = i) by (rewrite firstn_length, skipn_length; lia).
  split; [|split; [|split; [apply is_eol_iff; exact B|split; [exact L|split; [exact A|apply line_at; [lia|exact C]]]]]].
  - replace n with (i + S (n - S i))%nat at 1 by lia. rewrite firstn_add, skipn_skipn'. f_equal.
    rewrite (slice_cons m (p + i) (n - S i) 0%N) by lia. do 3 f_equal. lia.
  - apply Forall_nth. intros j d LJ. rewrite L in LJ. rewrite nth_firstn, nth_skipn by lia.
    apply is_eol_false. rewrite (nth_indep _ d 0%N) by lia. apply C. exact LJ.
Qed.
Lemma skip_upd (m : list N) i v q : (i < q)%nat -> skipn q (upd m i v) = skipn q m.
Proof.
  revert i q; induction m as [|x m IH]; intros [|i] [|q] H; try lia; cbn [upd skipn]; [reflexivity..|]. apply IH. lia.
Qed.
Lemma text_unique l e r l' e' r' : line_text l -> line_text l' -> eol e -> eol e' -> l ++ e :: r = l' ++ e' :: r' -> l = l' /\ e = e' /\ r = r'.
Proof.
  revert l'; induction l as [|c l IH]; intros [|c' l'] T T' E E' Q; cbn [app] in Q; inversion Q; subst.
  - auto.
  - inversion T'; subst. contradiction.
  - inversion T; subst. contradiction.
  - inversion T; inversion T'; subst. destruct (IH l') as (-> & -> & ->); auto.
Qed.

Lemma deliver_mono_in (x : event) l1 l2 : In x l1 -> In x (l1 ++ l2).
Proof. intro; apply in_or_app; auto. Qed.

Lemma pass_step env t h s line n sod lft a :
  stream_env env -> holds s line n lft a -> rx_dlen s = 0%nat ->
  exists ev out sod', pass cap (env t h) s line n sod = Ok (ev, out, sod') /\
    (((exists s', out = Stop s' /\ fresh s') /\ forall F, refused (env 0%nat) (h, a, 0%nat, lft ++ F) (h ++ ev)) \/
     match out with
     | Next s' line' n' => (n' < n)%nat /\ rx_dlen s' = 0%nat /\ exists a' lft', holds s' line' n' lft' a' /\
         forall F, stream_steps (env 0%nat) (h, a, 0%nat, lft ++ F) (h ++ ev, a', 0%nat, lft' ++ F)
     | Stop s' => exists a' lft', parked s' lft' a' /\ settled (env 0%nat (h ++ ev)) (rx_dlen s') lft' /\
         forall F, stream_steps (env 0%nat) (h, a, 0%nat, lft ++ F) (h ++ ev, a', rx_dlen s', lft' ++ F)
     end).
Proof.
  intros HE (HB & HL & HS & HI) HD. destruct (HE t h) as (ET & VI & VS & VH & VT & VP & VC & VD & VA).
  rewrite ET in *. set (v := env 0%nat h) in *. pose proof HB as (BL & BZ).
  unfold pass. destruct (skip_holds (rx_buf s) n line lft) as (l1 & n1 & -> & S1 & E1 & G1); [lia|exact HS|]. cbn [bind].
  assert (HI1 : items_rel (rx_buf s) l1 (rx_resp s) a) by (eapply items_agree; [exact HI|apply agree_refl|exact G1]).
  unfold preprocessInputBuffer. rewrite VI. cbn [bind].
  set (S0 := drop_eol lft) in *.
  assert (LS0 : length S0 = n1) by (rewrite <- S1, firstn_length, skipn_length; lia).
  destruct (n1 =? 0)%nat eqn:EN1.
  { unfold preprocessLine. rewrite EN1. cbn [bind]. apply Nat.eqb_eq in EN1. eexists _, _, _. split; [reflexivity|]. right. exists a, []. 
    assert (S0E : S0 = []) by (destruct S0; [reflexivity|cbn [length] in LS0; lia]).
    split; [|split].
    - split; [exact HB|]. split; [cbn; lia|]. split; [reflexivity|]. split; [exact HI1|]. cbn. congruence.
    - right. split; [exact HD|left; reflexivity].
    - intro F. rewrite app_nil_r. cbn [set_left rx_dlen]. rewrite HD. rewrite <- S0E. apply skip_steps. }
  apply Nat.eqb_neq in EN1.
  assert (HEAD : exists c t0, S0 = c :: t0 /\ ~ eol c).
  { destruct (drop_eol_head lft) as [Q|Q]; [fold S0 in Q; rewrite Q in LS0; cbn [length] in LS0; lia|exact Q]. }
  (* outcome of the data callback *)
  assert (PRE : exists out2 sod2,
    preprocessLine cap v s l1 n1 sod = Ok (out2, sod2) /\
    ((out2 = Next s l1 n1 /\ not_data v S0 /\ ((exists c, In c S0 /\ eol c) -> forall F, not_data v (S0 ++ F))) \/
     (out2 = Stop (set_left s (Some l1) n1) /\ wants_more v S0) \/
     (exists f o d, v_data v = Some f /\ out2 = Next (set_dlen s d) l1 n1 /\ sod2 = Some (l1 + o)%nat /\ (o <= n1)%nat /\ d <> 0%nat /\
        (exists c, In c (firstn o S0) /\ eol c) /\ f S0 = (PKT_OK, Some o, Some d, S0) /\ forall F, announces v (S0 ++ F) o d))).
  { unfold preprocessLine. rewrite VS. apply Nat.eqb_neq in EN1. rewrite EN1. apply Nat.eqb_neq in EN1. destruct (v_data v) as [f|] eqn:EF.
    2:{ eexists _, _. split; [reflexivity|]. left. split; [reflexivity|]. unfold not_data. auto. }
    rewrite rd_ok by lia. cbn [bind]. rewrite S1.
    destruct (VD f eq_refl S0) as [(o & d & EQ & DN & OL & OC & ST)|[(o & EQ & ST)|(o & EQ)]]; rewrite EQ;
      rewrite <- S1, wr_id by lia; rewrite S1; cbn [bind]; cbv zeta; rewrite set_buf_id; cbn [handleCallbackResult].
    - eexists _, _. split; [reflexivity|]. right. right. exists f, o, d. split; [reflexivity|]. split; [reflexivity|]. split; [reflexivity|]. split; [lia|].
      split; [exact DN|]. split; [exact OC|]. split; [exact EQ|]. intro F. exists f. split; [exact EF|]. split; [apply ST|exact DN].
    - eexists _, _. split; [reflexivity|]. left. split; [reflexivity|]. split; [right; exists f, o; auto|].
      intros C F. right. destruct (ST C F) as (o' & Q). exists f, o'. auto.
    - eexists _, _. split; [reflexivity|]. right. left. split; [reflexivity|]. exists f, o. auto. }
  destruct PRE as (out2 & sod2 & EQ & PRE). rewrite EQ. clear EQ. cbn [bind].
  destruct PRE as [(-> & ND & NDF)|[(-> & WM)|(f & o & d & EF & -> & -> & OL & DN & OC & FS & AN)]].
  - (* no data *)
    destruct (find_eol (rx_buf s) l1 n1) as [[i|]| |] eqn:FE; cbn [bind];
      [| |exfalso; destruct (find_eol_spec (rx_buf s) n1 l1 ltac:(lia)) as [(? & Q & _)|[Q _]]; rewrite FE in Q; discriminate
         |exfalso; destruct (find_eol_spec (rx_buf s) n1 l1 ltac:(lia)) as [(? & Q & _)|[Q _]]; rewrite FE in Q; discriminate].
    2:{ eexists _, _, _. split; [reflexivity|]. right. exists a, S0. split; [|split].
        - split; [exact HB|]. split; [cbn; lia|]. split; [exact S1|]. split; [exact HI1|]. cbn; congruence.
        - right. split; [exact HD|]. right. split; [exact HEAD|]. left. rewrite <- S1. apply find_none_text; [lia|exact FE].
        - intro F. rewrite app_nil_r. cbn [set_left rx_dlen]. rewrite HD. apply skip_steps. }
    destruct (find_some_split (rx_buf s) l1 n1 i ltac:(lia) FE) as (l & e & SP & LT & EE & LI & IN & CS).
    rewrite S1 in SP. rewrite st_ok by lia. cbn [bind]. rewrite CS. cbn [bind]. rewrite <- LI in *.
    set (m := upd (rx_buf s) (l1 + length l) 0%N) in *. set (s3 := set_buf s m).
    assert (BM : buf_ok cap m) by (apply buf_st; exact HB).
    assert (HI3 : items_rel (rx_buf s3) l1 (rx_resp s3) a).
    { eapply items_agree; [exact HI1| |apply le_n]. eapply agree_le; [apply agree_upd|lia]. }
    assert (LN : l <> []).
    { intro Q. destruct HEAD as (c & t0 & Q1 & Q2). rewrite Q1, Q in SP. cbn [app] in SP. inversion SP; subst. contradiction. }
    assert (NDL : forall F, not_data v (l ++ e :: firstn (n1 - S (length l)) (skipn (l1 + S (length l)) (rx_buf s)) ++ F)).
    { intro F. replace (l ++ e :: firstn (n1 - S (length l)) (skipn (l1 + S (length l)) (rx_buf s)) ++ F) with (S0 ++ F) by (rewrite SP, <- app_assoc; reflexivity).
      apply NDF. exists e. split; [rewrite SP; apply in_or_app; right; left; reflexivity|exact EE]. }
    assert (STEP : forall ev a' F, line_step v a l ev a' ->
       stream_steps (env 0%nat) (h, a, 0%nat, lft ++ F) (h ++ ev, a', 0%nat, firstn (n1 - S (length l)) (skipn (l1 + S (length l)) (rx_buf s)) ++ F)).
    { intros ev a' F LSP. eapply steps_trans; [apply skip_steps|]. apply steps_one. fold S0. rewrite SP, <- app_assoc. cbn [app].
      apply ss_line; [exact LN|exact LT|exact EE|apply NDL|exact LSP]. }
    assert (SKM : skipn (l1 + S (length l)) m = skipn (l1 + S (length l)) (rx_buf s)) by (apply skip_upd; lia).
    destruct (handleMsgType_step v s3 l1 l a VT VP VC VH BM ltac:(lia) CS HI3) as (st & mt' & ev & s4 & -> & HM). cbn [bind].
    destruct HM as [(-> & -> & DR & FR)|(a' & LSP & EB & D4 & IR & HM)].
    { eexists _, _, _. split; [reflexivity|]. left. split; [eexists; split; [reflexivity|apply FR; exact HD]|]. intro F.
      exists h, a, l, e, (firstn (n1 - S (length l)) (skipn (l1 + S (length l)) (rx_buf s)) ++ F).
      split; [reflexivity|]. split; [exact LN|]. split; [exact LT|]. split; [exact EE|]. split; [exact DR|]. split; [apply NDL|].
      eapply steps_trans; [apply skip_steps|]. fold S0. rewrite SP, <- app_assoc. constructor. }
    change (rx_buf s3) with m in EB, IR. change (rx_dlen s3) with (rx_dlen s) in D4. rewrite HD in D4.
    assert (B4 : buf_ok cap (rx_buf s4)) by (rewrite EB; exact BM).
    assert (GN : forall st0, (st0 = PKT_OK -> mt' = AT_SOLICITED -> a' = [] /\ rx_resp s4 = None) ->
       exists s' line' n', getNextLine s4 l1 n1 (length l) st0 mt' = Ok (Next s' line' n') /\ (n' < n)%nat /\ rx_dlen s' = 0%nat /\ exists a' lft', holds s' line' n' lft' a' /\
         forall F, stream_steps (env 0%nat) (h, a, 0%nat, lft ++ F) (h ++ ev, a', 0%nat, lft' ++ F)).
    { intros st0 Q. pose proof B4 as (BL4 & _). unfold getNextLine. replace (n1 <? length l + 1)%nat with false by (symmetry; apply Nat.ltb_ge; lia).
      rewrite rd_ok by lia. cbn [bind]. set (dd := firstn _ _).
      assert (DL : length dd = (n1 - (length l + 1))%nat) by (unfold dd; rewrite firstn_length, skipn_length; lia).
      assert (W : wr (rx_buf s4) 0 dd = Ok (firstn 0 (rx_buf s4) ++ dd ++ skipn (0 + length dd) (rx_buf s4))) by (apply wr_ok; lia).
      set (m0 := firstn 0 (rx_buf s4) ++ dd ++ skipn (0 + length dd) (rx_buf s4)) in *.
      set (s5 := set_left s4 (Some (l1 + (length l + 1))%nat) (n1 - (length l + 1))).
      assert (PLAIN : exists s' line' n', Ok (Next s5 (l1 + (length l + 1)) (n1 - (length l + 1))) = Ok (Next s' line' n') /\ (n' < n)%nat /\ rx_dlen s' = 0%nat /\ exists a' lft', holds s' line' n' lft' a' /\
         forall F, stream_steps (env 0%nat) (h, a, 0%nat, lft ++ F) (h ++ ev, a', 0%nat, lft' ++ F)).
      { eexists _, _, _. split; [reflexivity|]. split; [lia|]. split; [exact D4|]. eexists a', _. split; [|intro F; apply STEP; exact LSP].
        split; [exact B4|]. split; [lia|]. unfold s5. cbn [set_left rx_buf rx_resp]. rewrite EB. split.
        - replace (l1 + (length l + 1))%nat with (l1 + S (length l))%nat by lia. rewrite SKM. f_equal. lia.
        - replace (l1 + (length l + 1))%nat with (l1 + length l + 1)%nat by lia. exact IR. }
      destruct st0; try exact PLAIN. destruct mt'; try exact PLAIN.
      rewrite W. cbn [bind]. destruct (Q eq_refl eq_refl) as [-> RN].
      eexists _, _, _. split; [reflexivity|]. split; [lia|]. split; [exact D4|]. eexists [], _. split; [|intro F; apply STEP; exact LSP].
      split; [eapply buf_wr; [exact B4|exact W|lia]|]. split; [lia|]. cbn [set_left set_buf rx_buf rx_resp]. split.
      - pose proof (wr_slice _ _ _ _ W) as WS. rewrite DL in WS. cbn [skipn] in WS |- *. rewrite WS. unfold dd. rewrite EB.
        replace (l1 + (length l + 1))%nat with (l1 + S (length l))%nat by lia. rewrite SKM. f_equal. lia.
      - rewrite RN. reflexivity. }
    assert (FIN : forall st0, (st0 = PKT_OK -> mt' = AT_SOLICITED -> a' = [] /\ rx_resp s4 = None) ->
      exists ev0 out sod', (do x <- getNextLine s4 l1 n1 (length l) st0 mt'; Ok (ev, x, sod2)) = Ok (ev0, out, sod') /\
      (((exists s', out = Stop s' /\ fresh s') /\ forall F, refused (env 0%nat) (h, a, 0%nat, lft ++ F) (h ++ ev0)) \/
       match out with
       | Next s' line' n' => (n' < n)%nat /\ rx_dlen s' = 0%nat /\ exists a' lft', holds s' line' n' lft' a' /\
           forall F, stream_steps (env 0%nat) (h, a, 0%nat, lft ++ F) (h ++ ev0, a', 0%nat, lft' ++ F)
       | Stop s' => exists a' lft', parked s' lft' a' /\ settled (env 0%nat (h ++ ev0)) (rx_dlen s') lft' /\
           forall F, stream_steps (env 0%nat) (h, a, 0%nat, lft ++ F) (h ++ ev0, a', rx_dlen s', lft' ++ F)
       end)).
    { intros st0 Q. destruct (GN st0 Q) as (s' & line' & n' & -> & R). cbn [bind]. eexists _, _, _. split; [reflexivity|]. right. exact R. }
    destruct HM as [(-> & HM)|[-> | -> ]].
    + apply FIN. intros _. exact HM.
    + apply FIN. discriminate.
    + rewrite D4. cbn [Nat.eqb negb]. apply FIN. discriminate.
  - (* the callback needs more bytes *)
    eexists _, _, _. split; [reflexivity|]. right. exists a, S0. split; [|split].
    + split; [exact HB|]. split; [cbn; lia|]. split; [exact S1|]. split; [exact HI1|]. cbn; congruence.
    + right. split; [exact HD|]. right. split; [exact HEAD|]. right. rewrite app_nil_r. exact WM.
    + intro F. rewrite app_nil_r. cbn [set_left rx_dlen]. rewrite HD. apply skip_steps.
  - (* a payload is announced *)
    destruct (VA f S0 PKT_OK (Some o) (pred d) S0 VS EF) as (l & e & rest & SP & LT & EE & AU & AC & A6 & A7).
    { rewrite FS. do 3 f_equal. destruct d; [contradiction|reflexivity]. }
    cbn [set_dlen rx_buf rx_dlen rx_resp].
    destruct (find_eol_text (rx_buf s) l1 n1 l e rest) as [FE FT]; [rewrite S1; exact SP|lia|exact LT|exact EE|].
    rewrite FE. cbn [bind].
    destruct (find_some_split (rx_buf s) l1 n1 (length l) ltac:(lia) FE) as (l' & e' & SP' & LT' & EE' & LI & IN & CS).
    rewrite S1, SP in SP'. destruct (text_unique _ _ _ _ _ _ LT LT' EE EE' SP') as (QQ1 & QQ2 & QQ3). subst l' e' rest. clear SP' LI LT' EE'.
    rewrite st_ok by lia. cbn [bind]. rewrite CS. cbn [bind].
    set (m := upd (rx_buf s) (l1 + length l) 0%N) in *. set (s3 := set_buf (set_dlen s d) m).
    assert (BM : buf_ok cap m) by (apply buf_st; exact HB). pose proof BM as (BML & _).
    assert (HI3 : items_rel m l1 (rx_resp s) a).
    { eapply items_agree; [exact HI1| |apply le_n]. eapply agree_le; [apply agree_upd|lia]. }
    assert (LN : l <> []).
    { intro Q. destruct HEAD as (c & t0 & Q1 & Q2). rewrite Q1, Q in SP. cbn [app] in SP. inversion SP; subst. contradiction. }
    assert (OG : (length l < o)%nat).
    { destruct (Nat.lt_ge_cases (length l) o) as [Q|Q]; [exact Q|]. exfalso. destruct OC as (c & C1 & C2).
      rewrite SP, firstn_app in C1. replace (o - length l)%nat with 0%nat in C1 by lia. cbn [firstn] in C1. rewrite app_nil_r in C1.
      assert (C3 : In c l) by (rewrite <- (firstn_skipn o l); apply in_or_app; left; exact C1). unfold line_text in LT. rewrite Forall_forall in LT. exact (LT c C3 C2). }
    destruct (handleMsgType_safe cap v (getMsgType (v_tokens v) (v_cmd v) l (v_prefix v)) s3 l1 l VT BM) as (st & mt' & ev & s4 & -> & _ & HP);
      [eapply items_resp_ok; [exact HI3|lia]|lia|].
    destruct (HP (proj2 (proj1 (classification _ _ _ _ AU)) AC) A7 A6) as (-> & -> & -> & ->). clear HP. cbn [bind].
    assert (LINE : forall F, stream_steps (env 0%nat) (h, a, 0%nat, lft ++ F) (h, a ++ [l], d, skipn o (S0 ++ F))).
    { intro F. eapply steps_trans; [apply skip_steps|]. apply steps_one. fold S0. specialize (AN F). rewrite SP, <- app_assoc in AN |- *. cbn [app] in AN |- *.
      apply ss_announce; [exact LN|exact LT|exact EE|exact AN]. }
    set (r := match rx_resp s3 with Some r => r | None => AtResponseNew end).
    assert (FR : Forall2 (content_at m (l1 + o)) (r_items (saveATData r l1)) (a ++ [l])).
    { apply Forall2_app; [|constructor; [|constructor]].
      - eapply content_mono; [apply items_resp; exact HI3|lia].
      - split; cbn; [exact CS|lia]. }
    assert (SKO : skipn (l1 + o) m = skipn (l1 + o) (rx_buf s)) by (apply skip_upd; lia).
    assert (AV : firstn (n1 - o) (skipn (l1 + o) m) = skipn o S0).
    { rewrite SKO, <- S1, skipn_firstn_comm, skipn_skipn'. reflexivity. }
    cbn [set_resp rx_dlen]. change (rx_dlen s3) with d. destruct (d =? 0)%nat eqn:Z; [apply Nat.eqb_eq in Z; contradiction|]. cbn [negb].
    unfold handleData. replace (l1 + o <? l1)%nat with false by (symmetry; apply Nat.ltb_ge; lia).
    replace (l1 + n1 <? l1 + o)%nat with false by (symmetry; apply Nat.ltb_ge; lia). cbn [orb set_resp rx_resp rx_dlen]. change (rx_dlen s3) with d.
    replace (n1 - (l1 + o - l1))%nat with (n1 - o)%nat by lia.
    destruct (d <=? n1 - o)%nat eqn:EA; cbn [bind].
    + apply Nat.leb_le in EA. set (pl := firstn d (skipn o S0)).
      assert (LPL : length pl = d) by (unfold pl; rewrite firstn_length, skipn_length; lia).
      assert (PM : firstn d (skipn (l1 + o) m) = pl).
      { unfold pl. rewrite <- AV, firstn_firstn. f_equal. lia. }
      assert (PAY : forall F, stream_steps (env 0%nat) (h, a, 0%nat, lft ++ F) (h ++ [], (a ++ [l]) ++ [pl], 0%nat, skipn (o + d) S0 ++ F)).
      { intro F. rewrite app_nil_r. eapply steps_trans; [apply LINE|]. apply steps_one.
        replace (skipn o (S0 ++ F)) with (pl ++ (skipn (o + d) S0 ++ F)).
        - rewrite <- LPL at 1. apply ss_payload. intro Q. rewrite Q in LPL. cbn [length] in LPL. lia.
        - unfold pl. rewrite app_assoc. rewrite <- (skipn_skipn' S0 d o), firstn_skipn, skipn_app. f_equal.
          replace (o - length S0)%nat with 0%nat by lia. reflexivity. }
      assert (FR2 : Forall2 (content_at m (l1 + o + d)) (r_items (saveRawData (saveATData r l1) (l1 + o) d)) ((a ++ [l]) ++ [pl])).
      { apply Forall2_app; [eapply content_mono; [exact FR|lia]|constructor; [|constructor]]. unfold content_at. cbn [it_raw it_ptr].
        split; [symmetry; exact LPL|]. split; [exact PM|lia]. }
      assert (RST : firstn (n1 - o - d) (skipn (l1 + o + d) m) = skipn (o + d) S0).
      { rewrite <- (skipn_skipn' m d (l1 + o)), <- (skipn_skipn' S0 d o), <- AV, skipn_firstn_comm. reflexivity. }
      destruct (n1 - o - d =? 0)%nat eqn:EZ; (eexists _, _, _; split; [reflexivity|]; right).
      * apply Nat.eqb_eq in EZ. exists ((a ++ [l]) ++ [pl]), (skipn (o + d) S0).
        assert (SE : skipn (o + d) S0 = []) by (apply skipn_all2; lia).
        split; [|split; [|exact PAY]].
        -- split; [exact BM|]. split; [cbn; lia|]. split; [exact RST|]. split; [exact FR2|]. cbn; congruence.
        -- right. split; [reflexivity|]. left. exact SE.
      * apply Nat.eqb_neq in EZ. split; [lia|]. split; [reflexivity|]. exists ((a ++ [l]) ++ [pl]), (skipn (o + d) S0). split; [|exact PAY].
        split; [exact BM|]. split; [lia|]. split; [exact RST|exact FR2].
    + apply Nat.leb_gt in EA. cbn [Nat.eqb]. eexists _, _, _. split; [reflexivity|]. right. exists (a ++ [l]), (skipn o S0). split; [|split].
      * split; [exact BM|]. split; [cbn; lia|]. split; [exact AV|]. split; [exact FR|]. cbn; congruence.
      * left. cbn. split; [exact DN|]. rewrite skipn_length. lia.
      * intro F. rewrite app_nil_r. cbn. replace (skipn o S0 ++ F) with (skipn o (S0 ++ F)); [apply LINE|].
        rewrite skipn_app. replace (o - length S0)%nat with 0%nat by lia. reflexivity.
Qed.

(** ** The loop *)
Lemma loop_history fuel env : forall t h s line n sod t' h' s', handleAllReceived cap fuel env t h s line n sod = Ok (t', h', s') -> exists x, h' = h ++ x.
Proof.
  induction fuel as [|fuel IH]; intros t h s line n sod t' h' s' E; [discriminate|]. cbn [handleAllReceived] in E.
  destruct (pass cap (env t h) s line n sod) as [[[ev out] sod']| |]; cbn [bind] in E; [|discriminate|discriminate].
  destruct out as [s1|s1 l1 n1]; [inversion E; subst; eauto|]. apply IH in E. destruct E as (x & ->). exists (ev ++ x). symmetry. apply app_assoc.
Qed.
Lemma refused_before env X Y h : stream_steps env X Y -> refused env Y h -> refused env X h.
Proof.
  intros SS (h0 & a0 & l & e & S & A & B & C & D & E & F & G). exists h0, a0, l, e, S. repeat (split; [assumption|]). eapply steps_trans; eassumption.
Qed.
Lemma loop_step env : stream_env env -> forall fuel t h s line n sod t' h' s' lft a,
  holds s line n lft a -> rx_dlen s = 0%nat -> handleAllReceived cap fuel env t h s line n sod = Ok (t', h', s') ->
  (fresh s' /\ forall F, refused (env 0%nat) (h, a, 0%nat, lft ++ F) h') \/
  exists a' lft', parked s' lft' a' /\ settled (env 0%nat h') (rx_dlen s') lft' /\
    forall F, stream_steps (env 0%nat) (h, a, 0%nat, lft ++ F) (h', a', rx_dlen s', lft' ++ F).
Proof.
  intro HE. induction fuel as [|fuel IH]; intros t h s line n sod t' h' s' lft a HH HD E; [discriminate|]. cbn [handleAllReceived] in E.
  destruct (pass_step env t h s line n sod lft a HE HH HD) as (ev & out & sod' & EP & R). rewrite EP in E. cbn [bind] in E.
  destruct out as [s1|s1 l1 n1].
  - inversion E; subst. destruct R as [((s2 & Q & FR) & R)|R]; [inversion Q; subst; left; split; [exact FR|exact R]|right; exact R].
  - destruct R as [((s2 & Q & FR) & R)|(_ & D1 & a1 & lft1 & H1 & S1)].
    + discriminate.
    + destruct (IH _ _ _ _ _ _ _ _ _ _ _ H1 D1 E) as [Q|(a' & lft' & P & ST & SS)].
      * left. split; [apply Q|]. intro F. eapply refused_before; [apply S1|apply Q].
      * right. exists a', lft'. split; [exact P|]. split; [exact ST|]. intro F. eapply steps_trans; [apply S1|apply SS].
Qed.

(** ** A read *)
Lemma slice_wr m q bs m' p k : wr m q bs = Ok m' -> q = (p + k)%nat ->
  firstn (k + length bs) (skipn p m') = firstn k (skipn p m) ++ bs.
Proof.
  intros W ->. rewrite firstn_add. f_equal.
  - rewrite (skip_first p k m' (p + k)), (skip_first p k m (p + k)) by lia. rewrite (agree_wr _ _ _ _ W). reflexivity.
  - rewrite skipn_skipn'. eapply wr_slice. exact W.
Qed.
Lemma slice_upd m i v p n : (p + n <= i)%nat -> firstn n (skipn p (upd m i v)) = firstn n (skipn p m).
Proof.
  intro H. rewrite (skip_first p n (upd m i v) i), (skip_first p n m i) by lia. rewrite <- (agree_upd m i v). reflexivity.
Qed.

Lemma readline_step s recv lft a : parked s lft a -> room cap s -> recv_contract recv ->
  exists pl bytes s1, ReadLine cap s recv = Ok (pl, bytes, s1) /\ rx_dlen s1 = rx_dlen s /\ rx_resp s1 = rx_resp s /\
    ((bytes = 0%nat /\ recv (offered cap s) = [] /\ parked s1 lft a) \/
     (exists p, pl = Some p /\ (0 < bytes)%nat /\ holds s1 p bytes (lft ++ recv (offered cap s)) a)).
Proof.
  intros (HB & HL & HS & HI & HD) RM RC. unfold ReadLine. unfold room, offered in *. fold (off s) in *. fold (compacts s).
  assert (S1 : exists s1, (if compacts s then
              do d <- rd (rx_buf s) (off s) (rx_partial s);
              do m <- wr (rx_buf s) 0 d;
              do m' <- st m (rx_partial s) 0%N;
              Ok (set_left (set_buf s m') (Some 0%nat) (rx_partial s))
            else Ok s) = Ok s1 /\ rx_partial s1 = rx_partial s /\ parked s1 lft a /\ rx_resp s1 = rx_resp s /\ rx_dlen s1 = rx_dlen s /\
            off s1 = (if compacts s then 0 else off s)%nat).
  { destruct (compacts s) eqn:EC.
    2:{ exists s. repeat split; auto; apply HB. }
    assert (RN : rx_resp s = None) by (unfold compacts in EC; destruct (rx_resp s); [rewrite andb_false_r in EC; discriminate|reflexivity]).
    pose proof HB as [BL BZ]. rewrite rd_ok by lia. cbn [bind]. rewrite HS.
    assert (DL : length lft = rx_partial s) by (rewrite <- HS, firstn_length, skipn_length; lia).
    assert (W : wr (rx_buf s) 0 lft = Ok (firstn 0 (rx_buf s) ++ lft ++ skipn (0 + length lft) (rx_buf s))) by (apply wr_ok; lia).
    rewrite W. cbn [bind]. pose proof (wr_length _ _ _ _ W) as WL. rewrite st_ok by lia. cbn [bind].
    eexists. split; [reflexivity|]. split; [reflexivity|]. split; [|auto].
    split; [cbn; apply buf_st; eapply buf_wr; [exact HB|exact W|lia]|]. cbn [set_left set_buf rx_buf rx_partial rx_resp rx_dlen]. change (off (set_left _ (Some 0%nat) _)) with 0%nat.
    split; [lia|]. split.
    - rewrite slice_upd by lia. rewrite <- DL. eapply wr_slice. exact W.
    - rewrite RN in *. split; [exact HI|exact HD]. }
  destruct S1 as (s1 & -> & P1 & PK & R1 & D1 & O1). cbn [bind]. rewrite P1. clear HB HL HS HI HD.
  destruct PK as (HB & HL & HS & HI & HD). rewrite P1, O1 in *.
  change (match rx_ptr s with Some p => p | None => 0%nat end) with (off s).
  set (base := if compacts s then 0%nat else off s) in *.
  destruct (0 <? cap - rx_partial s - base)%nat eqn:EP.
  - apply Nat.ltb_lt in EP. pose proof (RC (cap - rx_partial s - base)%nat) as RL. set (bs := recv _) in *.
    pose proof HB as [BL BZ].
    assert (W : wr (rx_buf s1) (base + rx_partial s) bs = Ok (firstn (base + rx_partial s) (rx_buf s1) ++ bs ++ skipn (base + rx_partial s + length bs) (rx_buf s1))) by (apply wr_ok; lia).
    rewrite W. cbn [bind]. set (m := firstn _ _ ++ _) in *. pose proof (wr_length _ _ _ _ W) as WL.
    assert (BM : buf_ok cap m) by (eapply buf_wr; [exact HB|exact W|lia]).
    assert (SL : firstn (rx_partial s + length bs) (skipn base m) = lft ++ bs) by (rewrite <- HS; eapply slice_wr; [exact W|reflexivity]).
    assert (IM : items_rel m base (rx_resp s1) a).
    { eapply items_agree; [exact HI| |apply le_n]. eapply agree_le; [eapply agree_wr; exact W|lia]. }
    destruct (0 <? length bs)%nat eqn:EB.
    + apply Nat.ltb_lt in EB. rewrite st_ok by lia. cbn [bind]. eexists _, _, _. split; [reflexivity|]. cbn [set_left set_buf rx_buf rx_resp rx_dlen].
      split; [exact D1|]. split; [exact R1|]. right. exists base. split; [reflexivity|]. split; [lia|].
      split; [apply buf_st; exact BM|]. split; [lia|]. cbn [set_left set_buf rx_buf rx_resp rx_dlen]. split.
      * rewrite slice_upd by lia. rewrite Nat.add_comm. exact SL.
      * eapply items_agree; [exact IM| |apply le_n]. eapply agree_le; [apply agree_upd|lia].
    + apply Nat.ltb_ge in EB. assert (BE : bs = []) by (destruct bs; [reflexivity|cbn [length] in EB; lia]).
      eexists _, _, _. split; [reflexivity|]. split; [exact D1|]. split; [exact R1|]. left. split; [reflexivity|]. split; [exact BE|].
      split; [exact BM|]. cbn [set_buf rx_buf rx_partial rx_resp rx_dlen]. change (off (set_buf s1 m)) with (off s1). rewrite O1, P1.
      split; [exact HL|]. split; [|split; [exact IM|exact HD]]. rewrite BE, app_nil_r in SL. cbn [length] in SL. rewrite Nat.add_0_r in SL. exact SL.
  - apply Nat.ltb_ge in EP. destruct RM as [RM|[RP RR]]; [exfalso; lia|].
    eexists _, _, _. split; [reflexivity|]. split; [exact D1|]. split; [exact R1|]. left. split; [reflexivity|].
    pose proof (RC (cap - rx_partial s - base)%nat) as RL. split; [destruct (recv _); [reflexivity|cbn [length] in RL; lia]|].
    split; [exact HB|]. split; [cbn; lia|]. cbn [set_left rx_buf rx_partial rx_resp rx_dlen]. change (off (set_left s1 None 0)) with 0%nat.
    rewrite RP in HS. cbn [firstn] in HS |- *. split; [exact HS|]. split; [|exact HD]. rewrite R1, RR in HI |- *. exact HI.
Qed.

Lemma event_step env fuel t h s recv k t1 h1 s1 lft a : stream_env env -> parked s lft a -> settled (env 0%nat h) (rx_dlen s) lft -> room cap s -> recv_contract recv ->
  handleRxDataEvent cap fuel env t h s recv = Ok (k, t1, h1, s1) -> 
  (fresh s1 /\ forall F, refused (env 0%nat) (h, a, rx_dlen s, lft ++ recv (offered cap s) ++ F) h1) \/
  (exists a' lft', parked s1 lft' a' /\ settled (env 0%nat h1) (rx_dlen s1) lft' /\
    forall F, stream_steps (env 0%nat) (h, a, rx_dlen s, lft ++ recv (offered cap s) ++ F) (h1, a', rx_dlen s1, lft' ++ F)).
Proof.
  intros HE PK ST RM RC E. unfold handleRxDataEvent in E.
  destruct (readline_step s recv lft a PK RM RC) as (pl & bytes & s0 & ER & D0 & R0 & Q). rewrite ER in E. cbn [bind] in E.
  destruct Q as [(-> & BE & P0)|(p & -> & BP & H0)].
  { cbn [Nat.ltb Nat.leb] in E. inversion E; subst. right. exists a, lft. rewrite D0, BE. cbn [app].
    split; [exact P0|]. split; [exact ST|]. intro F. constructor. }
  replace (0 <? bytes)%nat with true in E by (symmetry; apply Nat.ltb_lt; lia).
  set (bs := recv (offered cap s)) in *.
  assert (HALL : forall s2 l2 n2 lft2 a2, holds s2 l2 n2 lft2 a2 -> rx_dlen s2 = 0%nat ->
     (do m <- st (rx_buf s2) (l2 + n2) 0%N; do q <- handleAllReceived cap fuel env t h (set_buf s2 m) l2 n2 None; let '(t', h', s3) := q in Ok (bytes, t', h', s3)) = Ok (k, t1, h1, s1) ->
     (fresh s1 /\ forall F, refused (env 0%nat) (h, a2, 0%nat, lft2 ++ F) h1) \/
     (exists a' lft', parked s1 lft' a' /\ settled (env 0%nat h1) (rx_dlen s1) lft' /\
       forall F, stream_steps (env 0%nat) (h, a2, 0%nat, lft2 ++ F) (h1, a', rx_dlen s1, lft' ++ F))).
  { intros s2 l2 n2 lft2 a2 (B2 & L2 & S2 & I2) D2 EQ. pose proof B2 as [BL _]. rewrite st_ok in EQ by lia. cbn [bind] in EQ.
    destruct (handleAllReceived cap fuel env t h _ l2 n2 None) as [[[t' h'] s']| |] eqn:EL; cbn [bind] in EQ; [|discriminate|discriminate].
    inversion EQ; subst. refine (loop_step env HE _ _ _ _ _ _ _ _ _ _ _ _ _ (_ : rx_dlen (set_buf s2 _) = 0%nat) EL); [|exact D2].
    split; [cbn; apply buf_st; exact B2|]. split; [exact L2|]. cbn. split; [rewrite slice_upd by lia; reflexivity|].
    eapply items_agree; [exact I2| |apply le_n]. eapply agree_le; [apply agree_upd|lia]. }
  destruct (rx_dlen s0 =? 0)%nat eqn:ED; cbn [negb bind] in E.
  - apply Nat.eqb_eq in ED. replace (0 <? bytes)%nat with true in E by (symmetry; apply Nat.ltb_lt; lia).
    destruct (HALL _ _ _ _ _ H0 ED E) as [[FX HX]|(a' & lft' & A & B & C)]; [left; split; [exact FX|]; intro F; rewrite <- D0, ED, app_assoc; apply HX|]. right. exists a', lft'. split; [exact A|]. split; [exact B|].
    intro F. rewrite <- D0, ED, app_assoc. apply C.
  - apply Nat.eqb_neq in ED. pose proof (holds_len _ _ _ _ _ H0) as LEN. destruct H0 as (B0 & L0 & S0 & I0).
    unfold handleData in E. rewrite Nat.ltb_irrefl in E. replace (p + bytes <? p)%nat with false in E by (symmetry; apply Nat.ltb_ge; lia). cbn [orb] in E.
    rewrite Nat.sub_diag, Nat.sub_0_r in E. destruct PK as (_ & _ & _ & _ & PD).
    destruct (rx_resp s0) as [r|] eqn:ER0; [|exfalso; apply PD; congruence].
    destruct (rx_dlen s0 <=? bytes)%nat eqn:EA; cbn [bind] in E.
    + apply Nat.leb_le in EA. set (d := rx_dlen s0) in *. set (pl := firstn d (lft ++ bs)).
      assert (LPL : length pl = d) by (unfold pl; rewrite firstn_length; lia).
      assert (PAY : forall F, stream_steps (env 0%nat) (h, a, d, lft ++ bs ++ F) (h, a ++ [pl], 0%nat, skipn d (lft ++ bs) ++ F)).
      { intro F. apply steps_one. rewrite app_assoc. rewrite <- (firstn_skipn d (lft ++ bs)) at 1. fold pl. rewrite <- app_assoc. rewrite <- LPL at 1.
        apply ss_payload. intro Q. rewrite Q in LPL. cbn [length] in LPL. lia. }
      assert (PM : firstn d (skipn p (rx_buf s0)) = pl) by (unfold pl; rewrite <- S0, firstn_firstn; f_equal; lia).
      assert (RST : firstn (bytes - d) (skipn (p + d) (rx_buf s0)) = skipn d (lft ++ bs)).
      { rewrite <- (skipn_skipn' (rx_buf s0) d p), <- S0, skipn_firstn_comm. reflexivity. }
      assert (FR2 : Forall2 (content_at (rx_buf s0) (p + d)) (r_items (saveRawData r p d)) (a ++ [pl])).
      { apply Forall2_app; [eapply content_mono; [exact I0|lia]|constructor; [|constructor]]. unfold content_at. cbn [it_raw it_ptr].
        split; [symmetry; exact LPL|]. split; [exact PM|lia]. }
      destruct (0 <? bytes - d)%nat eqn:EZ.
      * apply Nat.ltb_lt in EZ. 
        assert (HX : forall s2, s2 = set_left (set_dlen (set_resp s0 (Some (saveRawData r p d))) 0) (Some (p + d)%nat) (bytes - d) -> holds s2 (p + d) (bytes - d) (skipn d (lft ++ bs)) (a ++ [pl])).
        { intros s2 ->. split; [exact B0|]. split; [lia|]. split; [exact RST|exact FR2]. }
        destruct (HALL _ _ _ _ _ (HX _ eq_refl) eq_refl E) as [[FX HY]|(a' & lft' & A & B & C)].
        { left. split; [exact FX|]. intro F. rewrite <- D0. eapply refused_before; [apply PAY|apply HY]. }
        right. exists a', lft'. split; [exact A|]. split; [exact B|]. intro F. rewrite <- D0. eapply steps_trans; [apply PAY|apply C].
      * apply Nat.ltb_ge in EZ. inversion E; subst. right. exists (a ++ [pl]), (skipn d (lft ++ bs)).
        split; [|split].
        -- split; [exact B0|]. split; [cbn; lia|]. split; [exact RST|]. split; [exact FR2|]. cbn; congruence.
        -- right. split; [reflexivity|]. left. apply skipn_all2. lia.
        -- intro F. rewrite <- D0. apply PAY.
    + apply Nat.leb_gt in EA. cbn [Nat.ltb Nat.leb] in E. inversion E; subst. right. exists a, (lft ++ bs).
      split; [|split].
      * split; [exact B0|]. split; [cbn; lia|]. split; [exact S0|]. split; [cbn; rewrite ER0; exact I0|]. cbn. congruence.
      * left. cbn. split; [exact ED|]. lia.
      * intro F. rewrite <- D0, app_assoc. constructor.
Qed.

Lemma event_history env fuel t h s recv k t1 h1 s1 : handleRxDataEvent cap fuel env t h s recv = Ok (k, t1, h1, s1) -> exists x, h1 = h ++ x.
Proof.
  unfold handleRxDataEvent. destruct (ReadLine cap s recv) as [[[pl bytes] s0]| |]; cbn [bind]; [|discriminate|discriminate].
  assert (N : exists x, h = h ++ x) by (exists []; symmetry; apply app_nil_r).
  destruct (0 <? bytes)%nat; [|intro E; inversion E; subst; exact N]. destruct pl as [p|]; [|discriminate].
  destruct (if negb (rx_dlen s0 =? 0)%nat then _ else _) as [[[l2 n2] s2]| |]; cbn [bind]; [|discriminate|discriminate].
  destruct (0 <? n2)%nat; [|intro E; inversion E; subst; exact N].
  destruct (st _ _ _) as [m| |]; cbn [bind]; [|discriminate|discriminate].
  destruct (handleAllReceived cap fuel env t h _ l2 n2 None) as [[[t' h'] s']| |] eqn:EL; cbn [bind]; [|discriminate|discriminate].
  intro E; inversion E; subst. eapply loop_history. exact EL.
Qed.
Lemma run_history fuel env t h s cs t' h' s' : run cap fuel env t h s cs t' h' s' -> exists x, h' = h ++ x.
Proof.
  induction 1 as [t h s|t h s recv k t1 h1 s1 cs t2 h2 s2 RC RM EV RUN (x & ->)]; [exists []; symmetry; apply app_nil_r|].
  apply event_history in EV. destruct EV as (y & ->). exists (y ++ x). symmetry. apply app_assoc.
Qed.
Lemma fresh_parked s : fresh s -> parked s [] [].
Proof.
  intros (B & P & Q & D & R). unfold parked, off. rewrite P, Q, D, R. split; [exact B|]. split; [lia|]. split; [reflexivity|]. split; [reflexivity|]. congruence.
Qed.
Lemma run_step fuel env t h s cs t' h' s' : run cap fuel env t h s cs t' h' s' -> stream_env env -> forall lft a, parked s lft a -> settled (env 0%nat h) (rx_dlen s) lft ->
  chunks_processed (env 0%nat) h a (rx_dlen s) lft cs h'.
Proof.
  induction 1 as [t h s|t h s recv k t1 h1 s1 cs t2 h2 s2 RC RM EV RUN IH]; intros HE lft a PK ST.
  - eapply cp_all; [|exact ST]. cbn [concat]. rewrite app_nil_r. constructor.
  - destruct (event_step env fuel t h s recv k t1 h1 s1 lft a HE PK ST RM RC EV) as [[FR Q]|(a1 & lft1 & P1 & S1 & SS1)].
    + change (recv (offered cap s) :: cs) with ([recv (offered cap s)] ++ cs). eapply cp_refused; [discriminate| |].
      * cbn [concat]. apply Q.
      * assert (D1 : rx_dlen s1 = 0%nat) by apply FR. specialize (IH HE [] [] (fresh_parked _ FR)). rewrite D1 in IH. apply IH. right. split; [reflexivity|left; reflexivity].
    + specialize (IH HE lft1 a1 P1 S1). inversion IH as [? ? ? ? ? ? a' d' lft' SS ST'|? ? ? ? cs1 cs2 g ? NE RF CP]; subst.
      * eapply cp_all; [|exact ST']. cbn [concat]. eapply steps_trans; [apply SS1|exact SS].
      * change (recv (offered cap s) :: cs1 ++ cs2) with ((recv (offered cap s) :: cs1) ++ cs2). eapply cp_refused; [discriminate| |exact CP].
        cbn [concat]. eapply refused_before; [apply SS1|exact RF].
Qed.

Lemma fresh0 : fresh (rx0 cap).
Proof. split; [apply buf_zero|]. cbn. auto. Qed.

Lemma run_refines fuel env t cs t' h' s' : stream_env env -> run cap fuel env t [] (rx0 cap) cs t' h' s' ->
  chunks_processed (env 0%nat) [] [] 0%nat [] cs h'.
Proof.
  intros HE RUN. apply (run_step _ _ _ _ _ _ _ _ _ RUN HE [] []); [apply fresh_parked, fresh0|]. right; auto.
Qed.

(** ** The stream specification is deterministic, and settled or refusing states do not step *)
Lemma success_not_error tt l : success_line tt l -> error_line tt l -> False. Proof. intros A [B _]; auto. Qed.
Lemma line_step_det v a l ev a1 ev' a2 : line_step v a l ev a1 -> line_step v a l ev' a2 -> ev = ev' /\ a1 = a2.
Proof.
  assert (X1 : line_is_urc (v_tokens v) (v_cmd v) (v_prefix v) l -> line_of_command (v_tokens v) (v_cmd v) (v_prefix v) l -> False).
  { intros [A|[A [B|B]]] (C & D & E); auto. }
  assert (X2 : line_is_urc (v_tokens v) (v_cmd v) (v_prefix v) l -> line_is_unexpected (v_tokens v) (v_cmd v) l -> False).
  { intros [A|[A [B|B]]] (C & D & E); auto. }
  assert (X3 : line_of_command (v_tokens v) (v_cmd v) (v_prefix v) l -> line_is_unexpected (v_tokens v) (v_cmd v) l -> False).
  { intros (C & D & E) (F & G & I); auto. }
  assert (X4 : success_line (v_tokens v) l -> plain_line (v_tokens v) l -> False) by (intros A [B _]; auto).
  assert (X5 : success_line (v_tokens v) l -> error_line (v_tokens v) l -> False) by (apply success_not_error).
  assert (X6 : error_line (v_tokens v) l -> plain_line (v_tokens v) l -> False) by (intros [_ A] [_ B]; auto).
  assert (T1 : single_line_type (v_cmd v) -> multi_line_type (v_cmd v) -> False) by (intros [-> | -> ] [A|[A|A]]; discriminate).
  assert (T2 : single_line_type (v_cmd v) -> no_code_type (v_cmd v) -> False) by (intros [-> | -> ] [A|A]; discriminate).
  assert (T3 : multi_line_type (v_cmd v) -> no_code_type (v_cmd v) -> False) by (intros [-> | [-> | -> ]] [A|A]; discriminate).
  assert (T4 : single_line_type (v_cmd v) -> v_cmd v = T_NO_RESULT -> False) by (intros [-> | -> ] A; discriminate).
  assert (T5 : multi_line_type (v_cmd v) -> v_cmd v = T_NO_RESULT -> False) by (intros [-> | [-> | -> ]] A; discriminate).
  assert (T6 : no_code_type (v_cmd v) -> v_cmd v = T_NO_RESULT -> False) by (intros [-> | -> ] A; discriminate).
  intros A B. inversion A; subst; inversion B; subst; try (split; reflexivity); exfalso;
    repeat match goal with H : _ \/ _ /\ _ /\ _ |- _ => destruct H as [?|(? & ? & [?|(? & ?)])] end; eauto 3.
Qed.
Lemma rejects_no_step v a l ev a' : rejects v a l -> line_step v a l ev a' -> False.
Proof.
  intros [R U] A.
  assert (B : forall v', v_tokens v' = v_tokens v -> v_cmd v' = v_cmd v -> v_prefix v' = v_prefix v -> v_undef v' l = PKT_OK -> line_step v' a l [EvUndef l] a).
  { intros v' E1 E2 E3 E4. apply ls_unexpected_ok; [|exact E4]. rewrite E1, E2, E3. exact R. }
  set (v' := {| v_inbuf := v_inbuf v; v_send := v_send v; v_data := v_data v; v_tokens := v_tokens v; v_cmd := v_cmd v; v_prefix := v_prefix v; v_cmd2 := v_cmd2 v;
     v_handler := v_handler v; v_undef := fun _ => PKT_OK |}).
  assert (C : line_step v' a l ev a').
  { inversion A; subst; [apply ls_urc|apply ls_success|apply ls_error|apply ls_single|apply ls_multi|apply ls_no_code|contradiction]; auto. }
  destruct (line_step_det _ _ _ _ _ _ _ C (B v' eq_refl eq_refl eq_refl eq_refl)) as [-> ->].
  inversion A; subst. contradiction.
Qed.
Lemma announce_not_data v bs o d : announces v bs o d -> not_data v bs -> False.
Proof.
  intros (f & E & F & _) [G|(f' & o' & G & H)]; [congruence|]. rewrite E in G. inversion G; subst. rewrite F in H. discriminate.
Qed.
Lemma app_inj_len {A} (p q r t : list A) : length p = length q -> p ++ r = q ++ t -> p = q /\ r = t.
Proof.
  revert q; induction p as [|x p IH]; intros [|y q] L E; try discriminate; [auto|]. cbn [app] in E. inversion E; subst. inversion L.
  destruct (IH q) as [-> ->]; auto.
Qed.
Lemma stream_step_det env x y z : stream_step env x y -> stream_step env x z -> y = z.
Proof.
  intros A B. inversion A; subst; inversion B; subst; try reflexivity.
  - destruct l as [|b l]; [contradiction|]. cbn [app] in *. match goal with H : _ :: _ = _ :: _ |- _ => inversion H; subst end.
    match goal with H : line_text (_ :: _) |- _ => inversion H; subst end. contradiction.
  - destruct l as [|b l]; [contradiction|]. cbn [app] in *. match goal with H : _ :: _ = _ :: _ |- _ => inversion H; subst end.
    match goal with H : line_text (_ :: _) |- _ => inversion H; subst end. contradiction.
  - destruct p; [contradiction|discriminate].
  - destruct l as [|b l]; [contradiction|]. cbn [app] in *. match goal with H : _ :: _ = _ :: _ |- _ => inversion H; subst end.
    match goal with H : line_text (_ :: _) |- _ => inversion H; subst end. contradiction.
  - match goal with H : _ ++ _ :: _ = _ ++ _ :: _ |- _ => apply text_unique in H; auto; destruct H as (? & ? & ?); subst end.
    match goal with H1 : line_step _ _ _ ?e1 ?a1, H2 : line_step _ _ _ ?e2 ?a2 |- _ => destruct (line_step_det _ _ _ _ _ _ _ H1 H2); subst end. reflexivity.
  - exfalso. match goal with H : _ ++ _ :: _ = _ ++ _ :: _ |- _ => apply text_unique in H; auto; destruct H as (? & ? & ?); subst end. eapply announce_not_data; eauto.
  - destruct p; [contradiction|discriminate].
  - destruct l as [|b l]; [contradiction|]. cbn [app] in *. match goal with H : _ :: _ = _ :: _ |- _ => inversion H; subst end.
    match goal with H : line_text (_ :: _) |- _ => inversion H; subst end. contradiction.
  - exfalso. match goal with H : _ ++ _ :: _ = _ ++ _ :: _ |- _ => apply text_unique in H; auto; destruct H as (? & ? & ?); subst end. eapply announce_not_data; eauto.
  - match goal with H : _ ++ _ :: _ = _ ++ _ :: _ |- _ => apply text_unique in H; auto; destruct H as (? & ? & ?); subst end.
    match goal with H1 : announces _ _ _ _, H2 : announces _ _ _ _ |- _ => destruct H1 as (f1 & E1 & F1 & _); destruct H2 as (f2 & E2 & F2 & _) end.
    rewrite E1 in E2. inversion E2; subst. rewrite F1 in F2. inversion F2; subst. reflexivity.
  - destruct p; [contradiction|discriminate].
  - destruct p; [contradiction|discriminate].
  - destruct p; [contradiction|discriminate].
  - destruct p; [contradiction|discriminate].
  - match goal with H1 : length ?p = length ?q, H2 : ?p ++ ?r = ?q ++ ?t |- _ =>
      assert (p = q /\ r = t) as [-> ->] by (apply app_inj_len; assumption) end. reflexivity.
Qed.

Definition normal (env : list event -> view) (x : stream_state) : Prop := forall y, ~ stream_step env x y.
Lemma settled_normal env h a d S : settled (env h) d S -> normal env (h, a, d, S).
Proof.
  intros ST y A. destruct ST as [(DN & L)|(-> & ST)].
  - inversion A; subst; try congruence. rewrite app_length in L. lia.
  - assert (NW : forall l e R, line_text l -> eol e -> l ++ e :: R = S -> line_text S -> False).
    { intros l e R LT EE Q TS. rewrite <- Q in TS. apply Forall_app in TS. destruct TS as [_ TS]. inversion TS; subst. contradiction. }
    assert (WM1 : wants_more (env h) S -> not_data (env h) S -> False).
    { intros (f & o & E & F) [G|(f' & o' & G & H)]; [congruence|]. rewrite E in G. inversion G; subst. rewrite F in H. discriminate. }
    assert (WM2 : forall o d, wants_more (env h) S -> announces (env h) S o d -> False).
    { intros o d (f & o' & E & F) (f' & G & H & _). rewrite E in G. inversion G; subst. rewrite F in H. discriminate. }
    inversion A; subst.
    + destruct ST as [ST|[(c' & t & Q & NE) _]]; [discriminate|]. inversion Q; subst. contradiction.
    + destruct ST as [ST|[_ [ST|ST]]]; [destruct l; discriminate|eapply NW; eauto|eapply WM1; eauto].
    + destruct ST as [ST|[_ [ST|ST]]]; [destruct l; discriminate|eapply NW; eauto|eapply WM2; eauto].
    + destruct p; [contradiction|discriminate].
Qed.
Lemma rejects_normal env h a l e S : l <> [] -> line_text l -> eol e -> rejects (env h) a l -> not_data (env h) (l ++ e :: S) -> normal env (h, a, 0%nat, l ++ e :: S).
Proof.
  intros LN LT EE RJ ND y A. inversion A; subst.
  - destruct l as [|b l]; [contradiction|]. cbn [app] in *. match goal with H : _ :: _ = _ :: _ |- _ => inversion H; subst end. inversion LT; subst. contradiction.
  - match goal with H : _ ++ _ :: _ = _ ++ _ :: _ |- _ => apply text_unique in H; auto; destruct H as (? & ? & ?); subst end. eapply rejects_no_step; eauto.
  - match goal with H : _ ++ _ :: _ = _ ++ _ :: _ |- _ => apply text_unique in H; auto; destruct H as (? & ? & ?); subst end. eapply announce_not_data; eauto.
  - destruct p; [contradiction|discriminate].
Qed.
Lemma steps_normal env x y z : stream_steps env x y -> stream_steps env x z -> normal env y -> normal env z -> y = z.
Proof.
  induction 1 as [x|x x1 y S SS IH]; intros B NY NZ.
  - inversion B; subst; [reflexivity|]. exfalso. eapply NY; eauto.
  - inversion B; subst; [exfalso; eapply NZ; eauto|]. match goal with H1 : stream_step env x ?q |- _ => assert (q = x1) by (eapply stream_step_det; eauto); subst end. auto.
Qed.
(** Steps never report a drop. *)
Lemma line_step_no_drop v a l ev a' : line_step v a l ev a' -> ~ In EvDrop ev.
Proof. intros A. inversion A; subst; intro Q; cbn in Q; repeat destruct Q as [Q|Q]; try discriminate; contradiction. Qed.
Lemma steps_no_drop env x y : stream_steps env x y -> ~ In EvDrop (fst (fst (fst x))) -> ~ In EvDrop (fst (fst (fst y))).
Proof.
  induction 1 as [x|x x1 y S SS IH]; [auto|]. intro N. apply IH. inversion S; subst; cbn in *; auto.
  intro Q. apply in_app_or in Q. destruct Q as [Q|Q]; [auto|]. eapply line_step_no_drop; eauto.
Qed.

Lemma before_drop_none h : ~ In EvDrop h -> before_drop h = h.
Proof.
  induction h as [|e h IH]; intro N; [reflexivity|]. cbn [before_drop]. rewrite IH by (intro Q; apply N; right; exact Q).
  destruct e; try reflexivity. exfalso. apply N. left. reflexivity.
Qed.
Lemma before_drop_app h l x : ~ In EvDrop h -> before_drop (h ++ EvUndef l :: EvDrop :: x) = h ++ [EvUndef l].
Proof.
  induction h as [|e h IH]; intro N; [reflexivity|]. cbn [before_drop app]. rewrite IH by (intro Q; apply N; right; exact Q).
  destruct e; try reflexivity. exfalso. apply N. left. reflexivity.
Qed.

Lemma processed_history env h a d lft cs h' : chunks_processed env h a d lft cs h' -> exists x, h' = h ++ x.
Proof.
  assert (SH : forall x y, stream_steps env x y -> exists z, fst (fst (fst y)) = fst (fst (fst x)) ++ z).
  { induction 1 as [x|x x1 y S SS (z & IH)]; [exists []; symmetry; apply app_nil_r|]. rewrite IH. inversion S; subst; cbn; eauto. exists (ev ++ z). symmetry; apply app_assoc. }
  induction 1 as [h a d lft cs h' a' d' lft' SS ST|h a d lft cs1 cs2 h1 h' NE RF CP IH].
  - destruct (SH _ _ SS) as (z & Q). cbn in Q. eauto.
  - destruct IH as (x & ->). destruct RF as (h0 & a0 & l & e & S & -> & _ & _ & _ & _ & _ & SS). destruct (SH _ _ SS) as (z & Q). cbn in Q. subst.
    eexists. rewrite <- !app_assoc. reflexivity.
Qed.
Lemma run_first fuel env t cs t' h' s' : stream_env env -> run cap fuel env t [] (rx0 cap) cs t' h' s' ->
  halted (env 0%nat) ([], [], 0%nat, concat cs) h' \/
  exists a' lft', settled (env 0%nat h') (rx_dlen s') lft' /\
    stream_steps (env 0%nat) ([], [], 0%nat, concat cs) (h', a', rx_dlen s', lft').
Proof.
  intros HE RUN.
  assert (G : forall t h s cs t' h' s', run cap fuel env t h s cs t' h' s' -> forall lft a, parked s lft a -> settled (env 0%nat h) (rx_dlen s) lft ->
    halted (env 0%nat) (h, a, rx_dlen s, lft ++ concat cs) h' \/
    exists a' lft', settled (env 0%nat h') (rx_dlen s') lft' /\ stream_steps (env 0%nat) (h, a, rx_dlen s, lft ++ concat cs) (h', a', rx_dlen s', lft')).
  { clear - HE. induction 1 as [t h s|t h s recv k t1 h1 s1 cs t2 h2 s2 RC RM EV RUN IH]; intros lft a PK ST.
    - right. exists a, lft. split; [exact ST|]. cbn [concat]. rewrite app_nil_r. constructor.
    - cbn [concat]. destruct (event_step env fuel t h s recv k t1 h1 s1 lft a HE PK ST RM RC EV) as [[_ Q]|(a1 & lft1 & P1 & S1 & SS1)].
      + left. destruct (run_history _ _ _ _ _ _ _ _ _ RUN) as (x & ->). destruct (Q (concat cs)) as (h0 & a0 & l & e & S & -> & R).
        exists h0, a0, l, e, S, x. split; [rewrite <- app_assoc; reflexivity|exact R].
      + destruct (IH lft1 a1 P1 S1) as [(h0 & a0 & l & e & S & x & A & B & C & D & E & F & GG)|(a2 & lft2 & S2 & SS2)].
        * left. exists h0, a0, l, e, S, x. repeat (split; [assumption|]). eapply steps_trans; [apply SS1|exact GG].
        * right. exists a2, lft2. split; [exact S2|]. eapply steps_trans; [apply SS1|exact SS2]. }
  apply (G _ _ _ _ _ _ _ RUN [] []); [apply fresh_parked, fresh0|]. right; auto.
Qed.

Lemma chunking fuel1 fuel2 env t1 t2 cs1 cs2 t1' t2' h1 h2 s1 s2 : stream_env env -> concat cs1 = concat cs2 ->
  run cap fuel1 env t1 [] (rx0 cap) cs1 t1' h1 s1 -> run cap fuel2 env t2 [] (rx0 cap) cs2 t2' h2 s2 ->
  before_drop h1 = before_drop h2 /\ (In EvDrop h1 <-> In EvDrop h2).
Proof.
  intros HE EC R1 R2. apply run_first in R1; [|exact HE]. apply run_first in R2; [|exact HE]. rewrite <- EC in R2.
  assert (NB : forall h0 a0 d S, stream_steps (env 0%nat) ([], [], 0%nat, concat cs1) (h0, a0, d, S) -> ~ In EvDrop h0).
  { intros h0 a0 d S Q. apply (steps_no_drop _ _ _ Q). exact (fun x => x). }
  destruct R1 as [(g1 & a1 & l1 & e1 & S1 & x1 & -> & LN1 & LT1 & EE1 & RJ1 & ND1 & SS1)|(a1 & lf1 & ST1 & SS1)];
  destruct R2 as [(g2 & a2 & l2 & e2 & S2 & x2 & -> & LN2 & LT2 & EE2 & RJ2 & ND2 & SS2)|(a2 & lf2 & ST2 & SS2)].
  - pose proof (steps_normal _ _ _ _ SS1 SS2 (rejects_normal _ _ _ _ _ _ LN1 LT1 EE1 RJ1 ND1) (rejects_normal _ _ _ _ _ _ LN2 LT2 EE2 RJ2 ND2)) as Q.
    inversion Q; subst. match goal with H : _ ++ _ :: _ = _ ++ _ :: _ |- _ => apply text_unique in H; auto; destruct H as (? & ? & ?); subst end.
    rewrite !before_drop_app by (eapply NB; eauto). split; [reflexivity|]. split; intros _; apply in_or_app; right; right; left; reflexivity.
  - exfalso. pose proof (steps_normal _ _ _ _ SS1 SS2 (rejects_normal _ _ _ _ _ _ LN1 LT1 EE1 RJ1 ND1) (settled_normal _ _ _ _ _ ST2)) as Q.
    inversion Q; subst. destruct ST2 as [[X _]|[_ [X|[_ [X|X]]]]]; [congruence|destruct l1; discriminate| |].
    + apply Forall_app in X. destruct X as [_ X]. inversion X; subst. contradiction.
    + destruct X as (f & o & E & F). destruct ND1 as [G|(f' & o' & G & H)]; [congruence|]. rewrite E in G. inversion G; subst. rewrite F in H. discriminate.
  - exfalso. pose proof (steps_normal _ _ _ _ SS1 SS2 (settled_normal _ _ _ _ _ ST1) (rejects_normal _ _ _ _ _ _ LN2 LT2 EE2 RJ2 ND2)) as Q.
    inversion Q; subst. destruct ST1 as [[X _]|[_ [X|[_ [X|X]]]]]; [congruence|destruct l2; discriminate| |].
    + apply Forall_app in X. destruct X as [_ X]. inversion X; subst. contradiction.
    + destruct X as (f & o & E & F). destruct ND2 as [G|(f' & o' & G & H)]; [congruence|]. rewrite E in G. inversion G; subst. rewrite F in H. discriminate.
  - pose proof (steps_normal _ _ _ _ SS1 SS2 (settled_normal _ _ _ _ _ ST1) (settled_normal _ _ _ _ _ ST2)) as Q.
    inversion Q; subst. split; [reflexivity|reflexivity].
Qed.
End Stream.

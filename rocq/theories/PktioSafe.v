(** Memory safety and termination of the receive path (C18): invariant of the buffer machine. *)
From Coq Require Import List NArith ZArith Bool Arith Lia.
From Verif Require Import Bytes AtCore Status SpecAt AtProofs AtProofs3 Pktio SpecPktio PktioLine.
Import ListNotations.

Section Safe.
Variable cap : nat.

(** Byte at the last position of the array is NUL. *)
Definition buf_ok (m : list N) : Prop := length m = S cap /\ nth cap m 1%N = 0%N.
Definition span (p n : nat) : Prop := (p + n <= cap \/ (p = S cap /\ n = 0))%nat.
Definition item_ok (i : item) : Prop :=
  (it_ptr i <= cap)%nat /\ match it_raw i with Some n => (it_ptr i + n <= cap)%nat | None => True end.
Definition resp_ok (r : option response) : Prop := match r with Some r => Forall item_ok (r_items r) | None => True end.
Definition off (s : rx) : nat := match rx_ptr s with Some p => p | None => 0%nat end.
Definition wf (s : rx) : Prop :=
  buf_ok (rx_buf s) /\ span (off s) (rx_partial s) /\ resp_ok (rx_resp s) /\ (rx_dlen s <> 0%nat -> rx_resp s <> None).

Lemma rd_ok m p n : (p + n <= length m)%nat -> rd m p n = Ok (firstn n (skipn p m)).
Proof. intro H. unfold rd. apply Nat.leb_le in H. rewrite H. reflexivity. Qed.
Lemma rd_len m p n bs : rd m p n = Ok bs -> length bs = n /\ (p + n <= length m)%nat.
Proof.
  unfold rd. destruct (p + n <=? length m)%nat eqn:E; [|discriminate]. apply Nat.leb_le in E. intro Q. inversion Q; subst.
  rewrite firstn_length, skipn_length. lia.
Qed.
Lemma wr_ok m p bs : (p + length bs <= length m)%nat -> wr m p bs = Ok (firstn p m ++ bs ++ skipn (p + length bs) m).
Proof. intro H. unfold wr. apply Nat.leb_le in H. rewrite H. reflexivity. Qed.
Lemma wr_length m p bs m' : wr m p bs = Ok m' -> length m' = length m.
Proof.
  unfold wr. destruct (p + length bs <=? length m)%nat eqn:E; [|discriminate]. apply Nat.leb_le in E. intro Q. inversion Q; subst.
  rewrite !app_length, firstn_length, skipn_length. lia.
Qed.
Lemma nth_skipn {A} (l : list A) p i d : nth i (skipn p l) d = nth (p + i) l d.
Proof. revert l; induction p as [|p IH]; intro l; [reflexivity|]. destruct l; cbn [skipn Nat.add nth]; [destruct i; reflexivity|apply IH]. Qed.
Lemma nth_firstn {A} (l : list A) n i d : (i < n)%nat -> nth i (firstn n l) d = nth i l d.
Proof. revert l i; induction n as [|n IH]; intros l i H; [lia|]. destruct l; cbn [firstn]; [destruct i; reflexivity|]. destruct i; cbn [nth]; [reflexivity|apply IH; lia]. Qed.
Lemma wr_nth m p bs m' i d : wr m p bs = Ok m' ->
  nth i m' d = if (p <=? i)%nat && (i <? p + length bs)%nat then nth (i - p) bs d else nth i m d.
Proof.
  unfold wr. destruct (p + length bs <=? length m)%nat eqn:E; [|discriminate]. apply Nat.leb_le in E. intro Q. inversion Q; subst. clear Q.
  destruct (p <=? i)%nat eqn:A; [apply Nat.leb_le in A|apply Nat.leb_gt in A]; cbn [andb].
  - rewrite app_nth2; rewrite firstn_length, Nat.min_l by lia; [|lia].
    destruct (i <? p + length bs)%nat eqn:B; [apply Nat.ltb_lt in B|apply Nat.ltb_ge in B].
    + rewrite app_nth1 by lia. reflexivity.
    + rewrite app_nth2 by lia. rewrite nth_skipn. f_equal. lia.
  - rewrite app_nth1 by (rewrite firstn_length, Nat.min_l; lia). apply nth_firstn. lia.
Qed.
Lemma upd_length m i v : length (upd m i v) = length m.
Proof. revert i; induction m as [|x m IH]; intros [|i]; cbn [upd length]; [reflexivity..|rewrite IH; reflexivity]. Qed.
Lemma upd_nth m i v j d : nth j (upd m i v) d = if (j =? i)%nat && (i <? length m)%nat then v else nth j m d.
Proof.
  revert i j; induction m as [|x m IH]; intros [|i] [|j]; cbn [upd nth length Nat.eqb andb]; try reflexivity.
  - destruct (j =? i)%nat; reflexivity.
  - rewrite IH. reflexivity.
Qed.
Lemma st_ok m i v : (i < length m)%nat -> st m i v = Ok (upd m i v).
Proof. intro H. unfold st. apply Nat.ltb_lt in H. rewrite H. reflexivity. Qed.
Lemma ld_ok m i : (i < length m)%nat -> ld m i = Ok (nth i m 0%N).
Proof. intro H. unfold ld. rewrite (nth_error_nth' m 0%N H). reflexivity. Qed.

Lemma buf_wr m p bs m' : buf_ok m -> wr m p bs = Ok m' -> (p + length bs <= cap)%nat -> buf_ok m'.
Proof.
  intros [L Z] W H. split; [rewrite (wr_length _ _ _ _ W); exact L|]. rewrite (wr_nth _ _ _ _ _ _ W).
  replace (cap <? p + length bs)%nat with false by (symmetry; apply Nat.ltb_ge; lia). rewrite andb_false_r. exact Z.
Qed.
Lemma buf_st m i : buf_ok m -> buf_ok (upd m i 0%N).
Proof. intros [L Z]. split; [rewrite upd_length; exact L|]. rewrite upd_nth. destruct ((cap =? i)%nat && (i <? length m)%nat); [reflexivity|exact Z]. Qed.
Lemma buf_zero : buf_ok (repeat 0%N (S cap)).
Proof. split; [apply repeat_length|]. rewrite (nth_indep _ 1%N 0%N) by (rewrite repeat_length; lia). apply nth_repeat. Qed.

Lemma cstr_get_total m p : buf_ok m -> (p <= cap)%nat -> exists s, cstr_get m p = Some s.
Proof.
  intros [L Z] H. unfold cstr_get.
  assert (Q : nth (cap - p) (skipn p m) 1%N = 0%N) by (rewrite nth_skipn; replace (p + (cap - p))%nat with cap by lia; exact Z).
  revert Q. generalize (cap - p)%nat as k. generalize (skipn p m) as l.
  induction l as [|c l IH]; intros k Q; [destruct k; discriminate|].
  cbn [cstr_list]. destruct (N.eqb_spec c 0); [eauto|]. destruct k as [|k]; [cbn [nth] in Q; congruence|].
  destruct (IH k Q) as [s ->]. eauto.
Qed.
Lemma deliver_total m l : buf_ok m -> Forall item_ok l -> exists cs, deliver m l = Ok cs.
Proof.
  intros B F. induction F as [|i l [P R] F IH]; cbn [deliver]; [eauto|].
  destruct IH as [cs ->]. unfold item_content. destruct (it_raw i) as [n|].
  - rewrite rd_ok by (destruct B as [L _]; lia). cbn [bind]. eauto.
  - destruct (cstr_get_total m _ B P) as [s ->]. cbn [bind]. eauto.
Qed.

Lemma skip_eol_spec m : forall n p, (p + n <= length m)%nat ->
  exists p' n', skip_eol m p n = Ok (p', n') /\ (p' + n' = p + n)%nat /\ (p <= p')%nat.
Proof.
  induction n as [|n IH]; intros p H; cbn [skip_eol]; [eauto 6|].
  rewrite ld_ok by lia. cbn [bind]. destruct (is_eol _).
  - destruct (IH (S p)) as (p' & n' & -> & A & B); [lia|]. exists p', n'. repeat split; lia.
  - eexists _, _. repeat split; lia.
Qed.
Lemma find_eol_spec m : forall n p, (p + n <= length m)%nat ->
  (exists i, find_eol m p n = Ok (Some i) /\ (i < n)%nat /\ is_eol (nth (p + i) m 0%N) = true /\
     forall j, (j < i)%nat -> is_eol (nth (p + j) m 0%N) = false) \/
  (find_eol m p n = Ok None /\ forall j, (j < n)%nat -> is_eol (nth (p + j) m 0%N) = false).
Proof.
  induction n as [|n IH]; intros p H; cbn [find_eol]; [right; split; [reflexivity|lia]|].
  rewrite ld_ok by lia. cbn [bind]. destruct (is_eol (nth p m 0%N)) eqn:E.
  - left. exists 0%nat. rewrite Nat.add_0_r. repeat split; [lia|exact E|lia].
  - destruct (IH (S p)) as [(i & -> & A & B & C)|[-> C]]; [lia| |].
    + left. exists (S i). cbn [bind]. rewrite Nat.add_succ_r. repeat split; [lia|exact B|].
      intros [|j] J; [rewrite Nat.add_0_r; exact E|]. rewrite Nat.add_succ_r. apply C. lia.
    + right. split; [reflexivity|]. intros [|j] J; [rewrite Nat.add_0_r; exact E|]. rewrite Nat.add_succ_r. apply C. lia.
Qed.

(** ** One pass *)
Definition lw (s : rx) : Prop := buf_ok (rx_buf s) /\ resp_ok (rx_resp s) /\ rx_dlen s = 0%nat.

Lemma resp_ok_new r : resp_ok r -> Forall item_ok (r_items (match r with Some r => r | None => AtResponseNew end)).
Proof. destruct r; cbn; auto. Qed.
Lemma forall_snoc {A} (P : A -> Prop) l x : Forall P l -> P x -> Forall P (l ++ [x]).
Proof. intros H1 H2. apply Forall_app. auto. Qed.

Lemma handleMsgType_safe v mt s line txt :
  tables_ok (v_tokens v) -> buf_ok (rx_buf s) -> resp_ok (rx_resp s) -> (line <= cap)%nat ->
  exists st mt' ev s', handleMsgType cap v mt s line txt = Ok (st, mt', ev, s') /\
    ((st = PKT_INVALID_DATA /\ s' = set_resp (reset_buf cap s') None /\ rx_dlen s' = rx_dlen s) \/
     (rx_buf s' = rx_buf s /\ rx_dlen s' = rx_dlen s /\ resp_ok (rx_resp s') /\
      (st = PKT_OK \/ st = PKT_PENDING_DATA \/ (st = PKT_PENDING_BUFFER /\ rx_resp s' <> None)))) /\
    (mt = AT_SOLICITED -> plain_line (v_tokens v) txt -> v_cmd2 v = T_MULTI_DATA_WO_PREFIX ->
     st = PKT_PENDING_BUFFER /\ mt' = AT_SOLICITED /\ ev = [] /\
     s' = set_resp s (Some (saveATData (match rx_resp s with Some r => r | None => AtResponseNew end) line))).
Proof.
  intros HT HB HR HL. unfold handleMsgType. destruct mt.
  - (* solicited *)
    set (r0 := match rx_resp s with Some r => r | None => AtResponseNew end).
    assert (F0 : Forall item_ok (r_items r0)) by (apply resp_ok_new; exact HR).
    assert (F1 : Forall item_ok (r_items (saveATData r0 line))).
    { apply forall_snoc; [exact F0|]. split; cbn; [exact HL|exact I]. }
    assert (Done : forall b r1, Forall item_ok (r_items r1) ->
      exists st mt' ev s', (do cs <- (if v_handler v then deliver (rx_buf s) (r_items r1) else Ok []);
         Ok (PKT_OK, AT_SOLICITED, if v_handler v then [EvResp b cs] else [], set_resp s None)) = Ok (st, mt', ev, s') /\
         st = PKT_OK /\ mt' = AT_SOLICITED /\ s' = set_resp s None).
    { intros b r1 F. destruct (v_handler v).
      - destruct (deliver_total _ _ HB F) as [cs ->]. cbn [bind]. eauto 10.
      - cbn [bind]. eauto 10. }
    assert (Undef : forall st0 r1, Forall item_ok (r_items r1) ->
      exists st mt' ev s',
       (do r <- Ok (st0, AT_UNDEFINED, [], set_resp s (Some r1));
        let '(st, mt', ev, s1) := r in
        match mt' with
        | AT_UNDEFINED =>
            let st' := if v_handler v then v_undef v txt else st in
            let ev' := if v_handler v then ev ++ [EvUndef txt] else ev in
            match st' with
            | PKT_OK => Ok (PKT_OK, mt', ev', s1)
            | _ => Ok (PKT_INVALID_DATA, mt', ev' ++ [EvDrop], set_resp (reset_buf cap s1) None)
            end
        | _ => Ok (st, mt', ev, s1)
        end) = Ok (st, mt', ev, s') /\
       ((st = PKT_INVALID_DATA /\ s' = set_resp (reset_buf cap s') None /\ rx_dlen s' = rx_dlen s) \/
        (rx_buf s' = rx_buf s /\ rx_dlen s' = rx_dlen s /\ resp_ok (rx_resp s') /\
        (st = PKT_OK \/ st = PKT_PENDING_DATA \/ (st = PKT_PENDING_BUFFER /\ rx_resp s' <> None))))).
    { intros st0 r1 F. cbn [bind]. cbv zeta.
      destruct (if v_handler v then v_undef v txt else st0);
        (eexists _, _, _, _; split; [reflexivity|]); try (left; split; [reflexivity|split; reflexivity]).
      right. cbn. auto. }
    destruct (process_line_spec (v_tokens v) line txt r0 (v_cmd2 v) HT) as [[C E]|[[C E]|[C E]]]; rewrite E; cbn [bind].
    + cbn [r_items]. destruct (Done true {| r_status := true; r_items := r_items r0 |} F0) as (a & b & c & d & Q & -> & -> & ->).
      cbn [r_items r_status] in Q |- *. rewrite Q. cbn [bind]. eexists _, _, _, _. split; [reflexivity|]. split.
      * right. cbn. auto.
      * intros _ [N _]. exfalso. exact (N C).
    + cbn [r_items]. destruct (Done false {| r_status := false; r_items := r_items r0 |} F0) as (a & b & c & d & Q & -> & -> & ->).
      cbn [r_items r_status] in Q |- *. rewrite Q. cbn [bind]. eexists _, _, _, _. split; [reflexivity|]. split.
      * right. cbn. auto.
      * intros _ [_ N]. exfalso. exact (N (proj2 C)).
    + destruct (v_cmd2 v) eqn:EC; cbn [processIntermediateResponse].
      * destruct (Undef PKT_INVALID_DATA r0 F0) as (st & mt' & ev & s' & Q & W). eexists _, _, _, _. split; [exact Q|]. split; [exact W|]. intros; discriminate.
      * destruct (r_items r0) eqn:EI.
        -- cbn [bind]. eexists _, _, _, _. split; [reflexivity|]. split; [right; split; [reflexivity|split; [reflexivity|split; [exact F1|auto]]]|intros; discriminate].
        -- destruct (Undef PKT_INVALID_DATA r0) as (st & mt' & ev & s' & Q & W); [rewrite EI; exact F0|]. eexists _, _, _, _. split; [exact Q|]. split; [exact W|]. intros; discriminate.
      * destruct (r_items r0) eqn:EI.
        -- cbn [bind]. eexists _, _, _, _. split; [reflexivity|]. split; [right; split; [reflexivity|split; [reflexivity|split; [exact F1|auto]]]|intros; discriminate].
        -- destruct (Undef PKT_INVALID_DATA r0) as (st & mt' & ev & s' & Q & W); [rewrite EI; exact F0|]. eexists _, _, _, _. split; [exact Q|]. split; [exact W|]. intros; discriminate.
      * cbn [bind]. eexists _, _, _, _. split; [reflexivity|]. split; [right; split; [reflexivity|split; [reflexivity|split; [exact F1|auto]]]|intros; discriminate].
      * cbn [bind]. eexists _, _, _, _. split; [reflexivity|]. split; [right; split; [reflexivity|split; [reflexivity|split; [exact F1|auto]]]|intros; discriminate].
      * cbn [bind]. eexists _, _, _, _. split; [reflexivity|]. split; [|intros; auto].
        right. split; [reflexivity|split; [reflexivity|split; [exact F1|]]]. right; right. split; [reflexivity|discriminate].
      * destruct (Done true {| r_status := true; r_items := r_items (saveATData r0 line) |} F1) as (a & b & c & d & Q & -> & -> & ->).
        cbn [r_items r_status] in Q |- *. rewrite Q. cbn [bind]. eexists _, _, _, _. split; [reflexivity|]. split; [right; cbn; auto|intros; discriminate].
      * destruct (Done true {| r_status := true; r_items := r_items (saveATData r0 line) |} F1) as (a & b & c & d & Q & -> & -> & ->).
        cbn [r_items r_status] in Q |- *. rewrite Q. cbn [bind]. eexists _, _, _, _. split; [reflexivity|]. split; [right; cbn; auto|intros; discriminate].
      * destruct (Undef PKT_INVALID_DATA r0 F0) as (st & mt' & ev & s' & Q & W). eexists _, _, _, _. split; [exact Q|]. split; [exact W|]. intros; discriminate.
  - cbn [bind]. eexists _, _, _, _. split; [reflexivity|]. split; [right; auto 8|intros; discriminate].
  - cbn [bind]. cbv zeta. destruct (if v_handler v then v_undef v txt else PKT_OK);
        (eexists _, _, _, _; split; [reflexivity|]; split; [|intros; discriminate]); try (left; split; [reflexivity|split; reflexivity]).
    right. auto 8.
Qed.

Lemma upd_split m i v : (i < length m)%nat -> upd m i v = firstn i m ++ v :: skipn (S i) m.
Proof.
  revert i; induction m as [|x m IH]; intros [|i] H; cbn [length] in H; [lia..|reflexivity|].
  cbn [upd firstn skipn app]. rewrite IH by lia. reflexivity.
Qed.
Lemma skipn_skipn' {A} (l : list A) a b : skipn a (skipn b l) = skipn (b + a) l.
Proof. revert l; induction b as [|b IH]; intro l; [reflexivity|]. destruct l; cbn [skipn Nat.add]; [apply skipn_nil|apply IH]. Qed.
Lemma firstn_add {A} (l : list A) p i : firstn (p + i) l = firstn p l ++ firstn i (skipn p l).
Proof. revert l; induction p as [|p IH]; intro l; [reflexivity|]. destruct l; cbn [firstn skipn Nat.add app]; [rewrite firstn_nil; reflexivity|rewrite IH; reflexivity]. Qed.
Lemma is_eol_iff c : is_eol c = true <-> eol c.
Proof. unfold is_eol, eol. rewrite !orb_true_iff, !N.eqb_eq. tauto. Qed.
Lemma is_eol_false c : is_eol c = false <-> ~ eol c.
Proof. rewrite <- is_eol_iff. destruct (is_eol c); split; congruence. Qed.

Lemma line_at m p i : (p + i < length m)%nat -> (forall j, (j < i)%nat -> is_eol (nth (p + j) m 0%N) = false) ->
  cstr_get (upd m (p + i) 0%N) p = Some (firstn i (skipn p m)).
Proof.
  intros H E. rewrite upd_split by exact H. rewrite firstn_add, <- app_assoc.
  change (firstn p m ++ firstn i (skipn p m) ++ 0%N :: skipn (S (p + i)) m) with (obj (firstn p m) (firstn i (skipn p m)) (skipn (S (p + i)) m)).
  replace p with (length (firstn p m)) at 4 by (rewrite firstn_length; lia). apply cstr_get_obj.
  intro Q. apply In_nth with (d := 0%N) in Q. destruct Q as (j & J & Q). rewrite firstn_length in J.
  rewrite nth_firstn in Q by lia. rewrite nth_skipn in Q.
  assert (X : is_eol (nth (p + j) m 0%N) = false) by (apply E; lia). rewrite Q in X. discriminate.
Qed.

(** Facts about the line the data callback announced a payload on. *)
Definition announced (v : view) (m : list N) (line n d : nat) (sod : option nat) : Prop :=
  d <> 0%nat /\ (exists p, sod = Some p /\ (line <= p <= line + n)%nat) /\
  exists l e rest, firstn n (skipn line m) = l ++ e :: rest /\ line_text l /\ eol e /\
    prefix_usable (v_prefix v) /\ line_of_command (v_tokens v) (v_cmd v) (v_prefix v) l /\
    v_cmd2 v = T_MULTI_DATA_WO_PREFIX /\ plain_line (v_tokens v) l.

Definition ready (v : view) (s : rx) (line n n0 : nat) (sod : option nat) : Prop :=
  length (rx_buf s) = S cap /\ resp_ok (rx_resp s) /\
  ((n <= n0 /\ line + n <= cap /\ nth cap (rx_buf s) 1%N = 0%N)%nat /\ (rx_dlen s = 0%nat \/ announced v (rx_buf s) line n (rx_dlen s) sod) \/
   (n = S n0 /\ line + n0 <= cap /\ ((line + n0 < cap)%nat -> nth cap (rx_buf s) 1%N = 0%N) /\
    (forall j, (j < n0)%nat -> is_eol (nth (line + j) (rx_buf s) 0%N) = false) /\ is_eol (nth (line + n0) (rx_buf s) 0%N) = true)%nat /\ rx_dlen s = 0%nat).

Lemma wf_reset s : rx_dlen s = 0%nat -> resp_ok (rx_resp s) -> wf (reset_buf cap s).
Proof. intros D R. split; [apply buf_zero|]. split; [left; cbn; lia|]. split; [exact R|]. cbn; congruence. Qed.

Lemma callback_result_stop s st line n s' : handleCallbackResult cap s st line n = Some s' ->
  buf_ok (rx_buf s) -> resp_ok (rx_resp s) -> rx_dlen s = 0%nat -> (line + n <= cap)%nat -> wf s'.
Proof.
  unfold handleCallbackResult. intros H B R D L.
  destruct st; inversion H; subst; try (apply wf_reset; assumption).
  split; [exact B|]. split; [left; exact L|]. split; [exact R|]. cbn. congruence.
Qed.
Lemma callback_result_next s st line n : handleCallbackResult cap s st line n = None -> st = PKT_OK \/ st = PKT_PREFIX_MISMATCH.
Proof. destruct st; cbn; intro; try discriminate; auto. Qed.

Lemma wr_slice m p bs m' : wr m p bs = Ok m' -> firstn (length bs) (skipn p m') = bs.
Proof.
  unfold wr. destruct (p + length bs <=? length m)%nat eqn:E; [|discriminate]. apply Nat.leb_le in E. intro Q. inversion Q; subst. clear Q.
  rewrite skipn_app, firstn_length, Nat.min_l, Nat.sub_diag by lia. rewrite skipn_all2 by (rewrite firstn_length; lia).
  cbn [app skipn]. rewrite firstn_app, Nat.sub_diag, firstn_all. cbn [firstn]. apply app_nil_r.
Qed.

Lemma preprocessLine_safe v s line n sod : view_contract v -> announcements_expected v ->
  lw s -> span line n ->
  exists out sod', preprocessLine cap v s line n sod = Ok (out, sod') /\
    match out with
    | Stop s' => wf s'
    | Next s' line' n' => line' = line /\ (0 < n)%nat /\ ready v s' line n' n sod'
    end.
Proof.
  intros (VI & VS & VD & VT) VA (B & R & D) SP. unfold preprocessLine.
  destruct (n =? 0)%nat eqn:EN.
  { apply Nat.eqb_eq in EN. eexists _, _. split; [reflexivity|]. subst n. split; [exact B|]. split; [|split; [exact R|cbn; congruence]].
    cbn. destruct SP as [S|[S _]]; [left; exact S|right; auto]. }
  apply Nat.eqb_neq in EN. assert (LN : (line + n <= cap)%nat) by (destruct SP as [S|[_ S]]; [exact S|congruence]).
  pose proof B as [BL BZ].
  assert (RD : rd (rx_buf s) line n = Ok (firstn n (skipn line (rx_buf s)))) by (apply rd_ok; lia).
  destruct (v_send v) as [f|] eqn:ES.
  - rewrite RD. cbn [bind]. destruct (f _) as [st bs'] eqn:EF.
    pose proof (VS _ eq_refl _ _ _ EF) as C. rewrite firstn_length, skipn_length in C.
    replace (Nat.min n (length (rx_buf s) - line)) with n in C by lia.
    destruct C as [C|(-> & c & e & -> & Ee & Tc & Lc)].
    + rewrite wr_ok by lia. cbn [bind]. set (m := firstn line _ ++ _).
      assert (W : wr (rx_buf s) line bs' = Ok m) by (apply wr_ok; lia).
      assert (BM : buf_ok m) by (eapply buf_wr; [exact B|exact W|lia]).
      destruct (handleCallbackResult cap (set_buf s m) st line (length bs')) as [s2|] eqn:EH.
      * eexists _, _. split; [reflexivity|]. eapply callback_result_stop; [exact EH|exact BM|exact R|exact D|lia].
      * eexists _, _. split; [reflexivity|]. split; [reflexivity|]. split; [lia|].
        split; [exact (proj1 BM)|]. split; [exact R|]. left. split; [|left; exact D]. split; [lia|]. split; [lia|exact (proj2 BM)].
    + assert (LL : length (c ++ [e]) = S n) by (rewrite app_length; cbn [length]; lia).
      rewrite wr_ok by lia. cbn [bind]. set (m := firstn line _ ++ _).
      assert (W : wr (rx_buf s) line (c ++ [e]) = Ok m) by (apply wr_ok; lia).
      assert (ML : length m = S cap) by (rewrite (wr_length _ _ _ _ W); exact BL).
      assert (NE : forall j, (j < n)%nat -> is_eol (nth (line + j) m 0%N) = false).
      { intros j J. rewrite (wr_nth _ _ _ _ _ _ W). replace (line <=? line + j)%nat with true by (symmetry; apply Nat.leb_le; lia).
        replace (line + j <? line + length (c ++ [e]))%nat with true by (symmetry; apply Nat.ltb_lt; lia). cbn [andb].
        replace (line + j - line)%nat with j by lia. rewrite app_nth1 by lia. apply is_eol_false. apply (proj1 (Forall_nth _ _) Tc). lia. }
      assert (YE : is_eol (nth (line + n) m 0%N) = true).
      { rewrite (wr_nth _ _ _ _ _ _ W). replace (line <=? line + n)%nat with true by (symmetry; apply Nat.leb_le; lia).
        replace (line + n <? line + length (c ++ [e]))%nat with true by (symmetry; apply Nat.ltb_lt; lia). cbn [andb].
        replace (line + n - line)%nat with n by lia. rewrite app_nth2 by lia. rewrite Lc, Nat.sub_diag. apply is_eol_iff. exact Ee. }
      assert (ZE : (line + n < cap)%nat -> nth cap m 1%N = 0%N).
      { intro Q. rewrite (wr_nth _ _ _ _ _ _ W). replace (cap <? line + length (c ++ [e]))%nat with false by (symmetry; apply Nat.ltb_ge; lia).
        rewrite andb_false_r. exact BZ. }
      cbn [handleCallbackResult]. eexists _, _. split; [reflexivity|]. split; [reflexivity|]. split; [lia|].
      split; [exact ML|]. split; [exact R|]. right. split; [|exact D]. rewrite LL. auto 8.
  - destruct (v_data v) as [f|] eqn:ED.
    + rewrite RD. cbn [bind]. set (bs := firstn n (skipn line (rx_buf s))) in *. destruct (f bs) as [[[st start] len] bs'] eqn:EF.
      pose proof (VD _ eq_refl _ _ _ _ _ EF) as [CL CA].
      assert (BL' : length bs = n) by (unfold bs; rewrite firstn_length, skipn_length; lia). rewrite BL' in *.
      rewrite wr_ok by lia. cbn [bind]. set (m := firstn line _ ++ _).
      assert (W : wr (rx_buf s) line bs' = Ok m) by (apply wr_ok; lia).
      assert (BM : buf_ok m) by (eapply buf_wr; [exact B|exact W|lia]).
      assert (SL : firstn n (skipn line m) = bs') by (rewrite <- CL; exact (wr_slice _ _ _ _ W)).
      destruct (match len with Some (S _) => true | _ => false end) eqn:EL.
      * destruct len as [[|d]|]; try discriminate. destruct (CA d eq_refl) as (-> & o & -> & O).
        cbn [handleCallbackResult]. eexists _, _. split; [reflexivity|]. split; [reflexivity|]. split; [lia|].
        split; [exact (proj1 BM)|]. split; [exact R|]. left. split; [split; [lia|]; split; [lia|exact (proj2 BM)]|].
        right. cbn [set_dlen rx_dlen set_buf rx_buf]. split; [lia|]. split; [eexists; split; [reflexivity|lia]|].
        rewrite SL. exact (VA _ _ _ _ _ _ ES ED EF).
      * set (s2 := match len with Some d => set_dlen (set_buf s m) d | None => set_buf s m end).
        assert (D2 : rx_dlen s2 = 0%nat) by (unfold s2; destruct len as [[|d]|]; [reflexivity|discriminate|exact D]).
        assert (B2 : rx_buf s2 = m) by (unfold s2; destruct len; reflexivity).
        assert (R2 : rx_resp s2 = rx_resp s) by (unfold s2; destruct len; reflexivity).
        destruct (handleCallbackResult cap s2 st line n) as [s3|] eqn:EH.
        -- eexists _, _. split; [reflexivity|]. eapply callback_result_stop; [exact EH|rewrite B2; exact BM|rewrite R2; exact R|exact D2|lia].
        -- eexists _, _. split; [reflexivity|]. split; [reflexivity|]. split; [lia|].
           split; [rewrite B2; exact (proj1 BM)|]. split; [rewrite R2; exact R|]. left. split; [|left; exact D2].
           split; [lia|]. split; [lia|rewrite B2; exact (proj2 BM)].
    + eexists _, _. split; [reflexivity|]. split; [reflexivity|]. split; [lia|].
      split; [exact BL|]. split; [exact R|]. left. split; [|left; exact D]. split; [lia|]. split; [lia|exact BZ].
Qed.

Lemma preprocessInput_safe v s line n : view_contract v -> lw s -> span line n ->
  exists out, preprocessInputBuffer cap v s line n = Ok out /\
    match out with Stop s' => wf s' | Next s' line' n' => lw s' /\ span line' n' /\ (n' <= n)%nat end.
Proof.
  intros (VI & VS & VD & VT) (B & R & D) SP. unfold preprocessInputBuffer. pose proof B as [BL BZ].
  destruct (v_inbuf v) as [f|]; [|eexists; split; [reflexivity|]; repeat split; auto].
  assert (LN : (line + n <= S cap)%nat) by (destruct SP as [S|[S ->]]; lia).
  rewrite rd_ok by lia. cbn [bind]. set (bs := firstn n (skipn line (rx_buf s))) in *. destruct (f bs) as [[st len] bs'] eqn:EF.
  pose proof (VI _ eq_refl _ _ _ _ EF) as CL.
  assert (BL' : length bs = n) by (unfold bs; rewrite firstn_length, skipn_length; lia). rewrite BL' in *.
  rewrite wr_ok by lia. cbn [bind]. set (m := firstn line _ ++ _).
  assert (W : wr (rx_buf s) line bs' = Ok m) by (apply wr_ok; lia).
  assert (BM : buf_ok m).
  { destruct SP as [S|[S ->]]; [eapply buf_wr; [exact B|exact W|lia]|].
    split; [rewrite (wr_length _ _ _ _ W); exact BL|]. rewrite (wr_nth _ _ _ _ _ _ W).
    replace (line <=? cap)%nat with false by (symmetry; apply Nat.leb_gt; lia). exact BZ. }
  assert (STOP : forall st0 s2, handleCallbackResult cap (set_buf s m) st0 line n = Some s2 -> wf s2).
  { intros st0 s2 EH. destruct SP as [S|[S ->]].
    - eapply callback_result_stop; [exact EH|exact BM|exact R|exact D|lia].
    - unfold handleCallbackResult in EH. destruct st0; inversion EH; subst; try (apply wf_reset; assumption).
      split; [exact BM|]. split; [right; auto|]. split; [exact R|]. cbn; congruence. }
  assert (NEXT : lw (set_buf s m) /\ span line n /\ (n <= n)%nat) by (split; [repeat split; auto; apply BM|split; [exact SP|lia]]).
  destruct st; cbn [handleCallbackResult];
    try (eexists; split; [reflexivity|]; first [exact NEXT|eapply (STOP PKT_SIZE_MISMATCH); reflexivity|eapply (STOP PKT_FAILURE); reflexivity]).
  destruct (n <? len)%nat eqn:EL.
  - eexists; split; [reflexivity|]. apply wf_reset; assumption.
  - apply Nat.ltb_ge in EL. eexists; split; [reflexivity|]. split; [repeat split; auto; apply BM|]. split; [|lia].
    destruct SP as [S|[S ->]]; [left; lia|right; lia].
Qed.

Lemma getNextLine_safe s line n i st mt : lw s -> (i < n)%nat -> (line + n <= S cap)%nat -> ((line + n <= cap)%nat \/ n = S i) ->
  exists s' l' n', getNextLine s line n i st mt = Ok (Next s' l' n') /\ lw s' /\ span l' n' /\ (n' = n - S i)%nat.
Proof.
  intros (B & R & D) H L L2. unfold getNextLine. pose proof B as [BL BZ].
  replace (n <? i + 1)%nat with false by (symmetry; apply Nat.ltb_ge; lia).
  assert (SP : span (line + (i + 1)) (n - (i + 1))).
  { destruct L2 as [L2|L2]; [left; lia|]. destruct (Nat.eq_dec (line + n) (S cap)); [right; lia|left; lia]. }
  assert (GEN : exists s' l' n', Ok (Next (set_left s (Some (line + (i + 1))%nat) (n - (i + 1))) (line + (i + 1)) (n - (i + 1))) = Ok (Next s' l' n') /\
                 lw s' /\ span l' n' /\ (n' = n - S i)%nat).
  { eexists _, _, _. split; [reflexivity|]. split; [repeat split; auto|]. split; [exact SP|lia]. }
  destruct st; try exact GEN. destruct mt; try exact GEN.
  rewrite rd_ok by lia. cbn [bind]. set (d := firstn _ _).
  assert (DL : length d = (n - (i + 1))%nat) by (unfold d; rewrite firstn_length, skipn_length; lia).
  assert (W : wr (rx_buf s) 0 d = Ok (firstn 0 (rx_buf s) ++ d ++ skipn (0 + length d) (rx_buf s))) by (apply wr_ok; lia).
  rewrite W. cbn [bind]. eexists _, _, _. split; [reflexivity|]. split; [|split; [left; lia|lia]].
  split; [|split; [exact R|exact D]]. eapply buf_wr; [exact B|exact W|lia].
Qed.

Lemma find_eol_text m p n l e rest : firstn n (skipn p m) = l ++ e :: rest -> (p + n <= length m)%nat -> line_text l -> eol e ->
  find_eol m p n = Ok (Some (length l)) /\ firstn (length l) (skipn p m) = l.
Proof.
  intros E H T Ee.
  assert (LN : (length l < n)%nat) by (assert (Q : length (firstn n (skipn p m)) = length (l ++ e :: rest)) by (rewrite E; reflexivity);
    rewrite firstn_length, skipn_length, app_length in Q; cbn [length] in Q; lia).
  assert (NT : forall j, (j < n)%nat -> nth (p + j) m 0%N = nth j (l ++ e :: rest) 0%N).
  { intros j J. rewrite <- E, nth_firstn, nth_skipn by lia. reflexivity. }
  assert (NE : forall j, (j < length l)%nat -> is_eol (nth (p + j) m 0%N) = false).
  { intros j J. rewrite NT by lia. rewrite app_nth1 by lia. apply is_eol_false. apply (proj1 (Forall_nth _ _) T). lia. }
  assert (YE : is_eol (nth (p + length l) m 0%N) = true).
  { rewrite NT by lia. rewrite app_nth2, Nat.sub_diag by lia. apply is_eol_iff. exact Ee. }
  split.
  - destruct (find_eol_spec m n p H) as [(i & -> & A & B & C)|[_ C]].
    + destruct (lt_eq_lt_dec i (length l)) as [[Q|Q]|Q]; [rewrite NE in B by lia; discriminate|subst; reflexivity|rewrite C in YE by lia; discriminate].
    + rewrite C in YE by lia. discriminate.
  - replace (firstn (length l) (skipn p m)) with (firstn (length l) (firstn n (skipn p m))) by (rewrite firstn_firstn; f_equal; lia).
    rewrite E, firstn_app, Nat.sub_diag, firstn_all. cbn [firstn]. apply app_nil_r.
Qed.

Lemma pass_safe v s line n sod : view_contract v -> announcements_expected v -> lw s -> span line n ->
  exists ev out sod', pass cap v s line n sod = Ok (ev, out, sod') /\
    match out with Stop s' => wf s' | Next s' line' n' => lw s' /\ span line' n' /\ (n' < n)%nat end.
Proof.
  intros VC VA LW SP. pose proof VC as (VI & VS & VD & VT). unfold pass.
  destruct (skip_eol_spec (rx_buf s) n line) as (l1 & n1 & -> & E1 & G1).
  { destruct LW as ([BL _] & _). destruct SP as [S|[S ->]]; lia. }
  cbn [bind].
  assert (SP1 : span l1 n1) by (destruct SP as [S|[S ->]]; [left; lia|right; lia]).
  assert (N1 : (n1 <= n)%nat) by lia. clear E1 G1 SP.
  destruct (preprocessInput_safe v s l1 n1 VC LW SP1) as (out1 & -> & O1). cbn [bind].
  destruct out1 as [s1|s1 l2 n2]; [eexists _, _, _; split; [reflexivity|exact O1]|].
  destruct O1 as (LW1 & SP2 & N2).
  destruct (preprocessLine_safe v s1 l2 n2 sod VC VA LW1 SP2) as (out2 & sod2 & -> & O2). cbn [bind].
  destruct out2 as [s2|s2 l3 n3]; [eexists _, _, _; split; [reflexivity|exact O2]|].
  destruct O2 as (-> & NP & ML & R2 & RD).
  assert (L3 : (l2 + n3 <= S cap)%nat) by (destruct RD as [((? & ? & _) & _)|((? & ? & _) & _)]; lia).
  destruct (find_eol_spec (rx_buf s2) n3 l2) as [(i & EF & IL & IE & IN)|[EF FN]]; [lia| |]; rewrite EF; cbn [bind].
  2:{ eexists _, _, _. split; [reflexivity|]. destruct RD as [((A1 & A2 & A3) & AD)|((-> & _ & _ & _ & Y) & _)].
      - split; [split; [exact ML|exact A3]|]. split; [left; exact A2|]. split; [exact R2|]. cbn [set_left rx_dlen rx_resp].
        destruct AD as [AD|(_ & _ & l & e & rest & AL & AT & AE & _)]; [congruence|]. exfalso.
        destruct (find_eol_text (rx_buf s2) l2 n3 l e rest AL) as [Q _]; [lia|exact AT|exact AE|]. rewrite EF in Q. discriminate.
      - rewrite FN in Y by lia. discriminate. }
  rewrite st_ok by lia. cbn [bind]. rewrite line_at; [|lia|exact IN]. cbn [bind].
  set (txt := firstn i (skipn l2 (rx_buf s2))) in *.
  set (m := upd (rx_buf s2) (l2 + i) 0%N) in *.
  assert (BM : buf_ok m).
  { split; [unfold m; rewrite upd_length; exact ML|]. unfold m. rewrite upd_nth.
    destruct ((cap =? l2 + i)%nat && (l2 + i <? length (rx_buf s2))%nat) eqn:Q; [reflexivity|].
    destruct RD as [((_ & _ & A3) & _)|((-> & A2 & A3 & A4 & A5) & _)]; [exact A3|].
    assert (i = n2) by (destruct (Nat.eq_dec i n2); [assumption|]; rewrite A4 in IE by lia; discriminate). subst i.
    apply A3. destruct (Nat.eq_dec (l2 + n2) cap); [|lia].
    rewrite andb_false_iff in Q. destruct Q as [Q|Q]; [apply Nat.eqb_neq in Q; lia|apply Nat.ltb_ge in Q; lia]. }
  assert (MEAS : (n3 - S i < n2)%nat /\ ((l2 + n3 <= cap)%nat \/ n3 = S i)).
  { destruct RD as [((A1 & A2 & A3) & _)|((-> & A2 & A3 & A4 & A5) & _)]; [split; [lia|left; lia]|].
    assert (i = n2) by (destruct (Nat.eq_dec i n2); [assumption|]; rewrite A4 in IE by lia; discriminate). subst i. split; [lia|right; lia]. }
  set (s3 := set_buf s2 m).
  destruct (handleMsgType_safe v (getMsgType (v_tokens v) (v_cmd v) txt (v_prefix v)) s3 l2 txt VT BM R2) as (st & mt' & ev & s4 & -> & HM & HP); [lia|].
  cbn [bind].
  assert (AD : rx_dlen s3 = 0%nat \/ (rx_dlen s3 <> 0%nat /\ (exists p, sod2 = Some p /\ (l2 <= p <= l2 + n3)%nat) /\ (l2 + n3 <= cap)%nat /\ (n3 <= n2)%nat /\
      st = PKT_PENDING_BUFFER /\ rx_buf s4 = m /\ rx_dlen s4 = rx_dlen s3 /\ resp_ok (rx_resp s4) /\ exists r, rx_resp s4 = Some r)).
  { destruct RD as [((A1 & A2 & A3) & [AD|(AN & AP & l & e & rest & AL & AT & AE & AU & AC & A6 & A7)])|(_ & AD)]; [left; exact AD| |left; exact AD].
    right. destruct (find_eol_text (rx_buf s2) l2 n3 l e rest AL) as [Q Q2]; [lia|exact AT|exact AE|]. rewrite EF in Q. inversion Q; subst i.
    assert (TX : txt = l) by exact Q2. rewrite TX in *.
    destruct (HP (proj2 (proj1 (classification _ _ _ _ AU)) AC) A7 A6) as (-> & -> & -> & ->).
    split; [exact AN|]. split; [exact AP|]. split; [exact A2|]. split; [exact A1|]. split; [reflexivity|]. split; [reflexivity|]. split; [reflexivity|].
    split; [|eexists; reflexivity]. cbn [set_resp rx_resp resp_ok]. apply forall_snoc; [apply resp_ok_new; exact R2|]. split; cbn; [lia|exact I]. }
  destruct AD as [AD|(AN & (p & -> & PL) & A2 & A1 & -> & B4 & D4 & R4 & r & ER)].
  - destruct HM as [(-> & HS & HD)|(B4 & D4 & R4 & HS)].
    + eexists _, _, _. split; [reflexivity|]. rewrite HS. cbn. repeat split; cbn; [now rewrite repeat_length|apply buf_zero|left; lia|].
      rewrite HD, AD. congruence.
    + assert (LW4 : lw s4) by (split; [rewrite B4; exact BM|]; split; [exact R4|congruence]).
      assert (NXT : forall st0, exists ev' out sod', (do x <- getNextLine s4 l2 n3 i st0 mt'; Ok (ev, x, sod2)) = Ok (ev', out, sod') /\
         match out with Stop s' => wf s' | Next s' line' n' => lw s' /\ span line' n' /\ (n' < n)%nat end).
      { intro st0. destruct (getNextLine_safe s4 l2 n3 i st0 mt' LW4 IL L3 (proj2 MEAS)) as (s5 & l5 & n5 & -> & Q1 & Q2 & Q3).
        cbn [bind]. eexists _, _, _. split; [reflexivity|]. split; [exact Q1|]. split; [exact Q2|]. lia. }
      destruct HS as [->|[->|[-> HS]]]; try apply NXT.
      rewrite D4, AD. cbn [Nat.eqb negb]. apply NXT.
  - change (rx_dlen s3) with (rx_dlen s2) in *. rewrite D4. destruct (rx_dlen s2 =? 0)%nat eqn:Z; [apply Nat.eqb_eq in Z; contradiction|]. cbn [negb].
    unfold handleData. replace (p <? l2)%nat with false by (symmetry; apply Nat.ltb_ge; lia).
    replace (l2 + n3 <? p)%nat with false by (symmetry; apply Nat.ltb_ge; lia). cbn [orb]. rewrite ER, D4.
    destruct (rx_dlen s2 <=? n3 - (p - l2))%nat eqn:EA; cbn [bind].
    + apply Nat.leb_le in EA.
      assert (RO : resp_ok (Some (saveRawData r p (rx_dlen s2)))).
      { rewrite ER in R4. apply forall_snoc; [exact R4|]. split; cbn; lia. }
      destruct (n3 - (p - l2) - rx_dlen s2 =? 0)%nat eqn:EZ.
      * eexists _, _, _. split; [reflexivity|]. split; [cbn; rewrite B4; exact BM|]. split; [left; cbn; lia|]. split; [exact RO|cbn; congruence].
      * eexists _, _, _. split; [reflexivity|]. split; [split; [cbn; rewrite B4; exact BM|split; [exact RO|reflexivity]]|].
        split; [left; lia|lia].
    + cbn [Nat.eqb]. eexists _, _, _. split; [reflexivity|]. apply Nat.leb_gt in EA.
      split; [cbn; rewrite B4; exact BM|]. split; [left; cbn; lia|]. split; [cbn; exact R4|]. cbn. intros _. congruence.
Qed.

Lemma loop_safe env : (forall t h, view_contract (env t h) /\ announcements_expected (env t h)) ->
  forall fuel t h s line n sod, lw s -> span line n -> (n < fuel)%nat ->
  exists t' h' s', handleAllReceived cap fuel env t h s line n sod = Ok (t', h', s') /\ wf s'.
Proof.
  intro HE. induction fuel as [|fuel IH]; intros t h s line n sod LW SP F; [lia|]. cbn [handleAllReceived].
  destruct (pass_safe (env t h) s line n sod (proj1 (HE t h)) (proj2 (HE t h)) LW SP) as (ev & out & sod' & -> & O). cbn [bind].
  destruct out as [s'|s' l' n']; [eauto 6|]. destruct O as (A & B & C). apply IH; [exact A|exact B|lia].
Qed.

Lemma readline_safe s recv : wf s -> recv_contract recv ->
  exists pl bytes s', ReadLine cap s recv = Ok (pl, bytes, s') /\ buf_ok (rx_buf s') /\ resp_ok (rx_resp s') /\
    rx_resp s' = rx_resp s /\ rx_dlen s' = rx_dlen s /\
    ((bytes = 0%nat /\ wf s') \/ (exists p, pl = Some p /\ (p + bytes <= cap)%nat /\ (0 < bytes)%nat)).
Proof.
  intros (B & SP & R & D) RC. unfold ReadLine. fold (off s).
  set (compact := _ && _ && _).
  assert (S1 : exists s1, (if compact then
              do d <- rd (rx_buf s) (off s) (rx_partial s);
              do m <- wr (rx_buf s) 0 d;
              do m' <- st m (rx_partial s) 0%N;
              Ok (set_left (set_buf s m') (Some 0%nat) (rx_partial s))
            else Ok s) = Ok s1 /\ buf_ok (rx_buf s1) /\ rx_partial s1 = rx_partial s /\ rx_resp s1 = rx_resp s /\ rx_dlen s1 = rx_dlen s /\
            span (if compact then 0 else off s)%nat (rx_partial s1) /\ off s1 = (if compact then 0 else off s)%nat).
  { destruct compact eqn:EC; [|exists s; auto 10].
    assert (SP' : (off s + rx_partial s <= cap)%nat).
    { destruct SP as [S|[_ Z]]; [exact S|]. unfold compact in EC. rewrite Z in EC. cbn in EC. rewrite andb_false_r in EC. discriminate. }
    pose proof B as [BL BZ]. rewrite rd_ok by lia. cbn [bind]. set (d := firstn _ _).
    assert (DL : length d = rx_partial s) by (unfold d; rewrite firstn_length, skipn_length; lia).
    assert (W : wr (rx_buf s) 0 d = Ok (firstn 0 (rx_buf s) ++ d ++ skipn (0 + length d) (rx_buf s))) by (apply wr_ok; lia).
    rewrite W. cbn [bind]. pose proof (wr_length _ _ _ _ W) as WL. rewrite st_ok by lia. cbn [bind].
    eexists. split; [reflexivity|]. cbn. split; [apply buf_st; eapply buf_wr; [exact B|exact W|lia]|]. repeat split; auto. left; lia. }
  destruct S1 as (s1 & -> & B1 & P1 & R1 & D1 & SP1 & O1). cbn [bind].
  set (base := if compact then 0%nat else off s) in *.
  destruct (0 <? cap - rx_partial s1 - base)%nat eqn:EP.
  - apply Nat.ltb_lt in EP. pose proof (RC (cap - rx_partial s1 - base)%nat) as RL. set (bs := recv _) in *.
    pose proof B1 as [BL BZ]. assert (W : wr (rx_buf s1) (base + rx_partial s1) bs = Ok (firstn (base + rx_partial s1) (rx_buf s1) ++ bs ++ skipn (base + rx_partial s1 + length bs) (rx_buf s1))) by (apply wr_ok; lia).
    rewrite W. cbn [bind]. set (m := firstn _ _ ++ _) in *. pose proof (wr_length _ _ _ _ W) as WL.
    assert (BM : buf_ok m) by (eapply buf_wr; [exact B1|exact W|lia]).
    destruct (0 <? length bs)%nat eqn:EB.
    + apply Nat.ltb_lt in EB. rewrite st_ok by lia. cbn [bind]. eexists _, _, _. split; [reflexivity|]. cbn [set_left set_buf rx_buf rx_resp rx_dlen].
      split; [apply buf_st; exact BM|]. split; [rewrite R1; exact R|]. split; [exact R1|]. split; [exact D1|]. right. exists base. split; [reflexivity|]. lia.
    + eexists _, _, _. split; [reflexivity|]. cbn. split; [exact BM|]. split; [rewrite R1; exact R|]. split; [exact R1|]. split; [exact D1|]. left. split; [reflexivity|].
      split; [exact BM|]. split; [|split; [cbn; rewrite R1; exact R|cbn; rewrite D1, R1; exact D]].
      change (off (set_buf s1 m)) with (off s1). cbn. rewrite O1. exact SP1.
  - eexists _, _, _. split; [reflexivity|]. cbn. split; [exact B1|]. split; [rewrite R1; exact R|]. split; [exact R1|]. split; [exact D1|]. left. split; [reflexivity|].
    split; [exact B1|]. split; [left; cbn; lia|]. split; [cbn; rewrite R1; exact R|cbn; rewrite D1, R1; exact D].
Qed.

Lemma event_safe env fuel t h s recv : (forall t h, view_contract (env t h) /\ announcements_expected (env t h)) ->
  wf s -> recv_contract recv -> (cap < fuel)%nat ->
  exists k t' h' s', handleRxDataEvent cap fuel env t h s recv = Ok (k, t', h', s') /\ wf s'.
Proof.
  intros HE W RC F. unfold handleRxDataEvent. pose proof W as (B & SP & R & D).
  destruct (readline_safe s recv W RC) as (pl & bytes & s1 & -> & B1 & R1 & RE & DE & [[-> W1]|(p & -> & PB & PP)]); cbn [bind].
  { cbn [Nat.ltb Nat.leb]. eauto 8. }
  replace (0 <? bytes)%nat with true by (symmetry; apply Nat.ltb_lt; lia).
  assert (LOOP : forall s2 l2 n2, buf_ok (rx_buf s2) -> resp_ok (rx_resp s2) -> rx_dlen s2 = 0%nat -> (l2 + n2 <= cap)%nat -> (0 < n2)%nat ->
     exists k t' h' s', (do m <- st (rx_buf s2) (l2 + n2) 0%N;
          do q <- handleAllReceived cap fuel env t h (set_buf s2 m) l2 n2 None;
          let '(t', h', s3) := q in Ok (bytes, t', h', s3)) = Ok (k, t', h', s') /\ wf s').
  { intros s2 l2 n2 B2 R2 D2 L2 N2. pose proof B2 as [BL _]. rewrite st_ok by lia. cbn [bind].
    destruct (loop_safe env HE fuel t h (set_buf s2 (upd (rx_buf s2) (l2 + n2) 0%N)) l2 n2 None) as (t' & h' & s' & -> & WF').
    - split; [apply buf_st; exact B2|split; [exact R2|exact D2]].
    - left; exact L2.
    - lia.
    - cbn [bind]. eauto 8. }
  destruct (rx_dlen s1 =? 0)%nat eqn:ED; cbn [negb].
  - apply Nat.eqb_eq in ED. cbn [bind]. replace (0 <? bytes)%nat with true by (symmetry; apply Nat.ltb_lt; lia).
    apply LOOP; [exact B1|exact R1|exact ED|exact PB|exact PP].
  - apply Nat.eqb_neq in ED. destruct (rx_resp s1) as [r|] eqn:ER; [|rewrite <- RE in D; rewrite DE in ED; exfalso; exact (D ED eq_refl)].
    unfold handleData. rewrite Nat.ltb_irrefl. replace (p + bytes <? p)%nat with false by (symmetry; apply Nat.ltb_ge; lia). cbn [orb].
    rewrite Nat.sub_diag, Nat.sub_0_r, ER. destruct (rx_dlen s1 <=? bytes)%nat eqn:EA; cbn [bind].
    + apply Nat.leb_le in EA.
      assert (RO : resp_ok (Some (saveRawData r p (rx_dlen s1)))).
      { apply forall_snoc; [exact R1|]. split; cbn; lia. }
      destruct (0 <? bytes - rx_dlen s1)%nat eqn:EZ.
      * apply Nat.ltb_lt in EZ. apply LOOP; [exact B1|exact RO|reflexivity|lia|exact EZ].
      * eexists _, _, _, _. split; [reflexivity|]. split; [exact B1|]. apply Nat.ltb_ge in EZ. split; [left; cbn; lia|]. split; [exact RO|cbn; congruence].
    + apply Nat.leb_gt in EA. cbn [Nat.ltb Nat.leb]. eexists _, _, _, _. split; [reflexivity|]. split; [exact B1|].
      split; [left; cbn; lia|]. split; [cbn; rewrite ER; exact R1|cbn; congruence].
Qed.

Lemma reader_safe env fuel : (forall t h, view_contract (env t h) /\ announcements_expected (env t h)) -> (cap < fuel)%nat ->
  forall inp t h s, wf s -> Forall recv_contract inp ->
  exists t' h' s', reader cap fuel env t h s inp = Ok (t', h', s') /\ wf s'.
Proof.
  intros HE F. induction inp as [|r inp IH]; intros t h s W C; cbn [reader]; [eauto 6|].
  inversion C; subst. destruct (event_safe env fuel t h s r HE W H1 F) as (k & t' & h' & s' & -> & W'). cbn [bind]. apply IH; assumption.
Qed.
Lemma wf_rx0 : wf (rx0 cap).
Proof. split; [apply buf_zero|]. split; [left; cbn; lia|]. split; [exact I|]. cbn; congruence. Qed.
End Safe.

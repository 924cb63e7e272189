(** Receiving payloads through the whole request path: one action. *)
From Coq Require Import List NArith ZArith Bool Arith Lia.
From Verif Require Import Bytes AtCore Status SpecAt AtProofs AtProofs3 Pktio SpecPktio PktioLine PktioSafe SpecStream PktioStream PktioText.
From Verif Require Import Request SpecRequest SpecAnswers RequestInv RequestTidy Whole SpecWhole WholeProofs Payload SpecPayload PayloadProofs.
Import ListNotations.

Section P.
Variable cap : nat.
Variable tt : token_table.
Variable cbs : callbacks.
Hypothesis TK : tables_ok (tokens_now tt None).

Notation PI := (PI cap tt cbs).
Notation hist := (hist cbs).
Notation exec_p := (pexec cap tt cbs).

(** ** An application thread *)
Lemma between_frame c c' : resp c' = resp c -> responses_given c' = responses_given c -> forall us, between c us -> between c' us.
Proof. intros B C us. unfold between. rewrite C, (texts_frame _ _ B). intro H. exact H. Qed.
Lemma awaiting_frame c c' : resp c' = resp c -> responses_given c' = responses_given c -> forall us, awaiting c us -> awaiting c' us.
Proof. intros B C us. unfold awaiting. rewrite C, (texts_frame _ _ B). intro H. exact H. Qed.
Ltac FR := first [apply between_frame | apply awaiting_frame].
Lemma step_app lbs p a r : small (w_core (p_whole p)) -> PI lbs p -> proper cap tt cbs p (PApp a) -> exec_p (PApp a) p = Some r ->
  exists p', r = Ok p' /\ PI (lbs ++ [PApp a]) p' /\ small (w_core (p_whole p')).
Proof.
  intros SM PV (CL & KC) E. cbn [pexec wexec] in E. destruct (app_label a) eqn:AL; [|discriminate]. destruct (exec tt a (w_core (p_whole p))) as [c'|] eqn:EX; [|discriminate].
  injection E as <-. eexists. split; [reflexivity|]. split; [|eapply exec_small; [exact SM|exact CL|exact EX]].
  destruct (app_frame tt a _ _ AL EX) as (F1 & F2 & F3). pose proof (app_log tt a _ _ AL EX) as HL. pose proof (texts_frame _ _ F2) as TX.
  destruct PV as [rest CP AT DL RI PK HI|rest CP AT PV HI|b line n rest CP AT PV DE NE HI|rest CP AT DL RI PK LN HI|line n i L ce e g rest id CP AT DL PV SD LN LT EE AS AN OD RD HI].
  - apply (PI_idle cap tt cbs _ _ rest); try eassumption; cbn [with_whole p_whole w_core w_rx w_at]; try congruence; rewrite ?TX; try exact PK. eapply hist_more; [exact HI|reflexivity|reflexivity|reflexivity|FR; assumption].
  - apply (PI_line cap tt cbs _ _ rest); try eassumption; cbn [with_whole p_whole w_core w_rx w_at]; [apply frame_pinv; assumption|]. eapply hist_more; [exact HI|reflexivity|reflexivity|reflexivity|intro us; apply judged_frame; assumption].
  - apply (PI_copy cap tt cbs _ _ b line n rest); try eassumption; cbn [with_whole p_whole w_core w_rx w_at]; [apply frame_pinv; eassumption|]. eapply hist_more; [exact HI|reflexivity|reflexivity|reflexivity|FR; assumption].
  - apply (PI_data cap tt cbs _ _ rest); try eassumption; cbn [with_whole p_whole w_core w_rx w_at]; try congruence; rewrite ?TX; try exact PK. eapply hist_more; [exact HI|reflexivity|reflexivity|reflexivity|FR; assumption].
  - destruct KC with (c' := c') as (K1 & K2 & K3 & K4); [split; [eauto|exact DL]|reflexivity|].
    apply (PI_announced cap tt cbs _ _ line n i L ce e g rest id); try eassumption; cbn [with_whole p_whole w_core w_rx w_at]; try assumption.
    + apply (frame_pinv cap (undata (p_whole p)) _ c' (w_fifo (p_whole p)) PV); assumption.
    + unfold of_data_command in *. rewrite K1, K2, K3, K4. exact OD.
    + rewrite F1, K2. exact RD.
    + eapply hist_more; [exact HI|reflexivity|reflexivity|reflexivity|FR; assumption].
Qed.

(** ** The modem sends *)
Lemma hist_send lbs bs p p' m u J : hist lbs p m u J -> w_fifo (p_whole p') = w_fifo (p_whole p) ++ bs -> p_asked p' = p_asked p -> hist (lbs ++ [PSend bs]) p' m u J.
Proof.
  intros (ps & us & A & B & C & D) F K. exists ps, us. rewrite sent_app, A, F, K. cbn [sent_bytes flat_map]. rewrite app_nil_r, <- !app_assoc. split; [reflexivity|]. split; [exact B|]. split; [exact C|].
  intros NR. apply D. eapply refused_before. exact NR.
Qed.
Lemma step_send lbs p bs r : small (w_core (p_whole p)) -> PI lbs p -> exec_p (PSend bs) p = Some r ->
  exists p', r = Ok p' /\ PI (lbs ++ [PSend bs]) p' /\ small (w_core (p_whole p')).
Proof.
  intros SM PV E. cbn [pexec wexec] in E. injection E as <-. eexists. split; [reflexivity|]. split; [|exact SM].
  destruct PV as [rest CP AT DL RI PK HI|rest CP AT PV HI|b line n rest CP AT PV DE NE HI|rest CP AT DL RI PK LN HI|line n i L ce e g rest id CP AT DL PV SD LN LT EE AS AN OD RD HI].
  - apply (PI_idle cap tt cbs _ _ rest); try eassumption. eapply hist_send; [exact HI|reflexivity|reflexivity].
  - apply (PI_line cap tt cbs _ _ rest); try eassumption. eapply hist_send; [exact HI|reflexivity|reflexivity].
  - apply (PI_copy cap tt cbs _ _ b line n rest); try eassumption. eapply hist_send; [exact HI|reflexivity|reflexivity].
  - apply (PI_data cap tt cbs _ _ rest); try eassumption. eapply hist_send; [exact HI|reflexivity|reflexivity].
  - apply (PI_announced cap tt cbs _ _ line n i L ce e g rest id); try eassumption. eapply hist_send; [exact HI|reflexivity|reflexivity].
Qed.

(** ** Taking the payload *)
Lemma raw_of x b r its q k a pl : items_rel (rx_buf x) b (rx_resp x) (a ++ [pl]) -> rx_resp x = Some r -> r_items r = its ++ [{| it_ptr := q; it_raw := Some k |}] -> raw_bytes x = pl.
Proof.
  intros IR RX RI. unfold raw_bytes. unfold items_rel in IR. rewrite RX in *. rewrite RI in *. rewrite rev_unit. apply Forall2_app_inv_r in IR. destruct IR as (i1 & i2 & _ & F2 & EQ).
  inversion F2 as [|it2 pl2 l2 l3 CA F3 E1 E2]; subst. inversion F3; subst. apply app_inj_tail in EQ. destruct EQ as (_ & EQ). subst it2. unfold content_at in CA. cbn in CA. apply CA.
Qed.
Lemma handle_data x line n q S a r : buf_ok cap (rx_buf x) -> (line + n <= cap)%nat -> (line <= q <= line + n)%nat -> firstn (line + n - q) (skipn q (rx_buf x)) = S ->
  rx_resp x = Some r -> Forall2 (content_at (rx_buf x) q) (r_items r) a -> rx_dlen x <> 0%nat ->
  ((length S < rx_dlen x)%nat /\ exists x', handleData (Some q) x line n = Ok (line, 0%nat, x') /\ parked cap x' S a /\ rx_dlen x' = rx_dlen x) \/
  ((rx_dlen x <= length S)%nat /\ exists x' line' lft its, handleData (Some q) x line n = Ok (line', lft, x') /\ rx_dlen x' = 0%nat /\ lft = (length S - rx_dlen x)%nat /\
     holds cap x' line' lft (skipn (rx_dlen x) S) (a ++ [firstn (rx_dlen x) S]) /\ parked cap x' (skipn (rx_dlen x) S) (a ++ [firstn (rx_dlen x) S]) /\
     raw_bytes x' = firstn (rx_dlen x) S /\ exists r', rx_resp x' = Some r' /\ r_items r' = its ++ [{| it_ptr := q; it_raw := Some (rx_dlen x) |}]).
Proof.
  intros HB HL HQ HS RX FA DN. pose proof HB as (BL & _). set (d := rx_dlen x) in *.
  assert (LS : length S = (line + n - q)%nat) by (rewrite <- HS, firstn_length, skipn_length; lia).
  unfold handleData. replace (q <? line)%nat with false by (symmetry; apply Nat.ltb_ge; lia). replace (line + n <? q)%nat with false by (symmetry; apply Nat.ltb_ge; lia). cbn [orb].
  replace (n - (q - line))%nat with (length S) by lia. fold d. destruct (d <=? length S)%nat eqn:EA.
  - apply Nat.leb_le in EA. right. split; [exact EA|]. rewrite RX. eexists _, _, _, (r_items r). split; [reflexivity|]. split; [reflexivity|]. split; [reflexivity|].
    set (pl := firstn d S). assert (LPL : length pl = d) by (unfold pl; rewrite firstn_length; lia).
    assert (PM : firstn d (skipn q (rx_buf x)) = pl) by (unfold pl; rewrite <- HS, firstn_firstn; f_equal; lia).
    assert (RST : firstn (length S - d) (skipn (q + d) (rx_buf x)) = skipn d S).
    { rewrite <- (skipn_skipn' (rx_buf x) d q). rewrite <- HS at 2. rewrite skipn_firstn_comm. f_equal. lia. }
    assert (FR2 : Forall2 (content_at (rx_buf x) (q + d)) (r_items (saveRawData r q d)) (a ++ [pl])).
    { apply Forall2_app; [eapply (content_mono cap); [exact FA|lia]|constructor; [|constructor]]. unfold content_at. cbn [it_raw it_ptr]. split; [symmetry; exact LPL|]. split; [exact PM|lia]. }
    split; [split; [exact HB|]; split; [lia|]; split; [exact RST|exact FR2]|]. split; [split; [exact HB|]; split; [cbn; lia|]; split; [exact RST|]; split; [exact FR2|cbn; congruence]|].
    split; [eapply raw_of with (b := (q + d)%nat); [exact FR2|reflexivity|reflexivity]|]. eexists. split; reflexivity.
  - apply Nat.leb_gt in EA. left. split; [exact EA|]. eexists. split; [reflexivity|]. split; [|reflexivity].
    split; [exact HB|]. split; [cbn; lia|]. split; [cbn; rewrite LS; exact HS|]. split; [cbn; unfold items_rel; rewrite RX; exact FA|cbn; congruence].
Qed.

Lemma texts_add l c : texts (add_item l c) = texts c ++ [l_text l].
Proof. unfold texts, add_item. cbn [resp set_resp]. rewrite map_app. destruct (resp c); reflexivity. Qed.
Lemma small_add l c : small c -> small (add_item l c).
Proof. intro H. exact H. Qed.
Lemma hist_payload lbs p d u c c' pl u' : hist lbs p (Some d) u (awaiting c) -> u = pl ++ u' -> length pl = d -> responses_given c' = responses_given c -> texts c' = texts c ++ [pl] ->
  hist lbs p None u' (between c').
Proof.
  intros (ps & us & A & B & (u0 & l & cur & b & -> & T & Q) & D) -> <- RG TX. exists (ps ++ [Data pl]), (u0 ++ [[l; pl]]). rewrite flat_app. cbn [flat flat_map bytes_of app]. rewrite app_nil_r, A, <- !app_assoc.
  split; [reflexivity|]. split; [apply wc_data; exact B|]. split.
  - exists (cur ++ [[l; pl]]), false. rewrite RG, TX. split; [eapply ca_item; exact T|]. rewrite concat_app, <- Q, <- app_assoc. reflexivity.
  - intros NR bs I. apply in_app_or in I. destruct I as [I|[I|[]]]; [exact (D NR bs I)|discriminate].
Qed.
Lemma holds_st x line n lft a : holds cap x line n lft a -> exists m, st (rx_buf x) (line + n) 0%N = Ok m /\ holds cap (set_buf x m) line n lft a.
Proof.
  intros (HB & HL & HS & HI). pose proof HB as (BL & _). rewrite st_ok by lia. eexists. split; [reflexivity|].
  split; [apply buf_st; exact HB|]. split; [exact HL|]. cbn [set_buf rx_buf rx_resp]. split; [rewrite slice_upd by lia; exact HS|].
  eapply (items_agree cap); [exact HI| |apply le_n]. eapply agree_le; [apply agree_upd|lia].
Qed.
Lemma holds_raw x line n lft a r its q k pl : holds cap x line n lft (a ++ [pl]) -> rx_resp x = Some r -> r_items r = its ++ [{| it_ptr := q; it_raw := Some k |}] -> raw_bytes x = pl.
Proof. intros (_ & _ & _ & HI). exact (raw_of _ _ _ _ _ _ _ _ HI). Qed.

Lemma step_read lbs p k r : small (w_core (p_whole p)) -> PI lbs p -> room cap (w_rx (p_whole p)) -> exec_p (PRead k) p = Some r ->
  exists p', r = Ok p' /\ PI (lbs ++ [PRead k]) p' /\ small (w_core (p_whole p')).
Proof.
  intros SM PV RM E. cbn [pexec] in E.
  assert (CASES : w_at (p_whole p) = Waiting /\ p_copy p = None /\ rd (w_core (p_whole p)) = RIdle /\ exists rest, parked cap (w_rx (p_whole p)) rest (texts (w_core (p_whole p))) /\
     hist lbs p (if (rx_dlen (w_rx (p_whole p)) =? 0)%nat then None else Some (rx_dlen (w_rx (p_whole p)))) rest (if (rx_dlen (w_rx (p_whole p)) =? 0)%nat then between (w_core (p_whole p)) else awaiting (w_core (p_whole p))) /\
     (rx_dlen (w_rx (p_whole p)) <> 0 -> length rest < rx_dlen (w_rx (p_whole p)))%nat).
  { destruct PV as [rest CP AT DL RI PK HI|rest CP AT PV HI|b line n rest CP AT PV DE NE HI|rest CP AT DL RI PK LN HI|line n i L ce e g rest id CP AT DL PV SD LN LT EE AS AN OD RD HI].
    - repeat (split; [assumption|]). exists rest. rewrite DL. cbn [Nat.eqb]. split; [exact PK|]. split; [exact HI|]. intro Q. congruence.
    - destruct (w_at (p_whole p)); [congruence|discriminate E|discriminate E].
    - rewrite AT in E. discriminate.
    - repeat (split; [assumption|]). exists rest. rewrite (proj2 (Nat.eqb_neq _ _) DL). auto.
    - rewrite AT in E. discriminate. }
  destruct CASES as (AT & CP & RI & rest & PK & HI & LN). rewrite AT in E. injection E as <-. clear PV. unfold read_more, read_bytes. set (w := p_whole p) in *.
  set (recv := fun space => firstn (Nat.min k space) (w_fifo w)).
  assert (RC : recv_contract recv) by (intro sp; unfold recv; cbv beta; rewrite firstn_length; pose proof (Nat.le_min_l (Nat.min k sp) (length (w_fifo w))); pose proof (Nat.le_min_r k sp); lia).
  destruct (readline_step cap (w_rx w) recv rest (texts (w_core w)) PK RM RC) as (pl & bytes & s1 & -> & D1 & R1 & HH). cbn [bind].
  set (got := recv (offered cap (w_rx w))) in *.
  assert (SP : got ++ skipn (length got) (w_fifo w) = w_fifo w) by (unfold got, recv; apply take_rest).
  destruct HH as [(-> & G0 & PK1)|(q & -> & BP & HO)].
  - cbn [Nat.ltb Nat.leb bind w_core w_rx w_fifo w_at]. rewrite D1. rewrite andb_comm, andb_negb_r. eexists. split; [reflexivity|]. split; [|exact SM].
    assert (HI' : forall m J, hist lbs p m rest J -> hist (lbs ++ [PRead k]) {| p_whole := {| w_core := w_core w; w_rx := s1; w_fifo := skipn (length got) (w_fifo w); w_at := Waiting |}; p_copy := None; p_sod := None; p_asked := p_asked p |} m rest J).
    { intros m J Q. eapply hist_move; [exact Q|reflexivity| |reflexivity|intros us Y; exact Y]. cbn [p_whole w_fifo]. rewrite G0. reflexivity. }
    destruct (rx_dlen (w_rx w) =? 0)%nat eqn:DZ.
    + apply Nat.eqb_eq in DZ. apply (PI_idle cap tt cbs _ _ rest); cbn; try assumption; try reflexivity; [congruence|]. apply HI'. exact HI.
    + apply Nat.eqb_neq in DZ. apply (PI_data cap tt cbs _ _ rest); cbn; try assumption; try reflexivity; rewrite D1; [exact DZ|auto|]. apply HI'. exact HI.
  - replace (0 <? bytes)%nat with true by (symmetry; apply Nat.ltb_lt; lia). rewrite D1.
    pose proof (holds_len cap _ _ _ _ _ HO) as LEN.
    assert (MOVE : forall lb w' u m J, hist lbs p m rest J -> u = rest ++ got -> w_fifo w' = skipn (length got) (w_fifo w) -> sent_bytes [lb] = [] ->
       hist (lbs ++ [lb]) {| p_whole := w'; p_copy := None; p_sod := None; p_asked := p_asked p |} m u J).
    { intros lb w' u m J Q -> WF SB. eapply hist_move; [exact Q|exact SB| |reflexivity|intros us Y; exact Y]. cbn [p_whole]. rewrite WF, <- app_assoc, SP. reflexivity. }
    destruct (rx_dlen (w_rx w) =? 0)%nat eqn:DZ; cbn [negb bind andb].
    + replace (0 <? bytes)%nat with true by (symmetry; apply Nat.ltb_lt; lia). destruct (holds_st _ _ _ _ _ HO) as (m & -> & HM). cbn [bind w_core w_rx w_fifo w_at].
      eexists. split; [reflexivity|]. split; [|exact SM]. apply Nat.eqb_eq in DZ. apply (PI_line cap tt cbs _ _ (rest ++ got)); cbn [p_copy p_whole w_at w_core]; try reflexivity; [discriminate| |].
      * split; [cbn; congruence|]. cbn [w_at w_core w_rx]. split; [exact HM|exact RI].
      * apply MOVE; try reflexivity. destruct HI as (ps & us & A & B & C & D). exists ps, us. split; [exact A|]. split; [exact B|]. split; [|exact D]. apply between_idle; [exact RI|exact C].
    + apply Nat.eqb_neq in DZ. destruct PK as (_ & _ & _ & _ & PD). specialize (PD DZ). destruct (rx_resp (w_rx w)) as [r|] eqn:RX; [|congruence].
      destruct HO as (HB & HL & HS & HIT). unfold items_rel in HIT. rewrite R1 in HIT.
      destruct (handle_data s1 q bytes q (rest ++ got) (texts (w_core w)) r HB HL ltac:(lia)) as [(SH & x' & -> & PK' & D')|(CO & x' & line' & lft & its & -> & D' & LE & HO' & PK' & RB & r' & RX' & RI')];
        [rewrite <- HS; f_equal; lia|exact R1|exact HIT|congruence| |]; cbn [bind].
      * cbn [Nat.ltb Nat.leb bind w_core w_rx w_fifo w_at]. rewrite D', D1, (proj2 (Nat.eqb_neq _ _) DZ). eexists. split; [reflexivity|]. split; [|exact SM].
        apply (PI_data cap tt cbs _ _ (rest ++ got)); cbn [p_copy p_whole w_at w_core w_rx]; try assumption; try reflexivity; rewrite ?D', ?D1 in *; try assumption. apply MOVE; try reflexivity. exact HI.
      * rewrite D1 in *. set (d := rx_dlen (w_rx w)) in *. set (pay := firstn d (rest ++ got)) in *. set (u := skipn d (rest ++ got)) in *.
        assert (PU : rest ++ got = pay ++ u) by (symmetry; apply firstn_skipn).
        assert (LP : length pay = d) by (unfold pay; rewrite firstn_length; lia).
        assert (NEW : forall x w', w_fifo w' = skipn (length got) (w_fifo w) -> w_core w' = add_item (payload_item x) (w_core w) -> x = pay ->
           hist (lbs ++ [PRead k]) {| p_whole := w'; p_copy := None; p_sod := None; p_asked := p_asked p |} None u (between (add_item (payload_item x) (w_core w)))).
        { intros x w' WF WC ->. eapply hist_payload; [|exact PU|exact LP| |apply texts_add]. 1:apply MOVE; [exact HI|reflexivity|exact WF|reflexivity]. apply given_same. reflexivity. }
        destruct (0 <? lft)%nat eqn:ZL.
        -- destruct (holds_st _ _ _ _ _ HO') as (m & -> & HM). cbn [bind w_core w_rx w_fifo w_at set_buf rx_dlen]. rewrite D'. cbn [Nat.eqb].
           assert (RB2 : raw_bytes (set_buf x' m) = pay) by (eapply holds_raw; [exact HM|exact RX'|exact RI']).
           eexists. split; [reflexivity|]. split; [|exact SM]. apply (PI_line cap tt cbs _ _ u); cbn [p_copy p_whole w_at w_core]; try reflexivity; [discriminate| |].
           ++ split; [exact D'|]. cbn [w_at w_core w_rx]. split; [rewrite texts_add, RB2; exact HM|exact RI].
           ++ destruct (NEW _ {| w_core := add_item (payload_item (raw_bytes (set_buf x' m))) (w_core w); w_rx := set_buf x' m; w_fifo := skipn (length got) (w_fifo w); w_at := Scanning line' lft |} eq_refl eq_refl RB2) as (ps & us & A & B & C & D).
              exists ps, us. split; [exact A|]. split; [exact B|]. split; [|exact D]. apply between_idle; [exact RI|exact C].
        -- apply Nat.ltb_ge in ZL. cbn [bind w_core w_rx w_fifo w_at]. rewrite D'. cbn [Nat.eqb]. eexists. split; [reflexivity|]. split; [|exact SM].
           apply (PI_idle cap tt cbs _ _ u); cbn [p_copy p_whole w_at w_core w_rx]; try reflexivity; [exact D'|exact RI| |].
           ++ rewrite texts_add; cbn [payload_item l_text]; rewrite RB. exact PK'.
           ++ eapply NEW; [reflexivity|reflexivity|exact RB].
Qed.

(** ** Copying the callback's pointer *)
Lemma skip_same S : drop_eol (drop_eol S) = drop_eol S.
Proof. induction S as [|c S IH]; [reflexivity|]. cbn. destruct (is_eol c) eqn:E; [exact IH|]. cbn. rewrite E. reflexivity. Qed.
Lemma hist_skip lbs p u J : hist lbs p None u J -> hist lbs p None (drop_eol u) J.
Proof.
  intros (ps & us & A & B & C & D). destruct (cut_skips _ _ _ _ u B) as (qs & B' & EQ & DQ). exists (ps ++ qs), us. rewrite flat_app, A.
  split; [rewrite EQ at 1; rewrite <- !app_assoc; reflexivity|]. split; [exact B'|]. split; [exact C|].
  intros NR bs I. apply in_app_or in I. destruct I as [I|I]; [exact (D NR bs I)|exact (DQ bs I)].
Qed.
Lemma hist_taken lbs p bs x J f : hist lbs p None (bs ++ x) J -> cb_input cbs = Some f -> f (bs ++ x) = (PKT_OK, length bs) -> hist lbs p None x J.
Proof.
  intros (ps & us & A & B & C & D) F E. exists (ps ++ [Taken bs]), us. rewrite flat_app, A. cbn [flat flat_map bytes_of]. rewrite app_nil_r.
  split; [rewrite <- !app_assoc; reflexivity|]. split; [eapply wc_taken; eassumption|]. split; [exact C|].
  intros NR b I. apply in_app_or in I. destruct I as [I|[I|[]]]; [exact (D NR b I)|discriminate].
Qed.
Lemma drop_clean S : (forall c x, S = c :: x -> ~ eol c) -> drop_eol S = S.
Proof.
  intro H. destruct S as [|c S]; [reflexivity|]. cbn. destruct (is_eol c) eqn:E; [|reflexivity]. exfalso. apply (H c S eq_refl). apply is_eol_iff. exact E.
Qed.
Lemma drop_split S : exists ends, S = ends ++ drop_eol S /\ Forall eol ends /\ forall c x, drop_eol S = c :: x -> ~ eol c.
Proof.
  induction S as [|c S (ends & A & B & C)]; [exists []; repeat split; [constructor|discriminate]|]. cbn [drop_eol]. destruct (is_eol c) eqn:E.
  - exists (c :: ends). split; [cbn; rewrite <- A; reflexivity|]. split; [constructor; [apply is_eol_iff; exact E|exact B]|exact C].
  - exists []. split; [reflexivity|]. split; [constructor|]. intros c0 x [= <- <-] Q. apply is_eol_iff in Q. congruence.
Qed.
(** With bytes to look at, the pointers are copied. *)
Lemma copy_PI lbs lb p x line n rest : rx_buf x = rx_buf (w_rx (p_whole p)) -> rx_resp x = rx_resp (w_rx (p_whole p)) -> rx_dlen x = 0%nat -> p_copy p = None ->
  holds cap x line n rest (texts (w_core (p_whole p))) -> rd (w_core (p_whole p)) = RIdle -> drop_eol rest = rest ->
  hist (lbs ++ [lb]) p None rest (between (w_core (p_whole p))) -> PI (lbs ++ [lb]) (copy_pointers p x line n).
Proof.
  intros XB XR DL CP HO RI DE HI. pose proof (holds_len cap _ _ _ _ _ HO) as LS. destruct HO as (HB & HL & HS & HIT). unfold copy_pointers. destruct (n =? 0)%nat eqn:Z.
  - apply Nat.eqb_eq in Z. apply (PI_idle cap tt cbs _ _ rest); cbn [with_whole p_copy p_whole w_at w_core w_rx]; try assumption; try reflexivity.
    rewrite Z in *. split; [exact HB|]. split; [cbn; lia|]. split; [exact HS|]. split; [exact HIT|]. cbn. congruence.
  - apply (PI_copy cap tt cbs _ _ (scb (w_core (p_whole p)), dcb (w_core (p_whole p))) line n rest); cbn [p_copy p_whole w_at w_core w_rx]; try reflexivity; try assumption.
    + split; [exact DL|]. cbn [w_at w_core w_rx]. split; [|exact RI]. split; [exact HB|]. split; [lia|]. split; [exact HS|exact HIT].
    + intro Q. rewrite Q in LS. apply Nat.eqb_neq in Z. cbn in LS. lia.
Qed.
Lemma step_fetch lbs p r : small (w_core (p_whole p)) -> PI lbs p -> proper cap tt cbs p PFetch -> exec_p PFetch p = Some r ->
  exists p', r = Ok p' /\ PI (lbs ++ [PFetch]) p' /\ small (w_core (p_whole p')).
Proof.
  intros SM PV PR E. cbn [pexec] in E. destruct (w_at (p_whole p)) as [|line n|] eqn:AT; [discriminate| |discriminate]. destruct (p_copy p) eqn:CP; [discriminate|]. injection E as <-.
  destruct PV as [rest CP' AT' DL RI PK HI|rest CP' AT' PV HI|b line' n' rest CP' AT' PV DE NE HI|rest CP' AT' DL RI PK LN HI|line' n' i L ce e g rest id CP' AT' DL PV SD LN LT EE AS AN OD RD HI]; try congruence.
  pose proof PV as (DL & PV'). rewrite AT in PV'. destruct PV' as ((HB & HL & HS & HIT) & RI). unfold fetch. pose proof HB as (BL & _).
  assert (RD0 : Pktio.rd (rx_buf (w_rx (p_whole p))) line n = Ok rest) by (rewrite PktioSafe.rd_ok by lia; rewrite HS; reflexivity).
  destruct (drop_split rest) as (ends & ES & EE & EC). pose proof (PR line n rest ends (drop_eol rest) AT RD0 ES EE EC) as TP. clear PR RD0.
  destruct (skip_holds (rx_buf (w_rx (p_whole p))) n line rest) as (l1 & n1 & -> & S1 & E1 & G1); [lia|exact HS|]. cbn [bind].
  assert (HI1 : items_rel (rx_buf (w_rx (p_whole p))) l1 (rx_resp (w_rx (p_whole p))) (texts (w_core (p_whole p)))) by (eapply (items_agree cap); [exact HIT|apply agree_refl|exact G1]).
  assert (LS : length (drop_eol rest) = n1) by (rewrite <- S1, firstn_length, skipn_length; lia).
  assert (HM : hist (lbs ++ [PFetch]) p None (drop_eol rest) (between (w_core (p_whole p)))).
  { eapply hist_move; [apply hist_skip; exact HI|reflexivity|reflexivity|reflexivity|]. intros us Y. apply (between_idle _ _ RI). exact Y. }
  assert (HO1 : holds cap (w_rx (p_whole p)) l1 n1 (drop_eol rest) (texts (w_core (p_whole p)))) by (split; [exact HB|]; split; [lia|]; split; [exact S1|exact HI1]).
  assert (KEEP : exists p', Ok (copy_pointers p (w_rx (p_whole p)) l1 n1) = Ok p' /\ PI (lbs ++ [PFetch]) p' /\ small (w_core (p_whole p'))).
  { eexists. split; [reflexivity|]. split; [eapply copy_PI; try eassumption; try reflexivity; apply skip_same|]. unfold copy_pointers. destruct (n1 =? 0)%nat; exact SM. }
  destruct (cb_input cbs) as [f|] eqn:CI; [|exact KEEP].
  assert (RD1 : Pktio.rd (rx_buf (w_rx (p_whole p))) l1 n1 = Ok (drop_eol rest)) by (rewrite PktioSafe.rd_ok by lia; rewrite S1; reflexivity).
  rewrite RD1. cbn [bind]. specialize (TP f CI). destruct (f (drop_eol rest)) as [s len] eqn:FS. destruct TP as [(-> & LE & CL)|[-> | ->]].
  - rewrite LS in LE. replace (n1 <? len)%nat with false by (symmetry; apply Nat.ltb_ge; exact LE).
    eexists. split; [reflexivity|]. split; [|unfold copy_pointers; destruct (n1 - len =? 0)%nat; exact SM].
    set (S := drop_eol rest) in *. rewrite <- (firstn_skipn len S) in FS, HM. assert (LF : length (firstn len S) = len) by (rewrite firstn_length; lia).
    eapply copy_PI with (rest := skipn len S); try assumption; try reflexivity.
    + split; [exact HB|]. split; [lia|]. cbn [set_left rx_buf rx_resp]. split.
      * rewrite <- (skipn_skipn' (rx_buf (w_rx (p_whole p))) len l1). rewrite <- S1. rewrite skipn_firstn_comm. reflexivity.
      * eapply (items_agree cap); [exact HI1|apply agree_refl|lia].
    + apply drop_clean. exact CL.
    + eapply hist_taken; [exact HM|exact CI|rewrite LF; exact FS].
  - cbn [handleCallbackResult]. exact KEEP.
  - cbn [handleCallbackResult]. eexists. split; [reflexivity|]. split; [|exact SM].
    apply (PI_idle cap tt cbs _ _ (drop_eol rest)); cbn [with_whole p_copy p_whole w_at w_core w_rx]; try assumption; try reflexivity.
    split; [exact HB|]. split; [cbn; lia|]. split; [exact S1|]. split; [exact HI1|]. cbn. congruence.
Qed.

(** ** Calling it and looking for the line *)
Definition with_dlen (d : nat) (w : whole) : whole := {| w_core := w_core w; w_rx := set_dlen (w_rx w) d; w_fifo := w_fifo w; w_at := w_at w |}.
Lemma scan_dlen w d line n : scan (with_dlen d w) line n = do w' <- scan w line n; Ok (with_dlen d w').
Proof.
  unfold scan, with_dlen. cbn [w_core w_rx w_fifo w_at set_dlen rx_buf]. destruct (skip_eol _ _ _) as [[l1 n1]| |]; cbn [bind]; [|reflexivity|reflexivity].
  destruct (n1 =? 0)%nat; [reflexivity|]. destruct (find_eol _ _ _) as [[i|]| |]; cbn [bind]; [|reflexivity|reflexivity|reflexivity].
  destruct (st _ _ _) as [m| |]; cbn [bind]; [|reflexivity|reflexivity]. destruct (cstr_get m l1); reflexivity.
Qed.
Lemma dlen_same x : set_dlen x (rx_dlen x) = x. Proof. destruct x; reflexivity. Qed.
Lemma found_text c l : l_text (found c l) = l. Proof. unfold found. destruct (wire c); reflexivity. Qed.

(** The line the reader finds. *)
Lemma scan_found w rest line n : PInv cap w rest -> w_at w = Scanning line n -> drop_eol rest = rest ->
  exists w' rest', scan w line n = Ok w' /\ PInv cap w' rest' /\ w_fifo w' = w_fifo w /\
    ((w_core w' = w_core w /\ rest' = rest /\ w_at w' = Waiting /\ line_text rest) \/
     (exists l e, rest = l ++ e :: rest' /\ l <> [] /\ line_text l /\ eol e /\ w_core w' = set_rd (RGot (found (w_core w) l)) (set_wire (tl (wire (w_core w))) (w_core w)) /\
        w_at w' = Working line n (length l))).
Proof.
  intros PV AT DE. destruct (scan_step cap w rest line n PV AT) as (w' & rest' & E & PV' & FF & [(C1 & C2 & C3 & C4)|(l & e & C1 & C2 & C3 & C4 & C5)]); exists w', rest'; split; try exact E; split; try exact PV'; split; try exact FF.
  - left. rewrite DE in C2. subst rest'. auto.
  - right. rewrite DE in C1. exists l, e. repeat (split; [assumption|]).
    destruct (scan_filled _ _ _ _ E) as (FL & _).
    destruct PV as (_ & PV). rewrite AT in PV. destruct PV as (HO & _). pose proof (holds_len cap _ _ _ _ _ HO) as LR. rewrite C1, app_length in LR. cbn [length] in LR.
    destruct PV' as (_ & PV'). unfold filled in FL. destruct (w_at w') as [|l' n'|l' n' i'].
    + destruct PV' as (_ & Q & _). rewrite C5 in Q. discriminate.
    + destruct PV' as (_ & Q). rewrite C5 in Q. discriminate.
    + destruct PV' as ((BL & _) & LE & IN & SL & _ & _ & RL & _). destruct (RL (found (w_core w) l)) as (_ & LI); [rewrite C5; reflexivity|]. rewrite found_text in LI. subst i'.
      assert (LR' : length rest' = (n' - S (length l))%nat) by (rewrite <- SL, firstn_length, skipn_length; lia). f_equal; lia.
Qed.
Lemma hist_line lbs p u J l e u' : hist lbs p None u J -> u = l ++ e :: u' -> l <> [] -> line_text l -> eol e -> hist lbs p None u' (fun us => exists u0, us = u0 ++ [[l]] /\ J u0).
Proof.
  intros (ps & us & A & B & C & D) -> LN LT EE. exists (ps ++ [Text l e]), (us ++ [[l]]). rewrite flat_app. cbn [flat flat_map bytes_of app]. rewrite !app_nil_r, A, <- !app_assoc.
  split; [reflexivity|]. split; [apply wc_line; assumption|]. split; [exists us; split; [reflexivity|exact C]|].
  intros NR bs I. apply in_app_or in I. destruct I as [I|[I|[]]]; [exact (D NR bs I)|discriminate].
Qed.
Lemma hist_asked lbs p p' m u J y : hist lbs p m u J -> p_whole p' = p_whole p -> p_asked p' = y :: p_asked p -> hist lbs p' m u J.
Proof.
  intros (ps & us & A & B & C & D) W K. exists ps, us. rewrite W, K. split; [exact A|]. split; [eapply cut_more; [|exact B]; intros z I; right; exact I|]. split; [exact C|exact D].
Qed.
(** The end of the pass without announced bytes. *)
Lemma scanned lbs lb p line n rest p' w' : PInv cap (p_whole p) rest -> w_at (p_whole p) = Scanning line n -> drop_eol rest = rest -> small (w_core (p_whole p)) ->
  hist (lbs ++ [lb]) p' None rest (between (w_core (p_whole p))) -> p_whole p' = p_whole p ->
  scan (p_whole p) line n = Ok w' -> forall q, p_whole q = w' -> p_copy q = None -> p_asked q = p_asked p' -> PI (lbs ++ [lb]) q /\ small (w_core w').
Proof.
  intros PV AT DE SM HI PW E q QW QC QA. destruct (scan_found _ _ _ _ PV AT DE) as (w2 & rest' & E2 & PV' & FF & CS). rewrite E in E2. injection E2 as <-.
  destruct CS as [(C1 & -> & C3 & C4)|(l & e & C1 & C2 & C3 & C4 & C5 & C6)].
  - split; [|rewrite C1; exact SM]. destruct PV' as (D0 & PV'). rewrite C3 in PV'. destruct PV' as (PK & RI & _).
    apply (PI_idle cap tt cbs _ _ rest); rewrite ?QW; try assumption. destruct HI as (ps & us & A & B & C & D). exists ps, us. rewrite QW, QA, FF. rewrite PW in A. rewrite C1. auto.
  - split; [|rewrite C5; exact SM]. apply (PI_line cap tt cbs _ _ rest'); rewrite ?QW; try assumption; [rewrite C6; discriminate|].
    pose proof (hist_line _ _ _ _ _ _ _ HI C1 C2 C3 C4) as (ps & us & A & B & C & D). exists ps, us. rewrite QW, QA, FF. rewrite PW in A. rewrite C5.
    split; [exact A|]. split; [exact B|]. split; [|exact D]. unfold judged. cbn [rd set_rd]. rewrite found_text. exact C.
Qed.

(** The bytes from the current position on are replaced. *)
Lemma rewritten w rest line n bs m : PInv cap w rest -> w_at w = Scanning line n -> wr (rx_buf (w_rx w)) line bs = Ok m -> (line + length bs <= cap)%nat ->
  PInv cap {| w_core := w_core w; w_rx := set_buf (w_rx w) m; w_fifo := w_fifo w; w_at := Scanning line (length bs) |} bs.
Proof.
  intros (DL & PV) AT W LE. rewrite AT in PV. destruct PV as ((HB & HL & HS & HIT) & RI). split; [exact DL|]. cbn [w_at w_core w_rx]. split; [|exact RI].
  split; [eapply buf_wr; eassumption|]. split; [exact LE|]. cbn [set_buf rx_buf rx_resp]. split; [eapply wr_slice; exact W|].
  eapply (items_agree cap); [exact HIT|eapply agree_wr; exact W|apply le_n].
Qed.
Lemma set_buf_same x : set_buf x (rx_buf x) = x. Proof. destruct x; reflexivity. Qed.
Lemma drop_line l r : l <> [] -> line_text l -> drop_eol (l ++ r) = l ++ r.
Proof.
  intros N T. destruct l as [|c l]; [congruence|]. cbn [app drop_eol]. destruct (is_eol c) eqn:E; [|reflexivity]. exfalso. inversion T; subst. apply is_eol_iff in E. contradiction.
Qed.
(** The reader finds the line that is there. *)
Lemma scan_line w l e rest line n : PInv cap w (l ++ e :: rest) -> w_at w = Scanning line n -> l <> [] -> line_text l -> eol e ->
  exists w', scan w line n = Ok w' /\ PInv cap w' rest /\ w_fifo w' = w_fifo w /\
    w_core w' = set_rd (RGot (found (w_core w) l)) (set_wire (tl (wire (w_core w))) (w_core w)) /\ w_at w' = Working line n (length l).
Proof.
  intros PV AT LN LT EE. destruct (scan_found _ _ _ _ PV AT (drop_line _ _ LN LT)) as (w' & rest' & E & PV' & FF & [(_ & _ & _ & C4)|(l' & e' & C1 & C2 & C3 & C4 & C5 & C6)]).
  - exfalso. unfold line_text in C4. rewrite Forall_forall in C4. exact (C4 e (in_elt e l rest) EE).
  - destruct (text_unique _ _ _ _ _ _ LT C3 EE C4 C1) as (<- & <- & <-). exists w'. auto.
Qed.
Lemma hist_prompt lbs p u J raw l e u' id : hist lbs p None u J -> u = raw ++ u' -> l <> [] -> line_text l -> eol e -> In (ForPrompt id (raw ++ u')) (p_asked p) ->
  cb_send cbs id (raw ++ u') = (PKT_OK, l ++ e :: u') -> hist lbs p None u' (fun us => exists u0, us = u0 ++ [[l]] /\ J u0).
Proof.
  intros (ps & us & A & B & C & D) -> LN LT EE AS AN. exists (ps ++ [Prompt raw]), (us ++ [[l]]). rewrite flat_app. cbn [flat flat_map bytes_of app]. rewrite !app_nil_r, A, <- !app_assoc.
  split; [reflexivity|]. split; [eapply wc_prompt; eassumption|]. split; [exists us; split; [reflexivity|exact C]|].
  intros NR bs I. apply in_app_or in I. destruct I as [I|[I|[]]]; [exact (D NR bs I)|discriminate].
Qed.

Lemma step_ask lbs p r : small (w_core (p_whole p)) -> PI lbs p -> proper cap tt cbs p PAsk -> exec_p PAsk p = Some r ->
  exists p', r = Ok p' /\ PI (lbs ++ [PAsk]) p' /\ small (w_core (p_whole p')).
Proof.
  intros SM PV PR E. cbn [pexec] in E. destruct (w_at (p_whole p)) as [|line n|] eqn:AT; [discriminate| |discriminate]. destruct (p_copy p) as [b|] eqn:CP; [|discriminate]. injection E as <-.
  destruct PV as [rest CP' AT' DL RI PK HI|rest CP' AT' PV HI|b' line' n' rest CP' AT' PV DE NE HI|rest CP' AT' DL RI PK LN HI|line' n' i L ce e g rest id CP' AT' DL PV SD LN LT EE AS AN OD RD HI]; try congruence.
  rewrite AT in AT'. injection AT' as <- <-. rewrite CP in CP'. injection CP' as <-.
  assert (HM : hist (lbs ++ [PAsk]) p None rest (between (w_core (p_whole p)))) by (eapply hist_move; [exact HI|reflexivity|reflexivity|reflexivity|intros us Y; exact Y]).
  destruct (scan_found _ _ _ _ PV AT DE) as (w2 & rest2 & E2 & PV2 & FF & CS).
  pose proof PV as (DL & PV'). rewrite AT in PV'. destruct PV' as (HO & RI). pose proof HO as (HB & HL & HS & HIT). pose proof HB as (BL & _). pose proof (holds_len cap _ _ _ _ _ HO) as LR.
  assert (RD : Pktio.rd (rx_buf (w_rx (p_whole p))) line n = Ok rest) by (rewrite PktioSafe.rd_ok by lia; rewrite HS; reflexivity).
  destruct (PR line n rest AT RD) as (PRS & PRD). clear PR.
  assert (WW : {| w_core := w_core (p_whole p); w_rx := w_rx (p_whole p); w_fifo := w_fifo (p_whole p); w_at := Scanning line n |} = p_whole p) by (rewrite <- AT; destruct (p_whole p); reflexivity).
  assert (WI : wr (rx_buf (w_rx (p_whole p))) line rest = Ok (rx_buf (w_rx (p_whole p)))) by (rewrite <- HS; apply wr_id; lia).
  assert (HA : forall y q, p_whole q = p_whole p -> p_asked q = y :: p_asked p -> hist (lbs ++ [PAsk]) q None rest (between (w_core (p_whole p)))) by (intros y q Q1 Q2; eapply hist_asked; [exact HM|exact Q1|exact Q2]).
  (* the callback left the bytes alone and announced nothing *)
  assert (GO : forall s sod y, s = PKT_OK \/ s = PKT_PREFIX_MISMATCH \/ s = PKT_SIZE_MISMATCH ->
     exists p', after_call cap (p_whole p) (w_rx (p_whole p)) s line n sod (y :: p_asked p) = Ok p' /\ PI (lbs ++ [PAsk]) p' /\ small (w_core (p_whole p'))).
  { intros s sod y PS. unfold after_call. rewrite WW. set (q := {| p_whole := p_whole p; p_copy := None; p_sod := sod; p_asked := y :: p_asked p |}).
    assert (GN : exists p', (do w' <- scan (p_whole p) line n; Ok {| p_whole := w'; p_copy := None; p_sod := sod; p_asked := y :: p_asked p |}) = Ok p' /\ PI (lbs ++ [PAsk]) p' /\ small (w_core (p_whole p'))).
    { rewrite E2. cbn [bind]. eexists. split; [reflexivity|]. eapply scanned with (p' := q); try eassumption; try reflexivity. apply (HA y); reflexivity. }
    destruct PS as [-> | [-> | ->]]; cbn [handleCallbackResult]; try exact GN.
    eexists. split; [reflexivity|]. split; [|exact SM].
    apply (PI_idle cap tt cbs _ _ rest); cbn [p_copy p_whole w_at w_core w_rx]; try assumption; try reflexivity.
    - split; [exact HB|]. split; [exact HL|]. split; [exact HS|]. split; [exact HIT|]. cbn. congruence.
    - destruct (HA y q eq_refl eq_refl) as (ps & us & A & B & C & D). exists ps, us. auto. }
  unfold ask. destruct b as [[sid|] odid]; [|destruct odid as [did|]].
  - clear PRD. rewrite RD. cbn [bind]. specialize (PRS sid _ CP). unfold prompts_properly in PRS. destruct (cb_send cbs sid rest) as [s bs'] eqn:FS.
    destruct PRS as [(-> & PS)|(-> & raw & l & e & rest0 & SPL & -> & LN & LT & EE & LE)].
    + rewrite WI. cbn [bind]. rewrite set_buf_same, LR. apply GO. exact PS.
    + rewrite wr_ok by lia. cbn [bind]. match goal with |- context [set_buf _ ?m] => set (m1 := m) end.
      assert (W : wr (rx_buf (w_rx (p_whole p))) line (l ++ e :: rest0) = Ok m1) by (apply wr_ok; lia).
      pose proof (rewritten _ _ _ _ _ _ PV AT W LE) as PV1. unfold after_call. cbn [handleCallbackResult].
      destruct (scan_line _ _ _ _ _ _ PV1 eq_refl LN LT EE) as (w1 & -> & PVN & F1 & C1 & A1). cbn [bind w_core w_fifo] in *.
      eexists. split; [reflexivity|]. split; [|cbn [p_whole]; rewrite C1; exact SM].
      apply (PI_line cap tt cbs _ _ rest0); cbn [p_copy p_whole]; try assumption; try reflexivity; [rewrite A1; discriminate|].
      assert (HP := HA (ForPrompt sid rest) {| p_whole := p_whole p; p_copy := None; p_sod := p_sod p; p_asked := ForPrompt sid rest :: p_asked p |} eq_refl eq_refl).
      rewrite SPL in FS. destruct (hist_prompt _ _ _ _ _ _ _ _ sid HP SPL LN LT EE) as (ps & us & A & B & C & D); [cbn [p_asked]; rewrite SPL; left; reflexivity|exact FS|].
      exists ps, us. cbn [p_whole p_asked] in *. rewrite F1, C1. split; [exact A|]. split; [exact B|]. split; [|exact D]. unfold judged. cbn [rd set_rd]. rewrite found_text. exact C.
  - clear PRS. rewrite RD. cbn [bind]. specialize (PRD did CP). unfold announces_properly, announces in PRD. destruct (cb_data cbs did rest) as [[[s start] len] bs'] eqn:FS.
    destruct PRD as (PS & [(LC & ->)|(d & l & c & e & rest0 & o & -> & -> & SPL & -> & LN & LT & EE & -> & (O1 & O2) & OD)]).
    + rewrite WI. cbn [bind]. rewrite set_buf_same. replace (match len with Some d => set_dlen (w_rx (p_whole p)) d | None => w_rx (p_whole p) end) with (w_rx (p_whole p)); [apply GO; exact PS|].
      destruct LC as [->| ->]; [reflexivity|]. rewrite <- DL. symmetry. apply dlen_same.
    + assert (L2 : length (l ++ e :: rest0) = n) by (rewrite <- LR, SPL, !app_length; reflexivity).
      rewrite wr_ok by (rewrite L2; lia). cbn [bind]. match goal with |- context [set_buf _ ?m] => set (m1 := m) end.
      assert (W : wr (rx_buf (w_rx (p_whole p))) line (l ++ e :: rest0) = Ok m1) by (apply wr_ok; rewrite L2; lia).
      pose proof (rewritten _ _ _ _ _ _ PV AT W ltac:(rewrite L2; lia)) as PV1. rewrite L2 in PV1.
      set (w1 := {| w_core := w_core (p_whole p); w_rx := set_buf (w_rx (p_whole p)) m1; w_fifo := w_fifo (p_whole p); w_at := Scanning line n |}) in *.
      destruct (scan_line _ _ _ _ _ _ PV1 eq_refl LN LT EE) as (w3 & E3 & PVN & F1 & C1 & A1).
      unfold after_call. cbn [handleCallbackResult].
      change {| w_core := w_core (p_whole p); w_rx := set_dlen (set_buf (w_rx (p_whole p)) m1) (S d); w_fifo := w_fifo (p_whole p); w_at := Scanning line n |} with (with_dlen (S d) w1).
      rewrite scan_dlen, E3. cbn [bind w_core w_fifo w1] in *.
      eexists. split; [reflexivity|]. split; [|cbn [p_whole with_dlen w_core]; rewrite C1; exact SM].
      set (k := (o - S (length l))%nat). set (g := firstn k rest0). set (r0 := skipn k rest0).
      assert (GR : g ++ r0 = rest0) by apply firstn_skipn.
      assert (LR1 : length rest = (length l + S (length rest0))%nat) by (rewrite SPL, app_length; reflexivity).
      assert (LG : length (l ++ c :: g) = o) by (rewrite app_length; cbn [length]; unfold g; rewrite firstn_length; unfold k; lia).
      assert (RR : l ++ c :: g ++ r0 = rest) by (rewrite GR; symmetry; exact SPL).
      apply (PI_announced cap tt cbs _ _ line n (length l) (found (w_core (p_whole p)) l) c e g r0 did); cbn [p_copy p_whole p_sod p_asked with_dlen w_at w_core w_rx]; rewrite ?found_text; try assumption; try reflexivity.
      * discriminate.
      * rewrite GR. unfold undata. cbn [with_dlen w_at w_core w_rx w_fifo]. replace (set_dlen (set_dlen (w_rx w3) (S d)) 0) with (w_rx w3); [destruct w3; exact PVN|].
        destruct PVN as (D2 & _). transitivity (set_dlen (w_rx w3) (rx_dlen (w_rx w3))); [symmetry; apply dlen_same|]. rewrite D2. reflexivity.
      * rewrite LG. reflexivity.
      * left. rewrite RR. reflexivity.
      * rewrite RR, FS, LG, GR. reflexivity.
      * rewrite C1. exact OD.
      * left. rewrite C1. reflexivity.
      * rewrite RR, C1.
        destruct (HA (ForData did rest) {| p_whole := p_whole p; p_copy := None; p_sod := p_sod p; p_asked := ForData did rest :: p_asked p |} eq_refl eq_refl) as (ps & us & A & B & C & D).
        exists ps, us. cbn [p_whole p_asked with_dlen w_fifo w_core] in *. rewrite F1. auto.
  - rewrite E2. cbn [bind]. eexists. split; [reflexivity|]. eapply scanned; try eassumption; reflexivity.
Qed.

(** ** Working on the line *)
Lemma line_plain p line n i a : rx_dlen (w_rx (p_whole p)) = 0%nat ->
  line_data cap tt p line n i a = match line_action cap tt (p_whole p) line n i a with Some r => Some (do w' <- r; Ok (with_whole w' p)) | None => None end.
Proof.
  intro DL. unfold line_data. destruct (rd (w_core (p_whole p))) as [|l|l u|l mt|l t|l|ok ls l|ok ls l|ls l|id ls l|st l ok b|] eqn:RD; try reflexivity.
  destruct a; try reflexivity. unfold line_action. rewrite RD. f_equal. unfold process_data. rewrite DL. cbn [Nat.eqb negb].
  destruct (ProcessLine (tokens_now tt (extra (w_core (p_whole p)))) line (l_text l) _ t) as [[st r]| |] eqn:EP.
  - cbn [bind]. destruct st; reflexivity.
  - cbn [bind]. unfold process_line. rewrite EP. reflexivity.
  - cbn [bind]. unfold process_line. rewrite EP. reflexivity.
Qed.
Lemma action_shape w line n i a r : line_action cap tt w line n i a = Some r -> rd (w_core w) <> RIdle /\ (a = LReader \/ (exists st, a = LCbReturns st) \/ exists b k, a = LUndef b k).
Proof.
  unfold line_action. intro E. destruct (rd (w_core w)) as [|l|l u|l mt|l t|l|ok ls l|ok ls l|ls l|id ls l|st l ok b|]; try discriminate; (split; [discriminate|]); destruct a; try discriminate; eauto; destruct mt; discriminate.
Qed.
Lemma reader_small a c c' : small c -> exec tt a c = Some c' -> (a = LReader \/ (exists st, a = LCbReturns st) \/ exists b k, a = LUndef b k) -> small c'.
Proof. intros S E AA. eapply exec_small; [exact S| |exact E]. intros i r ->. destruct AA as [Q|[(? & Q)|(? & ? & Q)]]; discriminate. Qed.
Lemma refuse_rest w line n i k r w' rest' : line_action cap tt w line n i (LUndef false k) = Some r -> r = Ok w' -> PInv cap w' rest' -> rest' = [].
Proof.
  unfold line_action. intros E -> PV. destruct (rd (w_core w)); try discriminate. 2: injection E as <-.
  - destruct mt; discriminate.
  - destruct PV as (_ & ((_ & _ & Q & _) & _)). cbn in Q. symmetry. exact Q.
Qed.
Lemma announced_gap lbs p u k k' l c e g x id d : hist lbs p None (l ++ c :: g ++ x) (between k) -> l <> [] -> line_text l -> eol e -> In (ForData id (l ++ c :: g ++ x)) (p_asked p) ->
  cb_data cbs id (l ++ c :: g ++ x) = (PKT_OK, Some (length (l ++ c :: g)), Some d, l ++ e :: g ++ x) -> d <> 0%nat -> u = x -> responses_given k' = responses_given k -> texts k' = texts k ++ [l] -> hist lbs p (Some d) u (awaiting k').
Proof.
  intros (ps & us & A & B & (cur & b & T & Q) & D) LN LT EE AS AN DN -> RG TX. exists (ps ++ [Text l c; Gap g]), (us ++ [[l]]). rewrite flat_app. cbn [flat flat_map bytes_of app]. rewrite !app_nil_r, A, <- !app_assoc.
  split; [cbn [app]; rewrite <- !app_assoc; reflexivity|]. split; [eapply wc_announced; eassumption|]. split; [exists us, l, cur, b; rewrite RG, TX, Q; auto|].
  intros NR bs I. apply in_app_or in I. destruct I as [I|[I|[I|[]]]]; [exact (D NR bs I)|discriminate|discriminate].
Qed.

Lemma step_line lbs p a r : small (w_core (p_whole p)) -> PI lbs p -> exec_p (PLine a) p = Some r ->
  exists p', r = Ok p' /\ PI (lbs ++ [PLine a]) p' /\ small (w_core (p_whole p')).
Proof.
  intros SM PV E. cbn [pexec] in E. destruct (w_at (p_whole p)) as [| |line n i] eqn:AT; [discriminate|discriminate|].
  destruct PV as [rest CP AT' DL RI PK HI|rest CP AT' PV HI|b' line' n' rest CP AT' PV DE NE HI|rest CP AT' DL RI PK LN HI|line' n' i' L ce e g rest id CP AT' DL PV SD LN LT EE AS AN OD RD HI]; try congruence.
  - pose proof PV as (DL & _). rewrite (line_plain _ _ _ _ _ DL) in E. destruct (line_action cap tt (p_whole p) line n i a) as [r0|] eqn:LA; [|discriminate]. injection E as <-.
    destruct (action_shape _ _ _ _ _ _ LA) as (NI & AA).
    destruct (line_act cap tt _ _ _ _ _ _ _ TK SM PV AT LA) as (w' & rest' & R0 & PV' & FF & EX & RR). pose proof (reader_small _ _ _ SM EX AA) as SM'.
    assert (CS : forall us, judged (w_core (p_whole p)) us -> judged (w_core w') us).
    { intro us. apply (judged_step tt a _ _ us EX NI AA). intros ls l Q. destruct PV as (_ & PV). rewrite AT in PV. destruct PV as (_ & _ & _ & _ & _ & _ & _ & RS). apply (RS false ls l). right. right. exact Q. }
    assert (HI' : hist (lbs ++ [PLine a]) (with_whole w' p) None rest' (judged (w_core w'))).
    { destruct RR as [->|(k & l & -> & RU)].
      - eapply hist_more; [exact HI|reflexivity|exact FF|reflexivity|exact CS].
      - pose proof (refuse_rest _ _ _ _ _ _ _ _ LA R0 PV') as ->. destruct HI as (ps & us & A & B & C & D). exists (ps ++ [Lost rest]), us.
        rewrite sent_app, A, flat_app. cbn [sent_bytes flat_map flat bytes_of app]. cbn [with_whole p_whole p_asked]. rewrite !app_nil_r, FF.
        split; [rewrite <- app_assoc; reflexivity|]. split; [apply wc_lost; exact B|]. split; [exact (CS _ C)|].
        intros NR. exfalso. apply (NR k). apply in_or_app. right. left. reflexivity. }
    rewrite R0. cbn [bind]. eexists. split; [reflexivity|]. split; [|exact SM'].
    assert (WD : w_at w' = Waiting \/ w_at w' <> Waiting) by (destruct (w_at w'); [left; reflexivity|right; discriminate|right; discriminate]). destruct WD as [WT|WN].
    + destruct PV' as (D' & PV'). rewrite WT in PV'. destruct PV' as (PK & RI & _).
      apply (PI_idle cap tt cbs _ _ rest'); try assumption. destruct HI' as (ps & us & A & B & C & D). exists ps, us. split; [exact A|]. split; [exact B|]. split; [|exact D]. apply (between_idle _ _ RI). exact C.
    + apply (PI_line cap tt cbs _ _ rest'); assumption.
  - rewrite AT in AT'. injection AT' as <- <- <-. set (w := p_whole p) in *. set (c := w_core w) in *.
    pose proof PV as (_ & PVW). cbn [undata w_at w_core w_rx] in PVW. rewrite AT in PVW. destruct PVW as (HB & HL & HI0 & HR & HIT & NI & RL & RS). cbn [set_dlen rx_buf rx_resp] in HB, HR, HIT, RL.
    destruct OD as (TY & PU & LC & PLN).
    assert (STAY : forall rd', reader_line rd' = Some L -> (forall ok ls l, rd' <> RDone ok ls l /\ rd' <> RHandle ok ls l /\ rd' <> RCall ls l) -> rd' <> RIdle -> reader_line (rd c) = Some L ->
       (rd' = RGot L \/ rd' = RPtr L (puse c) \/ rd' = RMsg L AT_SOLICITED \/ rd' = RTyp L T_MULTI_DATA_WO_PREFIX) ->
       PI (lbs ++ [PLine LReader]) (with_whole {| w_core := set_rd rd' c; w_rx := w_rx w; w_fifo := w_fifo w; w_at := Working line n i |} p)).
    { intros rd' Q1 Q2 Q3 Q4 Q5. apply (PI_announced cap tt cbs _ _ line n i L ce e g rest id); cbn [with_whole p_whole p_copy p_sod p_asked w_at w_core w_rx]; try assumption; try reflexivity.
      - split; [reflexivity|]. cbn [undata w_at w_core w_rx set_dlen rx_buf rx_resp]. repeat (split; [assumption|]). split.
        + intros l Q. cbn in Q. apply RL. change (reader_line (rd c) = Some l). rewrite Q4, <- Q1. exact Q.
        + intros ok ls l Q. exfalso. destruct (Q2 ok ls l) as (X1 & X2 & X3). destruct Q as [Q|[Q|Q]]; cbn in Q; congruence.
      - split; [exact TY|]. split; [exact PU|]. split; [exact LC|exact PLN].
      - eapply hist_more; [exact HI|reflexivity|reflexivity|reflexivity|intros us Y; exact Y]. }
    unfold line_data in E. fold w in E. fold c in E. destruct RD as [RD|[RD|[RD|RD]]].
    + rewrite RD in E. unfold line_action in E. fold w in E. fold c in E. rewrite RD in E. destruct a; try discriminate. injection E as <-. eexists. split; [reflexivity|]. split; [|exact SM].
      apply STAY; rewrite ?RD; try reflexivity; try discriminate; [|auto]. intros; repeat split; discriminate.
    + rewrite RD in E. unfold line_action in E. fold w in E. fold c in E. rewrite RD in E. destruct a; try discriminate. injection E as <-. eexists. split; [reflexivity|]. split; [|exact SM].
      assert (MT : getMsgType tt (typ c) (l_text L) (if puse c then Some (pbuf c) else None) = AT_SOLICITED) by (apply (classification _ _ _ _ PU); exact LC). rewrite MT.
      apply STAY; rewrite ?RD; try reflexivity; try discriminate; [|auto]. intros; repeat split; discriminate.
    + rewrite RD in E. unfold line_action in E. fold w in E. fold c in E. rewrite RD in E. destruct a; try discriminate. injection E as <-. eexists. split; [reflexivity|]. split; [|exact SM]. rewrite TY.
      apply STAY; rewrite ?RD; try reflexivity; try discriminate; [|auto]. intros; repeat split; discriminate.
    + rewrite RD in E. assert (AR : a = LReader) by (unfold line_action in E; fold w in E; fold c in E; rewrite RD in E; destruct a; try discriminate; reflexivity). subst a. injection E as <-.
      destruct (RL L ltac:(fold w; fold c; rewrite RD; reflexivity)) as (CSG & LI).
      unfold process_data. fold w. fold c. set (r0 := match rx_resp (w_rx w) with Some r => r | None => AtResponseNew end).
      assert (TB : tables_ok (tokens_now tt (extra c))) by (destruct SM as (SM1 & _); apply tables_with; assumption).
      destruct (process_line_spec _ line (l_text L) r0 T_MULTI_DATA_WO_PREFIX TB) as [[SL _]|[[SL _]|[_ EP]]].
      1: { exfalso. destruct PLN as (PLN & _). exact (PLN SL). }
      1: { exfalso. destruct PLN as (PLN1 & PLN2). unfold error_line in SL. tauto. }
      rewrite EP. cbn [processIntermediateResponse bind]. rewrite (proj2 (Nat.eqb_neq _ _) DL). cbn [negb]. unfold saveATData, saveData. cbn [r_items]. rewrite app_length. cbn [length].
      replace (length (r_items r0) + 1 =? length (r_items r0))%nat with false by (symmetry; apply Nat.eqb_neq; lia).
      set (r1 := {| r_status := r_status r0; r_items := r_items r0 ++ [{| it_ptr := line; it_raw := None |}] |}). rewrite SD.
      set (q := (line + length (l_text L ++ ce :: g))%nat). set (x := Pktio.set_resp (w_rx w) (Some r1)).
      assert (F0 : Forall2 (content_at (rx_buf (w_rx w)) (line + i + 1)) (r_items r0) (texts c)).
      { unfold r0. unfold items_rel in HIT. fold w in HIT. destruct (rx_resp (w_rx w)) as [r2|]; [exact HIT|]. change (texts c = []) in HIT. rewrite HIT. constructor. }
      assert (LE : length (l_text L ++ ce :: g) = (i + 1 + length g)%nat) by (rewrite app_length; cbn [length]; lia).
      pose proof HB as (BL & _).
      assert (LGR : length (g ++ rest) = (n - S i)%nat) by (rewrite <- HR, firstn_length, skipn_length; fold w; lia). rewrite app_length in LGR.
      assert (FR : Forall2 (content_at (rx_buf x) q) (r_items r1) (texts c ++ [l_text L])).
      { apply Forall2_app; [eapply (content_mono cap); [exact F0|unfold q; lia]|constructor; [|constructor]]. unfold content_at. cbn [it_raw it_ptr]. split; [exact CSG|unfold q; lia]. }
      assert (SL : firstn (line + n - q) (skipn q (rx_buf x)) = rest).
      { change (rx_buf x) with (rx_buf (w_rx w)). replace q with (line + S i + length g)%nat by (unfold q; lia). rewrite <- skipn_skipn'.
        replace (line + n - (line + S i + length g))%nat with (n - S i - length g)%nat by lia. rewrite <- skipn_firstn_comm. fold w in HR. rewrite HR. rewrite skipn_app, skipn_all, Nat.sub_diag. reflexivity. }
      assert (TXL : texts (set_rd RIdle (add_item L c)) = texts c ++ [l_text L]) by (change (texts (add_item L c) = texts c ++ [l_text L]); apply texts_add).
      assert (HH : forall w', w_fifo w' = w_fifo w -> hist (lbs ++ [PLine LReader]) (with_whole w' p) (Some (rx_dlen (w_rx w))) rest (awaiting (set_rd RIdle (add_item L c)))).
      { intros w' WF. apply (announced_gap (lbs ++ [PLine LReader]) (with_whole w' p) rest c (set_rd RIdle (add_item L c)) (l_text L) ce e g rest id (rx_dlen (w_rx w))); try assumption; try reflexivity. eapply hist_more; [exact HI|reflexivity|exact WF|reflexivity|intros us Y; exact Y]. }
      destruct (handle_data x line n q rest (texts c ++ [l_text L]) r1 HB HL ltac:(unfold q; lia) SL eq_refl FR DL)
        as [(SH & x' & -> & PK' & D')|(CO & x' & line' & lft & its & -> & D' & LF & HO' & PK' & RB & r' & RX' & RI')]; cbn [bind]; change (rx_dlen x) with (rx_dlen (w_rx w)) in *.
      * rewrite D', (proj2 (Nat.eqb_neq _ _) DL). cbn [Nat.eqb]. eexists. split; [reflexivity|]. split; [|exact SM].
        apply (PI_data cap tt cbs _ _ rest); cbn [with_whole p_whole p_copy w_at w_core w_rx]; rewrite ?TXL, ?D'; try assumption; try reflexivity. apply HH. reflexivity.
      * rewrite D'. cbn [Nat.eqb]. set (d := rx_dlen (w_rx w)) in *.
        assert (TX2 : texts (add_item (payload_item (raw_bytes x')) (set_rd RIdle (add_item L c))) = (texts c ++ [l_text L]) ++ [firstn d rest]) by (rewrite texts_add, TXL, RB; reflexivity).
        assert (HP : forall w', w_fifo w' = w_fifo w -> hist (lbs ++ [PLine LReader]) (with_whole w' p) None (skipn d rest) (between (add_item (payload_item (raw_bytes x')) (set_rd RIdle (add_item L c))))).
        { intros w' WF. eapply hist_payload; [apply HH; assumption|symmetry; apply firstn_skipn|rewrite firstn_length; lia|reflexivity|]. rewrite TX2, TXL. reflexivity. }
        destruct (lft =? 0)%nat; (eexists; split; [reflexivity|]; split; [|exact SM]).
        -- apply (PI_idle cap tt cbs _ _ (skipn d rest)); cbn [with_whole p_whole p_copy w_at w_core w_rx]; rewrite ?TX2; try assumption; try reflexivity. apply HP. reflexivity.
        -- apply (PI_line cap tt cbs _ _ (skipn d rest)); cbn [with_whole p_whole p_copy w_at w_core w_rx]; try assumption; try reflexivity; [discriminate| |].
           ++ split; [exact D'|]. cbn [w_at w_core w_rx]. rewrite TX2. split; [exact HO'|reflexivity].
           ++ apply HP. reflexivity.
Qed.

(** ** Runs *)
Lemma step_any lbs p lb r : small (w_core (p_whole p)) -> PI lbs p -> proper cap tt cbs p lb -> exec_p lb p = Some r ->
  exists p', r = Ok p' /\ PI (lbs ++ [lb]) p' /\ small (w_core (p_whole p')).
Proof.
  intros SM PV PR E. destruct lb as [a|bs|k| | |a].
  - eapply step_app; eassumption.
  - eapply step_send; eassumption.
  - eapply step_read; eassumption.
  - eapply step_fetch; eassumption.
  - eapply step_ask; eassumption.
  - eapply step_line; eassumption.
Qed.
Lemma init_PI n : PI [] (pinit cap n).
Proof.
  destruct (init_pinv cap n) as (D0 & PK & RI & _). cbn [w_at winit] in *. apply (PI_idle cap tt cbs [] (pinit cap n) []); try assumption; try reflexivity.
  exists [], []. split; [reflexivity|]. split; [constructor|]. split; [exists [], false; split; [constructor|reflexivity]|]. intros _ bs I. exact I.
Qed.
Lemma run_PI n lbs p : prun cap tt cbs (proper cap tt cbs) (pinit cap n) lbs p -> PI lbs p /\ small (w_core (p_whole p)).
Proof.
  intro R. remember (pinit cap n) as p0 eqn:E0. induction R as [p|p lbs p1 lb p2 R IH OK EX]; subst p.
  - split; [apply init_PI|apply init_small].
  - destruct (IH eq_refl) as (PV & SM). destruct (step_any lbs p1 lb (Ok p2) SM PV OK EX) as (p' & [= <-] & Q). exact Q.
Qed.
Lemma PI_hist lbs p : PI lbs p -> exists m u J, hist lbs p m u J.
Proof. intro PV. destruct PV; eauto. Qed.
End P.

(** Streams with binary frames taken by the input-buffer callback (C87): proofs. *)
From Coq Require Import List NArith ZArith Bool Arith Lia.
From Verif Require Import Bytes AtCore Status SpecAt AtProofs AtProofs3 Pktio SpecPktio PktioLine PktioSafe SpecStream PktioStream PktioText SpecFrames.
Import ListNotations.

Lemma drop_ahead : forall lft F E B, lft ++ F = E ++ B -> Forall eol E -> (B = [] \/ exists c t, B = c :: t /\ ~ eol c) ->
  exists E', drop_eol lft ++ F = E' ++ B /\ Forall eol E' /\ (drop_eol lft <> [] -> E' = []).
Proof.
  induction lft as [|c lft IH]; intros F E B Q FE HB; cbn [drop_eol].
  - exists E. split; [exact Q|]. split; [exact FE|]. congruence.
  - destruct E as [|e E].
    + cbn [app] in Q. destruct HB as [HB|(c' & t & HB & NE)]; rewrite HB in Q; [discriminate|]. inversion Q; subst c' t. rewrite HB.
      rewrite (proj2 (is_eol_false _) NE). exists []. split; [reflexivity|]. split; [constructor|reflexivity].
    + cbn [app] in Q. inversion Q; subst. inversion FE; subst. rewrite (proj2 (is_eol_iff _) H2). apply (IH F E B); auto.
Qed.
Lemma text_prefix p q : line_text (p ++ q) -> line_text p.
Proof. intro H. apply Forall_app in H. apply H. Qed.

Section Frames.
Variable cap : nat.
Variable cbk : str -> pkt_status * nat * str.

Lemma head_ok gs : Forall (segment_ok cbk) gs -> bytes_of gs = [] /\ gs = [] \/ exists c t, bytes_of gs = c :: t /\ ~ eol c.
Proof.
  destruct gs as [|[l ends|f] gs]; [left; auto| |]; intro H; inversion H as [|x y K G]; subst.
  - destruct K as (LN & LT & _). right. destruct l as [|c l]; [contradiction|]. inversion LT; subst. unfold bytes_of. cbn. eauto.
  - destruct K as ((c & t & -> & NE) & _). right. unfold bytes_of. cbn. eauto.
Qed.
Lemma separated_tail g gs : separated (g :: gs) -> separated gs.
Proof. destruct g; [exact (fun x => x)|]. destruct gs as [|[]]; cbn; tauto. Qed.
Lemma bytes_cons g gs : bytes_of (g :: gs) = seg_bytes g ++ bytes_of gs.
Proof. reflexivity. Qed.

(** The part of a pass behind the two callbacks. *)
Definition tail (v : view) (s2 : rx) (line n : nat) (sod2 : option nat) : res (list event * pass_result * option nat) :=
  do f <- find_eol (rx_buf s2) line n;
  match f with
  | None => Ok ([], Stop (set_left s2 (Some line) n), sod2)
  | Some i =>
      do m <- st (rx_buf s2) (line + i) 0%N;
      let s3 := set_buf s2 m in
      do txt <- (match cstr_get m line with Some t => Ok t | None => UB end);
      let mt := getMsgType (v_tokens v) (v_cmd v) txt (v_prefix v) in
      do h <- handleMsgType cap v mt s3 line txt;
      let '(st, mt', ev, s4) := h in
      match st with
      | PKT_PENDING_BUFFER =>
          if negb (rx_dlen s4 =? 0)%nat then
            do d <- handleData sod2 s4 line n;
            let '(line', lft, s5) := d in
            if (lft =? 0)%nat then Ok (ev, Stop s5, sod2) else Ok (ev, Next s5 line' lft, sod2)
          else do x <- getNextLine s4 line n i st mt'; Ok (ev, x, sod2)
      | PKT_OK | PKT_PENDING_DATA => do x <- getNextLine s4 line n i st mt'; Ok (ev, x, sod2)
      | _ => Ok (ev, Stop s4, sod2)
      end
  end.
Lemma pass_tail v s line0 n0 sod : pass cap v s line0 n0 sod =
  (do k <- skip_eol (rx_buf s) line0 n0;
   let '(line1, n1) := k in
   do r1 <- preprocessInputBuffer cap v s line1 n1;
   match r1 with
   | Stop s1 => Ok ([], Stop s1, sod)
   | Next s1 line2 n2 =>
      do r2 <- preprocessLine cap v s1 line2 n2 sod;
      match r2 with
      | (Stop s2, sod2) => Ok ([], Stop s2, sod2)
      | (Next s2 line n, sod2) => tail v s2 line n sod2
      end
   end).
Proof. reflexivity. Qed.

Variable env : environment.
Hypothesis HE : frames_env cbk env.

(** Where the reader stands: at line ends [E] followed by the segments [gs] still to come; what it has read of them is [lft],
    the rest [F] is yet to come. *)
Definition at_pos (lft F E : str) (gs : list segment) : Prop :=
  lft ++ F = E ++ bytes_of gs /\ Forall eol E /\ Forall (segment_ok cbk) gs /\ separated gs.
Definition advanced (h : list event) (a : list (list N)) (gs : list segment) (h' : list event) (a' : list (list N)) (gs' : list segment) : Prop :=
  exists ls, lines_of gs = ls ++ lines_of gs' /\ lines_steps (env 0%nat) h a ls h' a'.
Definition pass_good (F : str) (h : list event) (a : list (list N)) (gs : list segment) (n : nat) (ev : list event) (out : pass_result) : Prop :=
  In EvDrop ev \/
  match out with
  | Next s' line' n' => (n' < n)%nat /\ rx_dlen s' = 0%nat /\ exists a' lft' E' gs', holds cap s' line' n' lft' a' /\ at_pos lft' F E' gs' /\ advanced h a gs (h ++ ev) a' gs'
  | Stop s' => rx_dlen s' = 0%nat /\ exists a' lft' E' gs', parked cap s' lft' a' /\ at_pos lft' F E' gs' /\ (F = [] -> gs' = []) /\ advanced h a gs (h ++ ev) a' gs'
  end.
Lemma advanced_refl h a gs : advanced h a gs (h ++ []) a gs.
Proof. exists []. rewrite app_nil_r. split; [reflexivity|constructor]. Qed.

Lemma stop_here s l1 n1 lft1 a F h gs gs0 n p : holds cap s l1 n1 lft1 a -> rx_dlen s = 0%nat -> at_pos lft1 F [] gs -> (F = [] -> gs = []) -> lines_of gs0 = lines_of gs ->
  p = set_left s (Some l1) n1 ->
  pass_good F h a gs0 n [] (Stop p).
Proof.
  intros (HB & HL & HS & HI) HD AP FN LE ->. right. split; [exact HD|]. exists a, lft1, [], gs. split; [|split; [exact AP|split; [exact FN|]]].
  - split; [exact HB|]. split; [cbn; lia|]. split; [exact HS|]. split; [exact HI|]. cbn. congruence.
  - exists []. rewrite app_nil_r. split; [exact LE|constructor].
Qed.

(** At the beginning of a line. *)
Lemma tail_line t h s l1 n1 sod lft1 a F l ends gs gs0 n : holds cap s l1 n1 lft1 a -> rx_dlen s = 0%nat -> (n1 <= n)%nat -> at_pos lft1 F [] (Line l ends :: gs) ->
  lft1 <> [] -> lines_of gs0 = l :: lines_of gs ->
  exists ev out sod', tail (env t h) s l1 n1 sod = Ok (ev, out, sod') /\ pass_good F h a gs0 n ev out.
Proof.
  intros HH HD LN0 AP NE LG. pose proof HH as (HB & HL & S1 & HI). destruct AP as (EQ & _ & GS & SEP). cbn [app] in EQ. rewrite bytes_cons in EQ. cbn [seg_bytes] in EQ.
  inversion GS as [|x y K GS']; subst x y. destruct K as (LN & LT & EN & EF & FL). pose proof HB as (BL & BZ).
  destruct (HE t h) as (ET & VI & VS & VD & VH & VT & VP & VC). rewrite ET in *. set (v := env 0%nat h) in *.
  pose proof (holds_len _ _ _ _ _ _ HH) as LEN. unfold tail.
  destruct (find_eol (rx_buf s) l1 n1) as [[i|]| |] eqn:FE; cbn [bind];
      [| |exfalso; destruct (find_eol_spec (rx_buf s) n1 l1 ltac:(lia)) as [(? & Q & _)|[Q _]]; rewrite FE in Q; discriminate
         |exfalso; destruct (find_eol_spec (rx_buf s) n1 l1 ltac:(lia)) as [(? & Q & _)|[Q _]]; rewrite FE in Q; discriminate].
  2:{ eexists _, _, _. split; [reflexivity|]. eapply (stop_here s l1 n1 lft1 a F h (Line l ends :: gs)); [exact HH|exact HD| | |exact LG|reflexivity].
      - split; [|split; [constructor|split; [exact GS|exact SEP]]]. cbn [app]. rewrite bytes_cons. cbn [seg_bytes]. exact EQ.
      - intros ->. rewrite app_nil_r in EQ. exfalso. pose proof (find_none_text (rx_buf s) l1 n1 ltac:(lia) FE) as TX. rewrite S1, EQ in TX.
        apply text_prefix in TX. destruct ends as [|e ends]; [contradiction|]. inversion EF; subst.
        apply Forall_app in TX. destruct TX as [_ TX]. inversion TX; subst. contradiction. }
  destruct (find_some_split (rx_buf s) l1 n1 i ltac:(lia) FE) as (l' & e & SP & LT' & EE & LI & IN & CS).
  rewrite S1 in SP. set (rest := firstn (n1 - S i) (skipn (l1 + S i) (rx_buf s))) in SP.
  destruct ends as [|e0 ends]; [contradiction|]. inversion EF as [|? ? EE0 EF']; subst.
  assert (U : l' = l /\ e = e0 /\ rest ++ F = ends ++ bytes_of gs).
  { rewrite SP in EQ. rewrite <- !app_assoc in EQ. cbn [app] in EQ. apply text_unique in EQ; auto. }
  destruct U as (-> & -> & RF). set (i := length l) in *.
  rewrite st_ok by lia. cbn [bind]. rewrite CS. cbn [bind].
  set (m := upd (rx_buf s) (l1 + i) 0%N) in *. set (s3 := set_buf s m).
  assert (BM : buf_ok cap m) by (apply buf_st; exact HB).
  assert (HI3 : items_rel (rx_buf s3) l1 (rx_resp s3) a).
  { eapply (items_agree cap); [exact HI| |apply le_n]. eapply agree_le; [apply agree_upd|lia]. }
  assert (SKM : skipn (l1 + S i) m = skipn (l1 + S i) (rx_buf s)) by (apply (skip_upd cap); lia).
  destruct (handleMsgType_step cap v s3 l1 l a VT VP VC VH BM ltac:(fold i; lia) CS HI3) as (st & mt' & ev & s4 & -> & HM). cbn [bind].
  destruct HM as [(-> & -> & DR & FR)|(a' & LSP & EB & D4 & IR & HM)].
  { eexists _, _, _. split; [reflexivity|]. left. right. left. reflexivity. }
  change (rx_buf s3) with m in EB, IR. change (rx_dlen s3) with (rx_dlen s) in D4. rewrite HD in D4. fold i in IR.
  assert (B4 : buf_ok cap (rx_buf s4)) by (rewrite EB; exact BM). pose proof B4 as (BL4 & _).
  assert (ADV : advanced h a gs0 (h ++ ev) a' gs).
  { exists [l]. split; [exact LG|]. econstructor; [exact LSP|constructor]. }
  assert (POS : at_pos rest F ends gs) by (split; [exact RF|split; [exact EF'|split; [exact GS'|exact SEP]]]).
  assert (FIN : forall st0, (st0 = PKT_OK -> mt' = AT_SOLICITED -> a' = [] /\ rx_resp s4 = None) ->
    exists ev0 out sod', (do x <- getNextLine s4 l1 n1 i st0 mt'; Ok (ev, x, sod)) = Ok (ev0, out, sod') /\ pass_good F h a gs0 n ev0 out).
  { intros st0 Q. unfold getNextLine. replace (n1 <? i + 1)%nat with false by (symmetry; apply Nat.ltb_ge; lia).
    rewrite rd_ok by lia. cbn [bind]. set (dd := firstn _ _).
    assert (DL : length dd = (n1 - (i + 1))%nat) by (unfold dd; rewrite firstn_length, skipn_length; lia).
    assert (DD : dd = rest).
    { unfold dd, rest. rewrite EB. replace (l1 + (i + 1))%nat with (l1 + S i)%nat by lia. rewrite SKM. f_equal. lia. }
    assert (W : wr (rx_buf s4) 0 dd = Ok (firstn 0 (rx_buf s4) ++ dd ++ skipn (0 + length dd) (rx_buf s4))) by (apply wr_ok; lia).
    set (m0 := firstn 0 (rx_buf s4) ++ dd ++ skipn (0 + length dd) (rx_buf s4)) in *.
    assert (PLAIN : pass_good F h a gs0 n ev (Next (set_left s4 (Some (l1 + (i + 1))%nat) (n1 - (i + 1))) (l1 + (i + 1)) (n1 - (i + 1)))).
    { right. split; [lia|]. split; [exact D4|]. exists a', rest, ends, gs. split; [|split; [exact POS|exact ADV]].
      split; [exact B4|]. split; [lia|]. split; [exact DD|]. cbn [set_left rx_buf rx_resp]. rewrite EB. replace (l1 + (i + 1))%nat with (l1 + i + 1)%nat by lia. exact IR. }
    destruct st0; try (eexists _, _, _; split; [reflexivity|exact PLAIN]; fail). destruct mt'; try (eexists _, _, _; split; [reflexivity|exact PLAIN]; fail).
    rewrite W. cbn [bind]. destruct (Q eq_refl eq_refl) as [-> RN].
    eexists _, _, _. split; [reflexivity|]. right. split; [lia|]. split; [exact D4|]. exists [], rest, ends, gs. split; [|split; [exact POS|exact ADV]].
    split; [eapply buf_wr; [exact B4|exact W|lia]|]. split; [lia|]. cbn [set_left set_buf rx_buf rx_resp]. split.
    - pose proof (wr_slice _ _ _ _ W) as WS. rewrite DL in WS. cbn [skipn] in WS |- *. rewrite WS. exact DD.
    - rewrite RN. reflexivity. }
  destruct HM as [(-> & HM)|[-> | -> ]].
  - apply FIN. intros _. exact HM.
  - apply FIN. discriminate.
  - rewrite D4. cbn [Nat.eqb negb]. apply FIN. discriminate.
Qed.

Lemma app_split {A} (x y u v : list A) : x ++ y = u ++ v -> (exists q, q <> [] /\ u = x ++ q /\ y = q ++ v) \/ (exists r, x = u ++ r /\ v = r ++ y).
Proof.
  revert u; induction x as [|c x IH]; intros [|d u] E; cbn [app] in E.
  - right. exists []. auto.
  - left. exists (d :: u). split; [discriminate|]. auto.
  - right. exists (c :: x). auto.
  - inversion E; subst. destruct (IH u H1) as [(q & Q1 & -> & ->)|(r & -> & ->)]; [left; exists q|right; exists r]; auto.
Qed.

Hypothesis HNIL : declines cbk [] \/ needs_more cbk [].

Lemma pass_frames t h s line n sod lft a F E gs : holds cap s line n lft a -> rx_dlen s = 0%nat -> at_pos lft F E gs ->
  exists ev out sod', pass cap (env t h) s line n sod = Ok (ev, out, sod') /\ pass_good F h a gs n ev out.
Proof.
  intros (HB & HL & HS & HI) HD (EQ & EE & GS & SEP). rewrite pass_tail. pose proof HB as (BL & BZ).
  destruct (skip_holds (rx_buf s) n line lft) as (l1 & n1 & -> & S1 & E1 & G1); [lia|exact HS|]. cbn [bind].
  assert (HI1 : items_rel (rx_buf s) l1 (rx_resp s) a) by (eapply (items_agree cap); [exact HI|apply agree_refl|exact G1]).
  assert (HO : bytes_of gs = [] \/ (exists c t0, bytes_of gs = c :: t0 /\ ~ eol c)) by (destruct (head_ok gs GS) as [[Q _]|Q]; auto).
  destruct (drop_ahead lft F E (bytes_of gs) EQ EE HO) as (E' & EQ' & EE' & EN'). set (S0 := drop_eol lft) in *.
  assert (LS0 : length S0 = n1) by (rewrite <- S1, firstn_length, skipn_length; lia).
  assert (H1 : holds cap s l1 n1 S0 a) by (split; [exact HB|split; [lia|split; [exact S1|exact HI1]]]).
  destruct (HE t h) as (ET & VI & VS & VD & _).
  unfold preprocessInputBuffer. rewrite VI. rewrite rd_ok by lia. cbn [bind]. rewrite S1.
  assert (WRS : wr (rx_buf s) l1 S0 = Ok (rx_buf s)) by (rewrite <- S1; apply wr_id; lia).
  assert (STOPN : n1 = 0%nat -> pass_good F h a gs n [] (Stop (set_left s (Some l1) n1))).
  { intro Z. right. split; [exact HD|]. exists a, [], E', gs. assert (S0E : S0 = []) by (destruct S0; [reflexivity|cbn [length] in LS0; lia]).
    split; [|split; [|split; [|apply advanced_refl]]].
    - split; [exact HB|]. split; [cbn; lia|]. split; [rewrite Z; reflexivity|]. split; [exact HI1|]. cbn. congruence.
    - rewrite S0E in EQ'. split; [exact EQ'|]. auto.
    - intros ->. rewrite S0E in EQ'. symmetry in EQ'. apply app_eq_nil in EQ'. destruct (head_ok gs GS) as [[_ Q]|(c & t0 & Q & _)]; [exact Q|]. rewrite Q in EQ'. destruct EQ'; discriminate. }
  destruct (Nat.eq_dec n1 0) as [Z|Z].
  { assert (S0E : S0 = []) by (destruct S0; [reflexivity|cbn [length] in LS0; lia]).
    rewrite S0E in *. destruct HNIL as [(k & CB)|(k & CB)]; rewrite CB, WRS; cbn [bind]; cbv zeta; rewrite set_buf_id; cbn [handleCallbackResult bind].
    - unfold preprocessLine. rewrite Z. cbn [Nat.eqb bind]. eexists _, _, _. split; [reflexivity|]. rewrite <- Z. apply STOPN, Z.
    - eexists _, _, _. split; [reflexivity|]. apply STOPN, Z. }
  assert (NE0 : S0 <> []) by (intro Q; rewrite Q in LS0; cbn [length] in LS0; lia).
  assert (EQ0 : S0 ++ F = bytes_of gs) by (rewrite EQ', (EN' NE0); reflexivity). clear EQ' EE' EN' E'.
  assert (PL : forall s2 q k, rx_buf s2 = rx_buf s -> k <> 0%nat -> preprocessLine cap (env t h) s2 q k sod = Ok (Next s2 q k, sod)).
  { intros s2 q k _ NK. unfold preprocessLine. apply Nat.eqb_neq in NK. rewrite NK, VS, VD. reflexivity. }
  destruct gs as [|[l ends|f] gs].
  - exfalso. apply app_eq_nil in EQ0. apply NE0, EQ0.
  - (* a line *)
    assert (AP : at_pos S0 F [] (Line l ends :: gs)) by (split; [exact EQ0|split; [constructor|auto]]).
    assert (CB : declines cbk S0 \/ needs_more cbk S0 /\ exists q, q <> [] /\ l ++ ends = S0 ++ q).
    { inversion GS as [|x y K GS']; subst. destruct K as (LN & LT & EN & EF & FL1 & FL2). rewrite bytes_cons in EQ0. cbn [seg_bytes] in EQ0. rewrite <- app_assoc in EQ0.
      destruct (app_split _ _ _ _ EQ0) as [(q & Q1 & Q2 & Q3)|(r & Q1 & Q2)].
      - destruct (FL2 S0 q Q2 NE0) as [D|M]; [left; exact D|right]. split; [exact M|]. exists (q ++ ends). split; [destruct q; [contradiction|discriminate]|]. rewrite Q2, app_assoc. reflexivity.
      - destruct r as [|e r].
        + rewrite app_nil_r in Q1. subst S0. destruct (FL2 l [] ltac:(rewrite app_nil_r; reflexivity) LN) as [D|M]; rewrite Q1 in *; [left; exact D|right; split; [exact M|]]. exists ends. auto.
        + left. rewrite Q1. apply FL1. destruct ends as [|e1 ends]; [contradiction|]. cbn [app] in Q2. inversion Q2; subst. inversion EF; assumption. }
    destruct CB as [(k & CB)|((k & CB) & q & QN & QE)]; rewrite CB, WRS; cbn [bind]; cbv zeta; rewrite set_buf_id; cbn [handleCallbackResult bind].
    + rewrite PL by auto. cbn [bind]. eapply tail_line; [exact H1|exact HD|lia|exact AP|exact NE0|reflexivity].
    + eexists _, _, _. split; [reflexivity|]. eapply stop_here; [exact H1|exact HD|exact AP| |reflexivity|reflexivity].
      intros ->. exfalso. rewrite bytes_cons in EQ0. cbn [seg_bytes] in EQ0. rewrite QE, <- app_assoc in EQ0. apply app_inv_head in EQ0. destruct q; [contradiction|discriminate].
  - (* a frame *)
    inversion GS as [|x y K GS']; subst x y. destruct K as (HD1 & TK & INC). rewrite bytes_cons in EQ0. cbn [seg_bytes] in EQ0.
    destruct (app_split _ _ _ _ EQ0) as [(q & Q1 & Q2 & Q3)|(r & Q1 & Q2)].
    + (* incomplete *)
      assert (AP : at_pos S0 F [] (Frame f :: gs)) by (split; [exact EQ0|split; [constructor|auto]]).
      assert (FN : F = [] -> Frame f :: gs = []) by (intros ->; exfalso; destruct q; [contradiction|discriminate]).
      destruct (INC S0 q Q2 NE0 Q1) as [(k & CB)|((k & CB) & TX)]; rewrite CB, WRS; cbn [bind]; cbv zeta; rewrite set_buf_id; cbn [handleCallbackResult bind].
      * eexists _, _, _. split; [reflexivity|]. eapply stop_here; [exact H1|exact HD|exact AP|exact FN|reflexivity|reflexivity].
      * rewrite PL by auto. cbn [bind]. unfold tail.
        destruct (find_eol_spec (rx_buf s) n1 l1 ltac:(lia)) as [(i & FE & FI & FC & FEE)|[FE _]].
        { exfalso. rewrite <- S1 in TX. unfold line_text in TX. rewrite Forall_forall in TX.
          apply (TX (nth (l1 + i) (rx_buf s) 0%N)); [|first [exact (proj1 (is_eol_iff _) FC)|exact (proj1 (is_eol_iff _) FEE)]].
          rewrite <- nth_skipn. rewrite <- (nth_firstn _ n1 i 0%N FI). apply nth_In. rewrite firstn_length, skipn_length. lia. }
        rewrite FE. cbn [bind]. eexists _, _, _. split; [reflexivity|]. eapply stop_here; [exact H1|exact HD|exact AP|exact FN|reflexivity|reflexivity].
    + (* complete *)
      pose proof (TK r) as CB. unfold takes in CB. rewrite <- Q1 in CB. rewrite CB, WRS. cbn [bind]. cbv zeta. rewrite set_buf_id.
      assert (LF : (n1 = length f + length r)%nat) by (rewrite <- LS0, Q1, app_length; reflexivity).
      replace (n1 <? length f)%nat with false by (symmetry; apply Nat.ltb_ge; lia).
      cbn [bind]. set (s2 := set_left s (Some (l1 + length f)%nat) (rx_partial s)).
      assert (H2 : holds cap s2 (l1 + length f) (n1 - length f) r a).
      { split; [exact HB|]. split; [lia|]. split.
        - cbn [s2 set_left rx_buf]. rewrite <- (skipn_skipn' (rx_buf s) (length f) l1), <- skipn_firstn_comm, S1, Q1. rewrite skipn_app, skipn_all, Nat.sub_diag. reflexivity.
        - eapply (items_agree cap); [exact HI1|apply agree_refl|lia]. }
      assert (LF0 : (0 < length f)%nat) by (destruct HD1 as (c & t0 & -> & _); cbn; lia).
      destruct (Nat.eq_dec (n1 - length f) 0) as [Z2|Z2].
      * unfold preprocessLine. rewrite Z2. cbn [Nat.eqb bind]. assert (RE : r = []) by (destruct r; [reflexivity|cbn [length] in LF; lia]).
        eexists _, _, _. split; [reflexivity|]. rewrite <- Z2. eapply (stop_here s2 _ _ r a F h gs); [exact H2|exact HD| | |reflexivity|reflexivity].
        -- split; [symmetry; exact Q2|]. split; [constructor|]. split; [exact GS'|eapply separated_tail; exact SEP].
        -- intros ->. rewrite RE in Q2. cbn [app] in Q2. destruct (head_ok gs GS') as [[_ Q]|(c & t0 & Q & _)]; [exact Q|congruence].
      * rewrite PL by auto. cbn [bind]. assert (RN : r <> []) by (intros ->; cbn [length] in LF; lia).
        destruct gs as [|[l ends|f2] gs]; [exfalso; symmetry in Q2; apply app_eq_nil in Q2; apply RN, Q2| |cbn in SEP; contradiction].
        eapply tail_line; [exact H2|exact HD|lia| |exact RN|reflexivity].
        split; [symmetry; exact Q2|]. split; [constructor|]. split; [exact GS'|eapply separated_tail; exact SEP].
Qed.

Lemma advanced_trans h a gs h1 a1 gs1 h2 a2 gs2 : advanced h a gs h1 a1 gs1 -> advanced h1 a1 gs1 h2 a2 gs2 -> advanced h a gs h2 a2 gs2.
Proof.
  intros (l1 & E1 & L1) (l2 & E2 & L2). exists (l1 ++ l2). split; [rewrite E1, E2, app_assoc; reflexivity|]. eapply lss_app; eassumption.
Qed.

Lemma loop_frames fuel : forall t h s line n sod t' h' s' lft a F E gs, holds cap s line n lft a -> rx_dlen s = 0%nat -> at_pos lft F E gs ->
  handleAllReceived cap fuel env t h s line n sod = Ok (t', h', s') -> ~ In EvDrop h' ->
  rx_dlen s' = 0%nat /\ exists a' lft' E' gs', parked cap s' lft' a' /\ at_pos lft' F E' gs' /\ (F = [] -> gs' = []) /\ advanced h a gs h' a' gs'.
Proof.
  induction fuel as [|fuel IH]; intros t h s line n sod t' h' s' lft a F E gs HH HD AP EQ ND; [discriminate|]. cbn [handleAllReceived] in EQ.
  destruct (pass_frames t h s line n sod lft a F E gs HH HD AP) as (ev & out & sod' & EP & PG). rewrite EP in EQ. cbn [bind] in EQ.
  destruct out as [s1|s1 l2 n2].
  - inversion EQ; subst. destruct PG as [PG|PG]; [exfalso; apply ND, in_or_app; auto|exact PG].
  - destruct PG as [PG|(NL & D1 & a1 & lft1 & E1 & gs1 & H1 & AP1 & ADV)].
    + exfalso. destruct (loop_history cap fuel env _ _ _ _ _ _ _ _ _ EQ) as (x & ->). apply ND, in_or_app. left. apply in_or_app. auto.
    + destruct (IH _ _ _ _ _ _ _ _ _ _ _ _ _ _ H1 D1 AP1 EQ ND) as (D2 & a2 & lft2 & E2 & gs2 & P2 & AP2 & FN & ADV2).
      split; [exact D2|]. exists a2, lft2, E2, gs2. split; [exact P2|]. split; [exact AP2|]. split; [exact FN|]. eapply advanced_trans; eassumption.
Qed.

Lemma event_frames fuel t h s recv k t1 h1 s1 lft a F E gs : parked cap s lft a -> rx_dlen s = 0%nat -> at_pos lft (recv (offered cap s) ++ F) E gs ->
  (recv (offered cap s) ++ F = [] -> gs = []) -> room cap s -> recv_contract recv ->
  handleRxDataEvent cap fuel env t h s recv = Ok (k, t1, h1, s1) -> ~ In EvDrop h1 ->
  rx_dlen s1 = 0%nat /\ exists a' lft' E' gs', parked cap s1 lft' a' /\ at_pos lft' F E' gs' /\ (F = [] -> gs' = []) /\ advanced h a gs h1 a' gs'.
Proof.
  intros PK HD AP FN RM RC EQ ND. unfold handleRxDataEvent in EQ.
  destruct (readline_step cap s recv lft a PK RM RC) as (pl & bytes & s0 & ER & D0 & R0 & Q). rewrite ER in EQ. cbn [bind] in EQ. rewrite HD in D0.
  destruct Q as [(-> & BE & P0)|(p & -> & BP & H0)].
  { cbn [Nat.ltb Nat.leb] in EQ. inversion EQ; subst. split; [exact D0|]. exists a, lft, E, gs. rewrite BE in *. cbn [app] in *.
    split; [exact P0|]. split; [exact AP|]. split; [exact FN|]. exists []. split; [reflexivity|constructor]. }
  replace (0 <? bytes)%nat with true in EQ by (symmetry; apply Nat.ltb_lt; lia). rewrite D0 in EQ. cbn [Nat.eqb negb bind] in EQ.
  replace (0 <? bytes)%nat with true in EQ by (symmetry; apply Nat.ltb_lt; lia).
  destruct H0 as (B2 & L2 & S2 & I2). pose proof B2 as [BL _]. rewrite st_ok in EQ by lia. cbn [bind] in EQ.
  destruct (handleAllReceived cap fuel env t h _ p bytes None) as [[[t' h'] s']| |] eqn:EL; cbn [bind] in EQ; [|discriminate|discriminate].
  inversion EQ; subst. refine (loop_frames _ _ _ _ _ _ _ _ _ _ (lft ++ recv (offered cap s)) a F E gs _ (_ : rx_dlen (set_buf s0 _) = 0%nat) _ EL ND); [|exact D0|].
  - split; [cbn; apply buf_st; exact B2|]. split; [exact L2|]. cbn. split; [rewrite slice_upd by lia; exact S2|].
    eapply (items_agree cap); [exact I2| |apply le_n]. eapply agree_le; [apply agree_upd|lia].
  - destruct AP as (Q & AP). split; [rewrite <- app_assoc; exact Q|exact AP].
Qed.

Lemma run_frames fuel t h s cs t' h' s' : run cap fuel env t h s cs t' h' s' -> forall lft a E gs, parked cap s lft a -> rx_dlen s = 0%nat ->
  at_pos lft (concat cs) E gs -> (concat cs = [] -> gs = []) -> ~ In EvDrop h' -> exists a', lines_steps (env 0%nat) h a (lines_of gs) h' a'.
Proof.
  induction 1 as [t h s|t h s recv k t1 h1 s1 cs t2 h2 s2 RC RM EV RUN IH]; intros lft a E gs PK HD AP FN ND.
  - rewrite (FN eq_refl). exists a. constructor.
  - assert (ND1 : ~ In EvDrop h1) by (destruct (run_history _ _ _ _ _ _ _ _ _ _ RUN) as (x & ->); intro Q; apply ND, in_or_app; auto).
    cbn [concat] in AP, FN. destruct (event_frames _ _ _ _ _ _ _ _ _ _ _ _ _ _ PK HD AP FN RM RC EV ND1) as (D1 & a1 & lft1 & E1 & gs1 & P1 & AP1 & FN1 & (ls & L1 & L2)).
    destruct (IH lft1 a1 E1 gs1 P1 D1 AP1 FN1 ND) as (a2 & L3). exists a2. rewrite L1. eapply lss_app; eassumption.
Qed.
End Frames.

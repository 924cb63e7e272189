(** The byte-level system refines the line-level one of Request.v: proofs. *)
From Coq Require Import List NArith ZArith Bool Arith Lia.
From Verif Require Import Bytes AtCore Status SpecAt AtProofs AtProofs3 Pktio SpecPktio PktioLine PktioSafe SpecStream PktioStream PktioText PktioFrames G3pp Wire SpecWire SpecTimed WireProofs PktioTimed.
From Verif Require Import Request SpecRequest SpecAnswers RequestInv RequestTidy RequestFull Properties_Request Properties_RequestAgree Properties_Answers Whole SpecWhole.
Import ListNotations.

Definition texts (c : Request.state) : list str := match resp c with Some ls => map l_text ls | None => [] end.
Definition small (c : Request.state) : Prop :=
  table_small (extra c) /\ forall i p k, nth_error (ths c) i = Some p -> call_of p = Some k -> table_small (hook_extra (rq_kind (c_req k))).

Lemma deliver_of_rel m b r a : (b <= length m)%nat -> items_rel m b (Some r) a -> deliver m (r_items r) = Ok a.
Proof. intros L H. eapply deliver_rel; [exact L|exact H]. Qed.
Lemma retext_same ls : retext ls (map l_text ls) = ls.
Proof. induction ls as [|[t f b] ls IH]; [reflexivity|]. cbn. f_equal. exact IH. Qed.
Lemma lines_of_rest A B : stream_lines [] (drop_eol A ++ B) = stream_lines [] (A ++ B).
Proof. rewrite (lines_app (drop_eol A)), (lines_app A), lines_drop. reflexivity. Qed.

Lemma take_rest {A} m (l : list A) : firstn m l ++ skipn (length (firstn m l)) l = l.
Proof.
  rewrite firstn_length. destruct (Nat.le_ge_cases m (length l)) as [L|L]; [rewrite Nat.min_l by lia; apply firstn_skipn|].
  rewrite Nat.min_r by lia. rewrite firstn_all2, skipn_all by lia. apply app_nil_r.
Qed.

Lemma forall2_len {A B} (R : A -> B -> Prop) l m : Forall2 R l m -> length l = length m.
Proof. induction 1; cbn; congruence. Qed.

Section Sim.
Variable cap : nat.
Variable tt : token_table.

Definition PInv (w : whole) (rest : str) : Prop :=
  let c := w_core w in let x := w_rx w in
  rx_dlen x = 0%nat /\
  match w_at w with
  | Waiting => parked cap x rest (texts c) /\ rd c = RIdle /\ line_text rest
  | Scanning line n => holds cap x line n rest (texts c) /\ rd c = RIdle
  | Working line n i =>
      buf_ok cap (rx_buf x) /\ (line + n <= cap)%nat /\ (i < n)%nat /\ firstn (n - S i) (skipn (line + S i) (rx_buf x)) = rest /\
      items_rel (rx_buf x) (line + i + 1) (rx_resp x) (texts c) /\ rd c <> RIdle /\
      (forall l, reader_line (rd c) = Some l -> cstr_get (rx_buf x) line = Some (l_text l) /\ length (l_text l) = i) /\
      (forall ok ls l, rd c = RDone ok ls l \/ rd c = RHandle ok ls l \/ rd c = RCall ls l -> resp c = Some ls /\ rx_resp x <> None)
  end.

(** ** The application threads *)
Lemma app_frame a c c' : app_label a = true -> exec tt a c = Some c' -> rd c' = rd c /\ resp c' = resp c /\ wire c' = wire c.
Proof.
  intros A E. destruct a as [i r|i|i|i|i| |st|a k|l|g]; try discriminate A; cbn [exec] in E.
  - destruct (nth_error (ths c) i) as [[]|]; try discriminate. destruct (rq_kind r) as [|[t|]| | |]; injection E as <-; auto.
  - unfold thread_step in E. destruct (nth_error (ths c) i) as [p|]; [|discriminate].
    destruct p; try discriminate; repeat match goal with H : match ?x with _ => _ end = Some _ |- _ => destruct x; try discriminate end; injection E as <-;
      repeat match goal with |- context [match ?x with _ => _ end] => destruct x end; auto.
  - destruct (nth_error (ths c) i) as [[]|]; try discriminate; injection E as <-; auto.
  - destruct (nth_error (ths c) i) as [[]|]; try discriminate; injection E as <-; auto.
  - destruct (nth_error (ths c) i) as [[]|]; try discriminate; injection E as <-; auto.
  - injection E as <-; auto.
Qed.
Lemma small_set c c' i p p' : small c -> nth_error (ths c) i = Some p -> ths c' = set_nth (ths c) i p' -> (call_of p' = call_of p \/ call_of p' = None) -> table_small (extra c') -> small c'.
Proof.
  intros (S1 & S2) EP T1 CO E1. split; [exact E1|]. intros j q k EQ CK. rewrite T1 in EQ. apply nth_set_cases in EQ. destruct EQ as [(-> & ->)|(_ & EQ)]; [|eapply S2; eassumption].
  destruct CO as [CO|CO]; [|congruence]. rewrite CO in CK. eapply S2; eassumption.
Qed.
Lemma none_small : table_small None. Proof. intros k Q. discriminate. Qed.
Lemma after_call c st o : call_of (after_command c st o) = Some c.
Proof. unfold after_command. destruct (data_of _); [destruct st|]; reflexivity. Qed.
Lemma exec_small a c c' : small c -> (forall i r, a = LCall i r -> table_small (hook_extra (rq_kind r))) -> exec tt a c = Some c' -> small c'.
Proof.
  intros S0 CL E. pose proof S0 as (S1 & S2). assert (FR : ths c' = ths c -> extra c' = extra c -> small c') by (intros Q1 Q2; split; [rewrite Q2; exact S1|rewrite Q1; exact S2]).
  destruct a as [i r|i|i|i|i| |st|a k|l|g]; cbn [exec] in E.
  - destruct (nth_error (ths c) i) as [[]|] eqn:EP; try discriminate. specialize (CL i r eq_refl).
    assert (G : c' = goto i (Called {| c_id := next c; c_req := r |}) (set_next (S (next c)) c) -> small c').
    { intros ->. split; [exact S1|]. intros j q k EQ CK. cbn in EQ. apply nth_set_cases in EQ. destruct EQ as [(-> & ->)|(_ & EQ)]; [|eapply S2; eassumption]. cbn in CK. injection CK as <-. exact CL. }
    destruct (rq_kind r) as [|[t|]| | |]; injection E as <-; try (apply G; reflexivity). apply FR; reflexivity.
  - unfold thread_step in E. destruct (nth_error (ths c) i) as [p|] eqn:EP; [|discriminate].
    assert (TS : forall k, call_of p = Some k -> table_small (hook_extra (rq_kind (c_req k)))) by (intros k Q; eapply S2; eassumption).
    destruct p as [|k|k|k|k|k|k|k st o|k st o|k|k|k|k st o|k st o]; try discriminate.
    + destruct (mtx c); [discriminate|]. injection E as <-. eapply small_set; [exact S0|exact EP|reflexivity|left; reflexivity|exact S1].
    + specialize (TS k eq_refl). injection E as <-. eapply small_set; [exact S0|exact EP|destruct (rq_kind (c_req k)); reflexivity|left; reflexivity|].
      destruct (rq_kind (c_req k)); cbn in *; assumption.
    + destruct (rq_cmd (c_req k)); injection E as <-; (eapply small_set; [exact S0|exact EP|reflexivity|left; reflexivity|exact S1]).
    + destruct (rq_cmd (c_req k)); [|discriminate]. destruct (send_check _ _ _) as [st|[e|]]; injection E as <-; (eapply small_set; [exact S0|exact EP|reflexivity|left; reflexivity|exact S1]).
    + injection E as <-. eapply small_set; [exact S0|exact EP|reflexivity|left; reflexivity|exact S1].
    + destruct (queue c); [|discriminate]. injection E as <-. eapply small_set; [exact S0|exact EP|reflexivity|left; reflexivity|exact S1].
    + injection E as <-. eapply small_set; [exact S0|exact EP|reflexivity|left; reflexivity|exact S1].
    + injection E as <-. eapply small_set; [exact S0|exact EP|destruct (rq_kind (c_req k)); reflexivity|left; apply after_call|].
      destruct (rq_kind (c_req k)); cbn; first [exact S1|apply none_small].
    + destruct (data_of _) as [d|]; [|discriminate]. destruct (d_data d); injection E as <-; (eapply small_set; [exact S0|exact EP|reflexivity|left; reflexivity|exact S1]).
    + injection E as <-. eapply small_set; [exact S0|exact EP|reflexivity|left; reflexivity|exact S1].
    + destruct (queue c); [|discriminate]. injection E as <-. eapply small_set; [exact S0|exact EP|reflexivity|left; reflexivity|exact S1].
    + injection E as <-. eapply small_set; [exact S0|exact EP|reflexivity|left; reflexivity|exact S1].
    + injection E as <-. eapply small_set; [exact S0|exact EP|reflexivity|right; reflexivity|exact S1].
  - destruct (nth_error (ths c) i) as [[]|] eqn:EP; try discriminate; injection E as <-; (eapply small_set; [exact S0|exact EP|reflexivity|left; reflexivity|exact S1]).
  - destruct (nth_error (ths c) i) as [[]|] eqn:EP; try discriminate; injection E as <-; (eapply small_set; [exact S0|exact EP|reflexivity|left; reflexivity|exact S1]).
  - destruct (nth_error (ths c) i) as [[]|] eqn:EP; try discriminate; injection E as <-; (eapply small_set; [exact S0|exact EP|reflexivity|left; reflexivity|exact S1]).
  - destruct (reader_frame tt c c' E) as (TH & _ & HK & _). unfold hooks in HK. apply FR; [exact TH|congruence].
  - destruct (rd c); try discriminate. injection E as <-. apply FR; reflexivity.
  - destruct (rd c); try discriminate. destruct a; injection E as <-; apply FR; reflexivity.
  - injection E as <-. apply FR; reflexivity.
  - injection E as <-. apply FR; reflexivity.
Qed.

(** ** The reader *)
Lemma texts_frame c c' : resp c' = resp c -> texts c' = texts c.
Proof. unfold texts. intros ->. reflexivity. Qed.

Lemma read_step k w rest : PInv w rest -> w_at w = Waiting -> room cap (w_rx w) ->
  exists w' rest', read_bytes cap k w = Ok w' /\ PInv w' rest' /\ w_core w' = w_core w /\ rest' ++ w_fifo w' = rest ++ w_fifo w.
Proof.
  intros (HD & HP) HA RM. rewrite HA in HP. destruct HP as (PK & RI & LTX). unfold read_bytes.
  set (recv := fun space => firstn (Nat.min k space) (w_fifo w)).
  assert (RC : recv_contract recv) by (intro sp; unfold recv; cbv beta; rewrite firstn_length; pose proof (Nat.le_min_l (Nat.min k sp) (length (w_fifo w))); pose proof (Nat.le_min_r k sp); lia).
  destruct (readline_step cap (w_rx w) recv rest (texts (w_core w)) PK RM RC) as (pl & bytes & s1 & -> & D1 & R1 & HH). cbn [bind].
  set (got := recv (offered cap (w_rx w))) in *.
  assert (SP : got ++ skipn (length got) (w_fifo w) = w_fifo w).
  { unfold got, recv. apply take_rest. }
  destruct HH as [(-> & G0 & PK1)|(p & -> & BP & HO)].
  - cbn [Nat.ltb Nat.leb]. eexists _, rest. split; [reflexivity|]. split; [split; [cbn; congruence|cbn; auto]|]. split; [reflexivity|]. change (rest ++ skipn (length got) (w_fifo w) = rest ++ w_fifo w). rewrite G0. reflexivity.
  - replace (0 <? bytes)%nat with true by (symmetry; apply Nat.ltb_lt; lia). rewrite D1, HD. cbn [Nat.eqb negb bind].
    replace (0 <? bytes)%nat with true by (symmetry; apply Nat.ltb_lt; lia).
    pose proof HO as ((BL & BZ) & LE & SL & IT). rewrite st_ok by lia. cbn [bind].
    eexists _, (rest ++ got). split; [reflexivity|]. split; [|split; [reflexivity|change ((rest ++ got) ++ skipn (length got) (w_fifo w) = rest ++ w_fifo w); rewrite <- app_assoc, SP; reflexivity]].
    split; [cbn; congruence|]. cbn [w_at w_core w_rx]. split; [|exact RI].
    split; [apply buf_st; split; assumption|]. split; [exact LE|]. cbn [set_buf rx_buf rx_resp]. split.
    + rewrite slice_upd by lia. exact SL.
    + eapply (items_agree cap); [exact IT| |apply le_n]. eapply agree_le; [apply agree_upd|lia].
Qed.

Lemma scan_step w rest line0 n0 : PInv w rest -> w_at w = Scanning line0 n0 ->
  exists w' rest', scan w line0 n0 = Ok w' /\ PInv w' rest' /\ w_fifo w' = w_fifo w /\
    ((w_core w' = w_core w /\ rest' = drop_eol rest /\ w_at w' = Waiting /\ line_text rest') \/
     (exists l e, drop_eol rest = l ++ e :: rest' /\ l <> [] /\ line_text l /\ eol e /\
        w_core w' = set_rd (RGot (match wire (w_core w) with
                                  | g :: _ => {| l_text := l; l_from := l_from g; l_last := l_last g |}
                                  | [] => {| l_text := l; l_from := None; l_last := false |} end)) (set_wire (tl (wire (w_core w))) (w_core w)))).
Proof.
  intros (HD & HP) HA. rewrite HA in HP. destruct HP as ((HB & HL & HS & HI) & RI). unfold scan. pose proof HB as (BL & BZ). set (x := w_rx w) in *.
  destruct (skip_holds (rx_buf x) n0 line0 rest) as (l1 & n1 & -> & S1 & E1 & G1); [lia|exact HS|]. cbn [bind].
  assert (HI1 : items_rel (rx_buf x) l1 (rx_resp x) (texts (w_core w))) by (eapply (items_agree cap); [exact HI|apply agree_refl|exact G1]).
  set (S0 := drop_eol rest) in *.
  assert (LS0 : length S0 = n1) by (rewrite <- S1, firstn_length, skipn_length; lia).
  assert (PK : parked cap (set_left x (Some l1) n1) S0 (texts (w_core w))).
  { split; [exact HB|]. split; [cbn; lia|]. split; [exact S1|]. split; [exact HI1|]. cbn. congruence. }
  destruct (n1 =? 0)%nat eqn:EN1.
  { apply Nat.eqb_eq in EN1. eexists _, S0. split; [reflexivity|]. assert (LTX : line_text S0) by (destruct S0; [constructor|cbn [length] in LS0; lia]). split; [split; [exact HD|cbn; auto]|]. split; [reflexivity|]. left. repeat (split; [reflexivity|]). exact LTX. }
  destruct (find_eol (rx_buf x) l1 n1) as [[i|]| |] eqn:FE; cbn [bind];
      [| |exfalso; destruct (find_eol_spec (rx_buf x) n1 l1 ltac:(lia)) as [(? & Q & _)|[Q _]]; rewrite FE in Q; discriminate
         |exfalso; destruct (find_eol_spec (rx_buf x) n1 l1 ltac:(lia)) as [(? & Q & _)|[Q _]]; rewrite FE in Q; discriminate].
  2:{ eexists _, S0. split; [reflexivity|]. assert (LTX : line_text S0) by (rewrite <- S1; exact (find_none_text (rx_buf x) l1 n1 ltac:(lia) FE)). split; [split; [exact HD|cbn; auto]|]. split; [reflexivity|]. left. repeat (split; [reflexivity|]). exact LTX. }
  destruct (find_some_split (rx_buf x) l1 n1 i ltac:(lia) FE) as (l & e & SP & LT & EE & LI & IN & CS).
  rewrite S1 in SP. set (rest' := firstn (n1 - S i) (skipn (l1 + S i) (rx_buf x))) in SP.
  assert (LN : l <> []).
  { intros ->. destruct (drop_eol_head rest) as [Q|(c & t0 & Q & NE)]; fold S0 in Q; rewrite SP in Q; cbn [app] in Q; [discriminate|]. inversion Q; subst. contradiction. }
  rewrite st_ok by lia. cbn [bind]. rewrite CS.
  set (g := match wire (w_core w) with g :: _ => _ | [] => _ end).
  assert (GT : l_text g = l) by (unfold g; destruct (wire (w_core w)); reflexivity).
  eexists _, rest'. split; [reflexivity|]. split.
  - split; [exact HD|]. cbn [w_at w_core w_rx set_buf rx_buf rx_resp]. split; [apply buf_st; exact HB|]. split; [lia|]. split; [exact IN|].
    split; [rewrite (skip_upd cap) by lia; reflexivity|]. split.
    + eapply (items_agree cap); [exact HI1| |lia]. eapply agree_le; [apply agree_upd|lia].
    + split; [discriminate|]. split.
      * intros l' Q. cbn in Q. injection Q as <-. rewrite GT. split; [exact CS|exact LI].
      * intros ok ls l' [Q|[Q|Q]]; discriminate.
  - split; [reflexivity|]. right. exists l, e. repeat (split; [assumption|]). reflexivity.
Qed.

(** Going on to the next line. *)
Lemma next_ok c x fifo line n i st mt rest : buf_ok cap (rx_buf x) -> (line + n <= cap)%nat -> (i < n)%nat ->
  firstn (n - S i) (skipn (line + S i) (rx_buf x)) = rest -> items_rel (rx_buf x) (line + i + 1) (rx_resp x) (texts c) -> rd c = RIdle -> rx_dlen x = 0%nat ->
  (st = PKT_OK -> mt = AT_SOLICITED -> texts c = [] /\ rx_resp x = None) ->
  exists w', next_line c x fifo line n i st mt = Ok w' /\ PInv w' rest /\ w_core w' = c /\ w_fifo w' = fifo.
Proof.
  intros HB HL HI HR IT RI HD Q. pose proof HB as (BL & BZ). unfold next_line, getNextLine. replace (n <? i + 1)%nat with false by (symmetry; apply Nat.ltb_ge; lia).
  rewrite PktioSafe.rd_ok by lia. cbn [bind]. set (dd := firstn (n - (i + 1)) _).
  assert (DL : length dd = (n - (i + 1))%nat) by (unfold dd; rewrite firstn_length, skipn_length; lia).
  assert (DD : dd = rest).
  { unfold dd. rewrite <- HR. replace (line + (i + 1))%nat with (line + S i)%nat by lia. f_equal. lia. }
  assert (W : wr (rx_buf x) 0 dd = Ok (firstn 0 (rx_buf x) ++ dd ++ skipn (0 + length dd) (rx_buf x))) by (apply wr_ok; lia).
  set (m0 := firstn 0 (rx_buf x) ++ dd ++ skipn (0 + length dd) (rx_buf x)) in *.
  assert (PLAIN : exists w', (do r <- Ok (Next (set_left x (Some (line + (i + 1))%nat) (n - (i + 1))) (line + (i + 1)) (n - (i + 1)));
     match r with
     | Next x' line' n' => Ok {| w_core := c; w_rx := x'; w_fifo := fifo; w_at := Scanning line' n' |}
     | Stop x' => Ok {| w_core := c; w_rx := x'; w_fifo := fifo; w_at := Waiting |}
     end) = Ok w' /\ PInv w' rest /\ w_core w' = c /\ w_fifo w' = fifo).
  { cbn [bind]. eexists. split; [reflexivity|]. split; [|split; reflexivity]. split; [exact HD|]. cbn [w_at w_core w_rx]. split; [|exact RI].
    split; [exact HB|]. split; [lia|]. split; [exact DD|]. cbn [set_left rx_buf rx_resp]. replace (line + (i + 1))%nat with (line + i + 1)%nat by lia. exact IT. }
  destruct st; try exact PLAIN. destruct mt; try exact PLAIN.
  rewrite W. cbn [bind]. destruct (Q eq_refl eq_refl) as [TN RN].
  eexists. split; [reflexivity|]. split; [|split; reflexivity]. split; [exact HD|]. cbn [w_at w_core w_rx]. split; [|exact RI].
  split; [eapply buf_wr; [exact HB|exact W|lia]|]. split; [lia|]. cbn [set_left set_buf rx_buf rx_resp]. split.
  - pose proof (wr_slice _ _ _ _ W) as WS. rewrite DL in WS. cbn [skipn] in WS |- *. rewrite WS. exact DD.
  - rewrite RN. exact TN.
Qed.

(** The reader's action on a line: defined, and the same action of the line-level system. *)
Lemma line_act w rest line n i a r : tables_ok (tokens_now tt None) -> small (w_core w) -> PInv w rest -> w_at w = Working line n i -> line_action cap tt w line n i a = Some r ->
  exists w' rest', r = Ok w' /\ PInv w' rest' /\ w_fifo w' = w_fifo w /\ exec tt a (w_core w) = Some (w_core w') /\
    (rest' = rest \/ exists k l, a = LUndef false k /\ rd (w_core w) = RUndef l).
Proof.
  intros TK (SM & _) (HD & HP) HA E. rewrite HA in HP. destruct HP as (HB & HL & HI & HR & IT & NI & LN & RS). set (c := w_core w) in *. set (x := w_rx w) in *.
  assert (STAY : forall c' x', buf_ok cap (rx_buf x') -> rx_buf x' = rx_buf x -> rx_dlen x' = 0%nat -> items_rel (rx_buf x) (line + i + 1) (rx_resp x') (texts c') -> rd c' <> RIdle ->
    (reader_line (rd c') = reader_line (rd c) \/ reader_line (rd c') = None) -> (forall ok ls l, rd c' = RDone ok ls l \/ rd c' = RHandle ok ls l \/ rd c' = RCall ls l -> resp c' = Some ls /\ rx_resp x' <> None) ->
    PInv {| w_core := c'; w_rx := x'; w_fifo := w_fifo w; w_at := Working line n i |} rest).
  { intros c' x' B' EB D' I' N' RL' RS'. split; [exact D'|]. cbn [w_at w_core w_rx]. rewrite EB. repeat (split; [assumption|]). split; [|exact RS'].
    intros l Q. apply LN. destruct RL' as [RL'|RL']; congruence. }
  assert (NEXT : forall c' x' st mt, rx_buf x' = rx_buf x -> rx_dlen x' = 0%nat -> items_rel (rx_buf x) (line + i + 1) (rx_resp x') (texts c') -> rd c' = RIdle ->
    (st = PKT_OK -> mt = AT_SOLICITED -> texts c' = [] /\ rx_resp x' = None) -> exec tt a c = Some c' ->
    exists w' rest', next_line c' x' (w_fifo w) line n i st mt = Ok w' /\ PInv w' rest' /\ w_fifo w' = w_fifo w /\ exec tt a c = Some (w_core w') /\ (rest' = rest \/ exists k l, a = LUndef false k /\ rd c = RUndef l)).
  { intros c' x' st mt EB D' I' R' Q' EX. destruct (next_ok c' x' (w_fifo w) line n i st mt rest) as (w' & N1 & N2 & N3 & N4); try rewrite EB; try assumption.
    exists w', rest. rewrite N3. repeat (split; [assumption|]). left. reflexivity. }
  unfold line_action in E. fold c in E. destruct (rd c) as [|l|l u|l mt|l t|l|ok ls l|ok ls l|ls l|id ls l|st l ok b|] eqn:RD; try congruence.
  - destruct a; try discriminate. injection E as <-. eexists _, rest. split; [reflexivity|]. split; [apply STAY; try assumption; try reflexivity; [discriminate|left; reflexivity|intros ? ? ? [Q|[Q|Q]]; discriminate]|].
    split; [reflexivity|]. split; [cbn; unfold reader_step; rewrite RD; reflexivity|auto].
  - destruct a; try discriminate. injection E as <-. eexists _, rest. split; [reflexivity|]. split; [apply STAY; try assumption; try reflexivity; [discriminate|left; reflexivity|intros ? ? ? [Q|[Q|Q]]; discriminate]|].
    split; [reflexivity|]. split; [cbn; unfold reader_step; rewrite RD; reflexivity|auto].
  - destruct mt, a; try discriminate; injection E as <-.
    + eexists _, rest. split; [reflexivity|]. split; [apply STAY; try assumption; try reflexivity; [discriminate|left; reflexivity|intros ? ? ? [Q|[Q|Q]]; discriminate]|].
      split; [reflexivity|]. split; [cbn; unfold reader_step; rewrite RD; reflexivity|auto].
    + apply (NEXT (set_rd RIdle c) x); try assumption; try reflexivity; [discriminate|]. cbn. unfold reader_step. rewrite RD. reflexivity.
    + eexists _, rest. split; [reflexivity|]. split; [apply STAY; try assumption; try reflexivity; [discriminate|left; reflexivity|intros ? ? ? [Q|[Q|Q]]; discriminate]|].
      split; [reflexivity|]. split; [cbn; unfold reader_step; rewrite RD; reflexivity|auto].
  - destruct a; try discriminate. injection E as <-. unfold process_line. fold c x.
    set (r0 := match rx_resp x with Some r => r | None => AtResponseNew end). set (ls := match resp c with Some ls => ls | None => [] end).
    destruct (LN l eq_refl) as (CS & LI).
    assert (I0 : Forall2 (content_at (rx_buf x) (line + i + 1)) (r_items r0) (map l_text ls)).
    { unfold r0, ls, texts in *. unfold items_rel in IT. destruct (rx_resp x) as [r1|]; [destruct (resp c); exact IT|]. destruct (resp c) as [ll|]; [|constructor]. rewrite IT. constructor. }
    assert (LE : length (r_items r0) = length ls) by (rewrite <- (map_length l_text ls); eapply forall2_len; exact I0).
    assert (TB : tables_ok (tokens_now tt (extra c))) by (apply tables_with; assumption).
    assert (PX : exists st1 r1, ProcessLine (tokens_now tt (extra c)) line (l_text l) r0 t = Ok (st1, r1)).
    { destruct (process_line_spec _ line (l_text l) r0 t TB) as [[_ ->]|[[_ ->]|[_ ->]]]; eauto. destruct (processIntermediateResponse line r0 t); eauto. }
    destruct PX as (st1 & r1 & PL). destruct (process_agrees _ _ _ _ _ _ _ _ LE PL) as (r2 & PL2 & ST & ITM). rewrite PL. cbn [bind].
    set (ls' := if (length (r_items r1) =? length (r_items r0))%nat then ls else ls ++ [l]).
    assert (LS2 : (if (length (r_items r2) =? length ls)%nat then ls else ls ++ [l]) = ls').
    { unfold ls'. destruct ITM as [(-> & ->)|(-> & ->)]; [rewrite !Nat.eqb_refl; reflexivity|]. rewrite app_length. cbn [length]. rewrite !(proj2 (Nat.eqb_neq _ _)) by lia. reflexivity. }
    assert (I1 : items_rel (rx_buf x) (line + i + 1) (Some r1) (map l_text ls')).
    { unfold ls', items_rel. destruct ITM as [(-> & _)|(-> & _)]; [rewrite Nat.eqb_refl; exact I0|]. rewrite app_length. cbn [length]. rewrite (proj2 (Nat.eqb_neq _ _)) by lia.
      rewrite map_app. apply Forall2_app; [exact I0|]. constructor; [|constructor]. unfold content_at. cbn [it_raw it_ptr]. split; [exact CS|lia]. }
    assert (EX : forall c', reader_process tt c l t = Some c' -> exec tt LReader c = Some c') by (intros c' Q; cbn; unfold reader_step; rewrite RD; exact Q).
    unfold reader_process in EX. fold ls in EX. rewrite PL2, LS2 in EX.
    set (x' := Pktio.set_resp x (Some r1)) in *. set (c' := set_resp (Some ls') c) in *.
    destruct st1.
    1: { eexists _, rest. split; [reflexivity|]. split.
         - apply STAY; try assumption; try reflexivity; [discriminate|left; reflexivity|]. intros ? ? ? [Q|[Q|Q]]; try discriminate. injection Q as _ <- _. split; [reflexivity|discriminate].
         - split; [reflexivity|]. split; [|auto]. rewrite (ST eq_refl) in EX. apply EX. reflexivity. }
    all: try (apply NEXT; try assumption; try reflexivity; [discriminate|]; apply EX; reflexivity).
    all: eexists _, rest; split; [reflexivity|]; split; [apply STAY; try assumption; try reflexivity; [discriminate|left; reflexivity|intros ? ? ? [Q|[Q|Q]]; discriminate]|];
      split; [reflexivity|]; split; [|auto]; apply EX; reflexivity.
  - destruct a as [| | | | | | |a k| |]; try discriminate. destruct a; injection E as <-.
    + apply NEXT; try assumption; try reflexivity; [discriminate|]. cbn. rewrite RD. reflexivity.
    + eexists _, []. split; [reflexivity|]. split.
      * split; [exact HD|]. cbn [w_at w_core w_rx]. split; [|split; [reflexivity|constructor]]. split; [apply buf_zero|]. cbn. repeat split; try lia; try reflexivity. intros Q _. apply Q. exact HD.
      * split; [reflexivity|]. split; [cbn; rewrite RD; reflexivity|]. right. exists k, l. split; reflexivity.
  - destruct a; try discriminate. injection E as <-. destruct (RS ok ls l (or_introl eq_refl)) as (RQ & RN). eexists _, rest. split; [reflexivity|]. split.
    + apply STAY; try assumption; try reflexivity; [discriminate|left; reflexivity|]. intros ? ? ? [Q|[Q|Q]]; try discriminate. injection Q as _ <- _. split; [exact RQ|exact RN].
    + split; [reflexivity|]. split; [cbn; unfold reader_step; rewrite RD; reflexivity|auto].
  - destruct a; try discriminate. injection E as <-. destruct (RS ok ls l (or_intror (or_introl eq_refl))) as (RQ & RN). eexists _, rest. split; [reflexivity|]. split.
    + apply STAY; try assumption; try reflexivity.
      * destruct ok; [destruct (cb c)|]; exact IT.
      * destruct ok; [destruct (cb c)|]; discriminate.
      * left. destruct ok; [destruct (cb c)|]; reflexivity.
      * intros ? ? ? [Q|[Q|Q]]; destruct ok; [destruct (cb c)| |destruct (cb c)| |destruct (cb c)|]; try discriminate. injection Q as <- _. split; [exact RQ|exact RN].
    + split; [reflexivity|]. split; [cbn; unfold reader_step; rewrite RD; destruct ok; [destruct (cb c)|]; reflexivity|auto].
  - destruct (RS false ls l (or_intror (or_intror eq_refl))) as (RQ & RN).
    destruct a; try discriminate. destruct (cb c) as [id|] eqn:CB; injection E as <-.
    + fold x. destruct (rx_resp x) as [r1|] eqn:RX; [|congruence]. pose proof HB as (BL & _).
      assert (DL : deliver (rx_buf x) (r_items r1) = Ok (map l_text ls)).
      { unfold texts in IT. rewrite RQ in IT. eapply deliver_of_rel; [|exact IT]. lia. }
      rewrite DL. cbn [bind]. rewrite retext_same. eexists _, rest. split; [reflexivity|]. split.
      * apply STAY; try assumption; try reflexivity; [rewrite RX; exact IT|discriminate|left; reflexivity|intros ? ? ? [Q|[Q|Q]]; discriminate].
      * split; [reflexivity|]. split; [cbn; unfold reader_step; rewrite RD, CB; reflexivity|auto].
    + eexists _, rest. split; [reflexivity|]. split.
      * apply STAY; try assumption; try reflexivity; [discriminate|right; reflexivity|intros ? ? ? [Q|[Q|Q]]; discriminate].
      * split; [reflexivity|]. split; [cbn; unfold reader_step; rewrite RD, CB; reflexivity|auto].
  - destruct a; try discriminate. injection E as <-. eexists _, rest. split; [reflexivity|]. split; [apply STAY; try assumption; try reflexivity; [discriminate|left; reflexivity|intros ? ? ? [Q|[Q|Q]]; discriminate]|].
    split; [reflexivity|]. split; [cbn; rewrite RD; reflexivity|auto].
  - destruct a; try discriminate. injection E as <-. apply NEXT; try assumption; try reflexivity.
    + destruct (queue c); reflexivity.
    + destruct (queue c); reflexivity.
    + intros _ _. split; [destruct (queue c); reflexivity|reflexivity].
    + cbn. unfold reader_step. rewrite RD. destruct (queue c); reflexivity.
Qed.

(** ** One action *)
Definition found (c : Request.state) (l : str) : line :=
  match wire c with
  | g :: _ => {| l_text := l; l_from := l_from g; l_last := l_last g |}
  | [] => {| l_text := l; l_from := None; l_last := false |}
  end.
Definition effect (lb : wlabel) (w : whole) (rest : str) (w' : whole) (rest' : str) : Prop :=
  match lb with
  | WApp a => app_label a = true /\ exec tt a (w_core w) = Some (w_core w') /\ rest' = rest /\ w_fifo w' = w_fifo w
  | WSend bs g => match g with Some l => exec tt (LEmit l) (w_core w) | None => Some (w_core w) end = Some (w_core w') /\ rest' = rest /\ w_fifo w' = w_fifo w ++ bs
  | WRead _ => w_core w' = w_core w /\ rest' ++ w_fifo w' = rest ++ w_fifo w
  | WScan => w_fifo w' = w_fifo w /\ rd (w_core w) = RIdle /\
      ((w_core w' = w_core w /\ rest' = drop_eol rest) \/
       (exists l e, drop_eol rest = l ++ e :: rest' /\ l <> [] /\ line_text l /\ eol e /\
          w_core w' = set_rd (RGot (found (w_core w) l)) (set_wire (tl (wire (w_core w))) (w_core w))))
  | WLine a => rd (w_core w) <> RIdle /\ exec tt a (w_core w) = Some (w_core w') /\ w_fifo w' = w_fifo w /\
      (rest' = rest \/ exists k l, a = LUndef false k /\ rd (w_core w) = RUndef l) /\ (a = LReader \/ (exists st, a = LCbReturns st) \/ exists b k, a = LUndef b k)
  end.
Lemma frame_pinv w rest c' fifo' : PInv w rest -> rd c' = rd (w_core w) -> resp c' = resp (w_core w) -> PInv {| w_core := c'; w_rx := w_rx w; w_fifo := fifo'; w_at := w_at w |} rest.
Proof.
  intros (HD & HP) E1 E2. split; [exact HD|]. cbn [w_at w_core w_rx]. rewrite (texts_frame (w_core w) c') by exact E2. rewrite E1, E2. exact HP.
Qed.
Lemma wstep lb w rest r : tables_ok (tokens_now tt None) -> small (w_core w) -> PInv w rest -> reads_with_room cap w lb -> wexec cap tt lb w = Some r ->
  exists w' rest', r = Ok w' /\ PInv w' rest' /\ effect lb w rest w' rest'.
Proof.
  intros TK SM PV RM E. destruct lb as [a|bs g|k| |a]; cbn [wexec] in E.
  - destruct (app_label a) eqn:A; [|discriminate]. destruct (exec tt a (w_core w)) as [c'|] eqn:EX; [|discriminate]. injection E as <-.
    destruct (app_frame a _ _ A EX) as (F1 & F2 & F3). eexists _, rest. split; [reflexivity|]. split; [apply frame_pinv; assumption|]. cbn. auto.
  - destruct g as [l|].
    + destruct (exec tt (LEmit l) (w_core w)) as [c'|] eqn:EX; [|discriminate]. injection E as <-. eexists _, rest. split; [reflexivity|].
      split; [apply frame_pinv; try assumption; cbn in EX; injection EX as <-; reflexivity|]. cbn [effect w_core w_fifo]. auto.
    + injection E as <-. eexists _, rest. split; [reflexivity|]. split; [apply frame_pinv; try assumption; reflexivity|]. cbn. auto.
  - destruct (w_at w) eqn:HA; try discriminate. injection E as <-. destruct (read_step k w rest PV HA RM) as (w' & rest' & R1 & R2 & R3 & R4).
    exists w', rest'. rewrite R1. cbn. auto.
  - destruct (w_at w) as [|line n|] eqn:HA; try discriminate. injection E as <-. destruct (scan_step w rest line n PV HA) as (w' & rest' & R1 & R2 & R3 & R4).
    exists w', rest'. split; [exact R1|]. split; [exact R2|]. cbn. split; [exact R3|]. split; [destruct PV as (_ & PV); rewrite HA in PV; apply PV|].
    destruct R4 as [(A & B & _)|R4]; [left; auto|right; exact R4].
  - destruct (w_at w) as [| |line n i] eqn:HA; try discriminate. destruct (line_act w rest line n i a r TK SM PV HA E) as (w' & rest' & -> & R2 & R3 & R4 & R5).
    exists w', rest'. split; [reflexivity|]. split; [exact R2|]. cbn. split; [destruct PV as (_ & PV); rewrite HA in PV; apply PV|]. repeat (split; [assumption|]).
    unfold line_action in E. destruct (rd (w_core w)); try discriminate; destruct a; try discriminate; eauto; destruct mt; discriminate.
Qed.
Lemma reader_wire c c' : reader_step tt c = Some c' -> rd c <> RIdle -> wire c' = wire c.
Proof.
  unfold reader_step, reader_process. intros E N. destruct (rd c); try congruence; try discriminate; try (injection E as <-; reflexivity).
  - destruct mt; injection E as <-; reflexivity.
  - destruct (ProcessLine _ _ _ _ _) as [[st r]| |]; try discriminate. destruct st; injection E as <-; reflexivity.
  - destruct ok; [destruct (cb c)|]; injection E as <-; reflexivity.
  - destruct (cb c); injection E as <-; reflexivity.
  - destruct (queue c); injection E as <-; reflexivity.
Qed.
Lemma init_pinv n : PInv (winit cap n) [].
Proof.
  split; [reflexivity|]. cbn [w_at winit w_core w_rx]. split; [|split; [reflexivity|constructor]]. split; [apply buf_zero|]. cbn. repeat split; try lia; try reflexivity.
Qed.
Lemma init_small n : small (init n).
Proof. split; [apply none_small|]. intros i p k E C. cbn in E. apply nth_repeat_idle in E. subst p. discriminate. Qed.
Lemma run_det ok ok' s lbs s1 : run tt ok s lbs s1 -> forall s2, run tt ok' s lbs s2 -> s1 = s2.
Proof.
  induction 1 as [s|s lbs s1 lb s2 R IH O E]; intros s3 R3.
  - remember [] as L eqn:EL in R3. destruct R3 as [|s l2 s4 lb2 s5 R4 O4 E4]; [reflexivity|destruct l2; discriminate].
  - remember (lbs ++ [lb]) as L eqn:EL in R3. destruct R3 as [|s l2 s4 lb2 s5 R4 O4 E4]; [destruct lbs; discriminate|]. apply app_inj_tail in EL. destruct EL as (-> & ->).
    rewrite (IH _ R4) in E. congruence.
Qed.
End Sim.

Section Conform.
Variable cap : nat.
Variable tt : token_table.
Variable pfxs : list str.
Hypothesis TK : tables_ok (tokens_now tt None).
Hypothesis PX : forall q, In q pfxs -> at_len_ok q.

Lemma spelled_lines bs l : spelled bs l -> stream_lines [] bs = ([l_text l], []).
Proof.
  intros (pre & post & -> & E1 & E2 & N1 & N2 & LT).
  assert (EO : forall p, Forall eol p -> stream_lines [] p = ([], [])).
  { induction 1 as [|c p H F IH]; [reflexivity|]. cbn [stream_lines]. apply is_eol_iff in H. unfold is_eol in H. rewrite H, IH. reflexivity. }
  rewrite lines_app, (EO pre E1). cbn [fst snd app]. destruct post as [|e post]; [congruence|]. inversion E2; subst. rewrite lines_head by assumption. rewrite (EO post) by assumption. reflexivity.
Qed.
Lemma calls_made_app a b : calls_made (a ++ b) = calls_made a ++ calls_made b.
Proof. apply flat_map_app. Qed.
Lemma answered_app a b g : answered (a ++ b) g = answered a g ++ answered b g.
Proof. apply flat_map_app. Qed.

Definition Sim (n : nat) (wl : list wlabel) (lbs : list label) : Prop :=
  calls lbs = calls_made wl /\ (forall g, emitted lbs g = answered wl g) /\
  (forall id ls l st, callback_returned tt pfxs n lbs id ls l st -> callback_said cap tt pfxs n wl id ls l st).
Lemma said_more n wl x id ls l st : callback_said cap tt pfxs n wl id ls l st -> callback_said cap tt pfxs n (wl ++ [x]) id ls l st.
Proof. intros (a & b & w & -> & R & D). exists a, (b ++ [x]), w. rewrite <- app_assoc. auto. Qed.
Lemma sim_skip n wl lbs x : Sim n wl lbs -> calls_made [x] = [] -> (forall g, answered [x] g = []) -> Sim n (wl ++ [x]) lbs.
Proof.
  intros (A & B & C) X1 X2. split; [rewrite calls_made_app, X1, app_nil_r; exact A|]. split; [intro g; rewrite answered_app, X2, app_nil_r; apply B|].
  intros id ls l st H. apply said_more, C, H.
Qed.
Lemma sim_one n wl lbs w x y : Sim n wl lbs -> calls [y] = calls_made [x] -> (forall g, emitted [y] g = answered [x] g) ->
  run tt (conforming_runs tt pfxs) (init n) lbs (w_core w) -> wrun cap tt (conforming_bytes cap tt pfxs) (winit cap n) wl w -> (forall st, y = LCbReturns st -> x = WLine (LCbReturns st)) -> Sim n (wl ++ [x]) (lbs ++ [y]).
Proof.
  intros (A & B & C) X1 X2 R WR X3. split; [rewrite calls_made_app, calls_app, A, X1; reflexivity|]. split; [intro g; rewrite answered_app, emitted_app, B, X2; reflexivity|].
  intros id ls l st (a & b & s & E & R1 & D). apply app_split_last in E. destruct E as [(-> & E & ->)|(b' & -> & ->)].
  - rewrite <- E in X3. specialize (X3 st eq_refl). subst x. exists wl, [], w. split; [reflexivity|]. split; [exact WR|]. rewrite (run_det tt _ _ _ _ _ R _ R1). exact D.
  - apply said_more, C. exists a, b', s. auto.
Qed.

Theorem simulation n wl w : wrun cap tt (conforming_bytes cap tt pfxs) (winit cap n) wl w ->
  exists lbs rest, run tt (conforming_runs tt pfxs) (init n) lbs (w_core w) /\ Sim n wl lbs /\ PInv cap w rest /\ small (w_core w) /\
    stream_lines [] (rest ++ w_fifo w) = (map l_text (wire (w_core w)), []).
Proof.
  intro WR. remember (winit cap n) as w0 eqn:E0. induction WR as [w|w wl w1 x w2 WR IH OK E].
  - subst w. exists [], []. split; [constructor|]. split; [|split; [apply init_pinv|split; [apply init_small|reflexivity]]].
    split; [reflexivity|]. split; [reflexivity|]. intros id ls l st (a & b & s & Q & _). destruct a; discriminate.
  - subst w. specialize (IH eq_refl). destruct IH as (lbs & rest & R & SI & PV & SM & SL). destruct OK as (RM & OK).
    destruct (wstep cap tt x w1 rest _ TK SM PV RM E) as (w' & rest' & Q & PV' & EF). injection Q as <-.
    assert (STEP : forall y, exec tt y (w_core w1) = Some (w_core w2) -> conforming_runs tt pfxs (w_core w1) y -> calls [y] = calls_made [x] -> (forall g, emitted [y] g = answered [x] g) ->
      (forall st, y = LCbReturns st -> x = WLine (LCbReturns st)) -> stream_lines [] (rest' ++ w_fifo w2) = (map l_text (wire (w_core w2)), []) ->
      exists lbs rest, run tt (conforming_runs tt pfxs) (init n) lbs (w_core w2) /\ Sim n (wl ++ [x]) lbs /\ PInv cap w2 rest /\ small (w_core w2) /\
        stream_lines [] (rest ++ w_fifo w2) = (map l_text (wire (w_core w2)), [])).
    { intros y EX CF X1 X2 X3 X4. exists (lbs ++ [y]), rest'. split; [econstructor; eassumption|]. split; [eapply sim_one; eassumption|]. split; [exact PV'|].
      split; [|exact X4]. eapply exec_small; [exact SM| |exact EX]. intros i r ->. destruct CF as ((_ & PC & _) & _). apply PC. }
    destruct x as [a|bs g|k| |a]; cbn [effect] in EF.
    + destruct EF as (AL & EX & -> & F2). apply (STEP a EX OK).
      * destruct a; reflexivity || discriminate AL.
      * intro g; destruct a; reflexivity || discriminate AL.
      * intros st ->. discriminate AL.
      * destruct (app_frame tt a _ _ AL EX) as (_ & _ & F3). rewrite F2, F3. exact SL.
    + destruct OK as (l & -> & SP & CF). destruct EF as (EX & -> & F2). apply (STEP (LEmit l) EX CF); try reflexivity.
      * intro st. discriminate.
      * rewrite F2. cbn in EX. injection EX as <-. cbn [wire set_wire]. rewrite app_assoc, lines_app, SL. cbn [fst snd]. rewrite (spelled_lines _ _ SP), map_app. reflexivity.
    + destruct EF as (EC & EF). exists lbs, rest'. rewrite EC. split; [exact R|]. split; [apply sim_skip; [exact SI|reflexivity|reflexivity]|]. split; [exact PV'|]. split; [exact SM|]. rewrite EF. exact SL.
    + destruct EF as (EFF & RI & [(EC & ->)|(l & e & DE & LN & LT & EE & EC)]).
      * exists lbs, (drop_eol rest). rewrite EC, EFF. split; [exact R|]. split; [apply sim_skip; [exact SI|reflexivity|reflexivity]|]. split; [exact PV'|]. split; [exact SM|]. rewrite lines_of_rest. exact SL.
      * rewrite <- lines_of_rest, DE, <- app_assoc in SL. cbn [app] in SL. rewrite lines_head in SL by assumption. destruct (wire (w_core w1)) as [|g wr] eqn:WI; [discriminate|].
        cbn [map] in SL. injection SL as EL SL1 SL2.
        assert (FD : found (w_core w1) l = g) by (unfold found; rewrite WI; destruct g as [gt gf gl]; cbn in EL |- *; subst; reflexivity). rewrite FD in EC. cbn [tl] in EC.
        apply (STEP LReader); try reflexivity.
        -- cbn. unfold reader_step. rewrite RI, WI, EC. reflexivity.
        -- repeat split.
        -- intro st. discriminate.
        -- rewrite EFF, EC. cbn [wire set_rd set_wire]. rewrite (surjective_pairing (stream_lines [] (rest' ++ w_fifo w1))), SL1, SL2. reflexivity.
    + destruct EF as (NI & EX & F2 & RR & AA).
      assert (WI : wire (w_core w2) = wire (w_core w1) /\ rest' = rest).
      { destruct (c85_nothing_is_unexpected tt pfxs n lbs _ TK PX R) as (NU & _). destruct RR as [->|(k & l & _ & RU)]; [|elim (NU l RU)]. split; [|reflexivity].
        destruct AA as [->|[(st & ->)|(b & k & ->)]].
        - eapply reader_wire; [exact EX|exact NI].
        - cbn in EX. destruct (rd (w_core w1)); try discriminate. injection EX as <-. reflexivity.
        - cbn in EX. destruct (rd (w_core w1)) eqn:RD; try discriminate. elim (NU _ eq_refl). }
      destruct WI as (WI & ->). apply (STEP a EX OK).
      * destruct AA as [->|[(st & ->)|(b & k & ->)]]; reflexivity.
      * intro g. destruct AA as [->|[(st & ->)|(b & k & ->)]]; reflexivity.
      * intros st ->. reflexivity.
      * rewrite F2, WI. exact SL.
Qed.
End Conform.

(** ** Any bytes *)
Section Any.
Variable cap : nat.
Variable tt : token_table.
Hypothesis TK : tables_ok (tokens_now tt None).

Lemma run_more ok s lbs s1 lb s2 : run tt ok s lbs s1 -> ok s1 lb -> exec tt lb s1 = Some s2 -> run tt ok s (lbs ++ [lb]) s2.
Proof. intros. econstructor; eassumption. Qed.
Theorem simulation_any n wl w : wrun cap tt (any_bytes cap) (winit cap n) wl w ->
  exists lbs rest, run tt anything (init n) lbs (w_core w) /\ calls lbs = calls_made wl /\ PInv cap w rest /\ small (w_core w) /\ wire (w_core w) = [].
Proof.
  intro WR. remember (winit cap n) as w0 eqn:E0. induction WR as [w|w wl w1 x w2 WR IH OK E].
  - subst w. exists [], []. split; [constructor|]. split; [reflexivity|]. split; [apply init_pinv|]. split; [apply init_small|reflexivity].
  - subst w. specialize (IH eq_refl). destruct IH as (lbs & rest & R & CL & PV & SM & WI). destruct OK as (RM & OK).
    destruct (wstep cap tt x w1 rest _ TK SM PV RM E) as (w' & rest' & Q & PV' & EF). injection Q as <-.
    assert (STEP : forall y, exec tt y (w_core w1) = Some (w_core w2) -> (forall i r, y = LCall i r -> table_small (hook_extra (rq_kind r))) -> calls [y] = calls_made [x] -> wire (w_core w2) = [] ->
      exists lbs rest, run tt anything (init n) lbs (w_core w2) /\ calls lbs = calls_made (wl ++ [x]) /\ PInv cap w2 rest /\ small (w_core w2) /\ wire (w_core w2) = []).
    { intros y EX CF X1 X4. exists (lbs ++ [y]), rest'. split; [eapply run_more; [exact R|exact I|exact EX]|]. split; [rewrite calls_app, calls_made_app, CL, X1; reflexivity|]. split; [exact PV'|].
      split; [|exact X4]. eapply exec_small; [exact SM|exact CF|exact EX]. }
    destruct x as [a|bs g|k| |a]; cbn [effect] in EF.
    + destruct EF as (AL & EX & -> & F2). apply (STEP a EX).
      * intros i r ->. exact OK.
      * reflexivity.
      * destruct (app_frame tt a _ _ AL EX) as (_ & _ & F3). congruence.
    + destruct EF as (EX & -> & F2). subst g. injection EX as EX. exists lbs, rest. rewrite <- EX. rewrite calls_made_app. cbn. rewrite app_nil_r. auto.
    + destruct EF as (EC & EF). exists lbs, rest'. rewrite EC, calls_made_app. cbn. rewrite app_nil_r. auto.
    + destruct EF as (EFF & RI & [(EC & ->)|(l & e & DE & LN & LT & EE & EC)]).
      * exists lbs, (drop_eol rest). rewrite EC, calls_made_app. cbn. rewrite app_nil_r. auto.
      * unfold found in EC. rewrite WI in EC. cbn [tl] in EC. set (g := {| l_text := l; l_from := None; l_last := false |}) in *.
        exists ((lbs ++ [LEmit g]) ++ [LReader]), rest'. split; [|split; [rewrite !calls_app, calls_made_app, CL; cbn; rewrite !app_nil_r; reflexivity|]].
        -- eapply run_more; [eapply run_more; [exact R|exact I|reflexivity]|exact I|]. cbn. unfold reader_step. cbn [set_wire set_pend rd wire]. rewrite RI, WI, EC. cbn [app].
           destruct (w_core w1); reflexivity.
        -- split; [exact PV'|]. rewrite EC. split; [|reflexivity]. exact SM.
    + destruct EF as (NI & EX & F2 & RR & AA). apply (STEP a EX).
      * intros i r ->. destruct AA as [Q|[(st & Q)|(b & k & Q)]]; discriminate.
      * destruct AA as [->|[(st & ->)|(b & k & ->)]]; reflexivity.
      * destruct AA as [->|[(st & ->)|(b & k & ->)]].
        -- rewrite <- WI. eapply reader_wire; [exact EX|exact NI].
        -- cbn in EX. destruct (rd (w_core w1)); try discriminate. injection EX as <-. exact WI.
        -- cbn in EX. destruct (rd (w_core w1)); try discriminate. destruct b; injection EX as <-; cbn; rewrite ?WI; [reflexivity|destruct k; reflexivity].
Qed.
End Any.

(** ** Following the line-level reader *)
Section Follow.
Variable cap : nat.
Variable tt : token_table.
Variable pfxs : list str.
Hypothesis TK : tables_ok (tokens_now tt None).

Lemma readline_base s recv p bytes s1 : ReadLine cap s recv = Ok (Some p, bytes, s1) -> (p <= off s)%nat.
Proof.
  unfold ReadLine. fold (off s). fold (compacts s). intro E. destruct (compacts s); revert E.
  - destruct (Pktio.rd _ _ _); cbn [bind]; try discriminate. destruct (wr _ _ _); cbn [bind]; try discriminate. destruct (st _ _ _); cbn [bind]; try discriminate.
    destruct (0 <? _)%nat; [|intros [= <- _ _]; lia]. destruct (wr _ _ _); cbn [bind]; try discriminate. destruct (0 <? _)%nat; [|discriminate]. destruct (st _ _ _); cbn [bind]; try discriminate. intros [= <- _ _]. lia.
  - cbn [bind]. destruct (0 <? _)%nat; [|intros [= <- _ _]; lia]. destruct (wr _ _ _); cbn [bind]; try discriminate. destruct (0 <? _)%nat; [|discriminate]. destruct (st _ _ _); cbn [bind]; try discriminate. intros [= <- _ _]. lia.
Qed.
Lemma read_all w rest : PInv cap w rest -> w_at w = Waiting -> fits_buffer cap w -> w_fifo w <> [] ->
  exists w', read_bytes cap (length (w_fifo w)) w = Ok w' /\ PInv cap w' (rest ++ w_fifo w) /\ w_core w' = w_core w /\ w_fifo w' = [] /\ (exists line n, w_at w' = Scanning line n) /\ fits_buffer cap w' /\ room cap (w_rx w).
Proof.
  intros PV HA FT NE. unfold fits_buffer, filled in FT. rewrite HA in FT. fold (off (w_rx w)) in FT.
  assert (OF : (length (w_fifo w) < offered cap (w_rx w))%nat).
  { unfold offered. fold (off (w_rx w)). destruct (compacts (w_rx w)); lia. }
  assert (RM : room cap (w_rx w)) by (left; lia).
  destruct (read_step cap (length (w_fifo w)) w rest PV HA RM) as (w' & rest' & E & PV' & EC & EF).
  exists w'. split; [exact E|]. unfold read_bytes in E. rewrite Nat.min_l in E by lia. rewrite firstn_all in E.
  assert (LF : (0 < length (w_fifo w))%nat) by (destruct (w_fifo w); [congruence|cbn; lia]).
  assert (FF : w_fifo w' = [] /\ (exists line n, w_at w' = Scanning line n /\ (line + n <= off (w_rx w) + rx_partial (w_rx w) + length (w_fifo w))%nat)).
  { destruct PV as (HD & HP). rewrite HA in HP. destruct HP as (PK & RI & LTX).
    set (recv := fun space => firstn (Nat.min (length (w_fifo w)) space) (w_fifo w)) in E.
    assert (RC : recv_contract recv) by (intro sp; unfold recv; rewrite firstn_length; lia).
    destruct (readline_step cap (w_rx w) recv rest (texts (w_core w)) PK RM RC) as (pl & bytes & s1 & RL & D1 & R1 & HH). rewrite RL in E. cbn [bind] in E.
    assert (GOT : recv (offered cap (w_rx w)) = w_fifo w) by (unfold recv; rewrite Nat.min_l by lia; apply firstn_all). rewrite GOT in HH.
    destruct HH as [(_ & Q & _)|(p & -> & BP & HO)]; [congruence|].
    pose proof (readline_base _ _ _ _ _ RL) as PB. pose proof (holds_len cap _ _ _ _ _ HO) as BL. rewrite app_length in BL.
    assert (RP : length rest = rx_partial (w_rx w)) by (destruct PK as ((BB & _) & LE & SL & _); rewrite <- SL, firstn_length, skipn_length; unfold off in *; lia).
    replace (0 <? bytes)%nat with true in E by (symmetry; apply Nat.ltb_lt; lia). rewrite D1, HD in E. cbn [Nat.eqb negb bind] in E.
    replace (0 <? bytes)%nat with true in E by (symmetry; apply Nat.ltb_lt; lia).
    destruct (st (rx_buf s1) (p + bytes) 0%N) as [m| |]; cbn [bind] in E; try discriminate. injection E as <-. cbn [w_fifo w_at]. split; [apply skipn_all|].
    exists p, bytes. split; [reflexivity|lia]. }
  destruct FF as (F0 & line & n & AT & LE). rewrite F0, app_nil_r in EF. subst rest'. repeat (split; [assumption|]). split; [eauto|]. split; [|exact RM].
  unfold fits_buffer, filled. rewrite AT, F0. cbn [length]. lia.
Qed.
Lemma skip_eol_sum m : forall n p p' n', skip_eol m p n = Ok (p', n') -> (p' + n' = p + n)%nat.
Proof.
  induction n as [|n IH]; intros p p' n' E; cbn in E; [injection E as <- <-; reflexivity|]. destruct (ld m p) as [c| |]; cbn in E; try discriminate.
  destruct (is_eol c); [apply IH in E; lia|injection E as <- <-; reflexivity].
Qed.
Lemma scan_filled w line n w' : scan w line n = Ok w' -> filled w' = (line + n)%nat /\ w_fifo w' = w_fifo w.
Proof.
  unfold scan. intro E. destruct (skip_eol _ _ _) as [[l1 n1]| |] eqn:SK; cbn [bind] in E; try discriminate. apply skip_eol_sum in SK.
  destruct (n1 =? 0)%nat; [injection E as <-; split; [exact SK|reflexivity]|]. destruct (find_eol _ _ _) as [[i|]| |]; cbn [bind] in E; try discriminate.
  - destruct (st _ _ _) as [m| |]; cbn [bind] in E; try discriminate. destruct (cstr_get m l1); [|discriminate]. injection E as <-. split; [exact SK|reflexivity].
  - injection E as <-. split; [exact SK|reflexivity].
Qed.
Lemma next_filled c x fifo line n i s mt w' : next_line c x fifo line n i s mt = Ok w' -> (filled w' <= line + n)%nat.
Proof.
  unfold next_line, getNextLine. intro E. destruct (n <? i + 1)%nat eqn:L; [discriminate|]. apply Nat.ltb_ge in L.
  assert (P : (do r <- Ok (Next (set_left x (Some (line + (i + 1))%nat) (n - (i + 1))) (line + (i + 1)) (n - (i + 1)));
     match r with
     | Next x' line' n' => Ok {| w_core := c; w_rx := x'; w_fifo := fifo; w_at := Scanning line' n' |}
     | Stop x' => Ok {| w_core := c; w_rx := x'; w_fifo := fifo; w_at := Waiting |}
     end) = Ok w' -> (filled w' <= line + n)%nat) by (cbn [bind]; intros [= <-]; cbn; lia).
  destruct s; try (exact (P E)). destruct mt; try (exact (P E)).
  destruct (Pktio.rd _ _ _) as [d| |]; cbn [bind] in E; try discriminate. destruct (wr _ _ _) as [m| |]; cbn [bind] in E; try discriminate. injection E as <-. cbn. lia.
Qed.
Lemma line_filled w line n i a w' : line_action cap tt w line n i a = Some (Ok w') -> (a = LReader \/ exists s, a = LCbReturns s) -> (filled w' <= line + n)%nat.
Proof.
  unfold line_action. intros E A. destruct (rd (w_core w)) as [|l|l u|l mt|l t|l|ok ls l|ok ls l|ls l|id ls l|s l ok b|]; try discriminate.
  - destruct a; try discriminate. injection E as <-. cbn. lia.
  - destruct a; try discriminate. injection E as <-. cbn. lia.
  - destruct mt, a; try discriminate; injection E as E; try (subst w'; cbn; lia). eapply next_filled; exact E.
  - destruct a; try discriminate. injection E as E. unfold process_line in E. destruct (ProcessLine _ _ _ _ _) as [[s r]| |]; cbn [bind] in E; try discriminate.
    destruct s; try (injection E as <-; cbn; lia); (eapply next_filled; exact E).
  - destruct a; try discriminate. destruct A as [A|(s & A)]; discriminate.
  - destruct a; try discriminate. injection E as <-. cbn. lia.
  - destruct a; try discriminate. injection E as <-. cbn. lia.
  - destruct a; try discriminate. destruct (cb _); injection E as E; [|subst w'; cbn; lia]. destruct (deliver _ _); cbn [bind] in E; try discriminate. injection E as <-. cbn. lia.
  - destruct a; try discriminate. injection E as <-. cbn. lia.
  - destruct a; try discriminate. injection E as E. eapply next_filled; exact E.
Qed.
Lemma wrun_trans (ok : whole -> wlabel -> Prop) a la b lb c : wrun cap tt ok a la b -> wrun cap tt ok b lb c -> wrun cap tt ok a (la ++ lb) c.
Proof.
  intros A B. induction B as [b|b lb b1 x b2 B IH OK E]; [rewrite app_nil_r; exact A|]. rewrite app_assoc. econstructor; [apply IH; exact A|exact OK|exact E].
Qed.
Lemma wrun_one (ok : whole -> wlabel -> Prop) w x w' : ok w x -> wexec cap tt x w = Some (Ok w') -> wrun cap tt ok w [x] w'.
Proof. intros A B. apply (wrun_step cap tt ok w [] w x w'); [constructor|exact A|exact B]. Qed.

Lemma follow w rest y c' : small (w_core w) -> PInv cap w rest -> stream_lines [] (rest ++ w_fifo w) = (map l_text (wire (w_core w)), []) -> fits_buffer cap w ->
  reader_label y -> exec tt y (w_core w) = Some c' ->
  exists more w', wrun cap tt (conforming_bytes cap tt pfxs) w more w' /\ Forall reader_action more /\ (length more <= 3)%nat /\ w_core w' = c' /\ fits_buffer cap w'.
Proof.
  intros SM PV SL FT YL EX.
  assert (RDI : rd (w_core w) = RIdle \/ rd (w_core w) <> RIdle) by (destruct (rd (w_core w)); (left; reflexivity) || (right; discriminate)). destruct RDI as [RI|NI].
  - (* the next line *)
    assert (YR : y = LReader) by (destruct YL as [YL|(s & ->)]; [exact YL|cbn in EX; rewrite RI in EX; discriminate]). subst y. cbn in EX. unfold reader_step in EX. rewrite RI in EX.
    destruct (wire (w_core w)) as [|g wr] eqn:WI; [discriminate|]. injection EX as <-.
    (* scanning a buffer that holds a complete line *)
    assert (SCAN : forall w1 rest1 line n, PInv cap w1 rest1 -> w_core w1 = w_core w -> w_at w1 = Scanning line n -> stream_lines [] (rest1 ++ w_fifo w1) = (l_text g :: map l_text wr, []) -> fits_buffer cap w1 ->
       exists w2, wexec cap tt WScan w1 = Some (Ok w2) /\ fits_buffer cap w2 /\
         (w_core w2 = set_rd (RGot g) (set_wire wr (w_core w)) \/ exists rest2, w_core w2 = w_core w /\ w_at w2 = Waiting /\ PInv cap w2 rest2 /\ stream_lines [] (rest2 ++ w_fifo w2) = (l_text g :: map l_text wr, []) /\ w_fifo w2 = w_fifo w1)).
    { intros w1 rest1 line n P1 C1 A1 S1 F1. destruct (scan_step cap w1 rest1 line n P1 A1) as (w2 & rest2 & E2 & P2 & FF & EF). exists w2. cbn [wexec]. rewrite A1, E2. split; [reflexivity|].
      destruct (scan_filled _ _ _ _ E2) as (FL & _). split; [unfold fits_buffer in *; unfold filled in F1; rewrite A1 in F1; rewrite FL, FF; exact F1|].
      destruct EF as [(C2 & -> & A2 & LT)|(l & e & DE & LN & LT & EE & C2)].
      - right. exists (drop_eol rest1). split; [congruence|]. split; [exact A2|]. split; [exact P2|]. rewrite FF, lines_of_rest. auto.
      - left. rewrite C1, WI in C2. rewrite C2. cbn [tl]. rewrite <- lines_of_rest, DE, <- app_assoc in S1. cbn [app] in S1. rewrite lines_head in S1 by assumption. injection S1 as EL _ _.
        destruct g as [gt gf gl]. cbn in EL |- *. subst l. reflexivity. }
    assert (WAIT : forall w1 rest1, PInv cap w1 rest1 -> w_core w1 = w_core w -> w_at w1 = Waiting -> stream_lines [] (rest1 ++ w_fifo w1) = (l_text g :: map l_text wr, []) -> fits_buffer cap w1 ->
       exists w2, wrun cap tt (conforming_bytes cap tt pfxs) w1 [WRead (length (w_fifo w1)); WScan] w2 /\ fits_buffer cap w2 /\ w_core w2 = set_rd (RGot g) (set_wire wr (w_core w))).
    { intros w1 rest1 P1 C1 A1 S1 F1.
      assert (LT1 : line_text rest1) by (destruct P1 as (_ & P1); rewrite A1 in P1; apply P1).
      assert (NE : w_fifo w1 <> []) by (intro Q; rewrite Q, app_nil_r, lines_rest in S1 by exact LT1; discriminate).
      destruct (read_all w1 rest1 P1 A1 F1 NE) as (w2 & E2 & P2 & C2 & FI & (line & n & A2) & F2 & RM).
      destruct (SCAN w2 (rest1 ++ w_fifo w1) line n P2) as (w3 & E3 & F3 & D3); [congruence|exact A2|rewrite FI, app_nil_r; exact S1|exact F2|].
      exists w3. split; [|split; [exact F3|]].
      - apply (wrun_trans _ w1 [_] w2 [_] w3); apply wrun_one; try exact E3; [split; [exact RM|exact I]|cbn [wexec]; rewrite A1, E2; reflexivity|split; exact I].
      - destruct D3 as [D3|(rest3 & C3 & A3 & P3 & S3 & F4)]; [exact D3|]. exfalso. destruct P3 as (_ & P3). rewrite A3 in P3. destruct P3 as (_ & _ & LT3).
        rewrite F4, FI, app_nil_r, lines_rest in S3 by exact LT3. discriminate. }
    destruct (w_at w) as [|line n|line n i] eqn:HA.
    + destruct (WAIT w rest PV eq_refl HA SL FT) as (w2 & R2 & F2 & C2). eexists _, w2. split; [exact R2|]. split; [repeat constructor|]. split; [cbn; lia|]. auto.
    + destruct (SCAN w rest line n PV eq_refl HA SL FT) as (w2 & E2 & F2 & [C2|(rest2 & C2 & A2 & P2 & S2 & F4)]).
      * exists [WScan], w2. split; [apply wrun_one; [split; exact I|exact E2]|]. split; [repeat constructor|]. split; [cbn; lia|]. auto.
      * destruct (WAIT w2 rest2 P2 C2 A2 S2 F2) as (w3 & R3 & F3 & C3). eexists _, w3. split; [eapply wrun_trans; [apply (wrun_one _ w WScan w2); [split; exact I|exact E2]|exact R3]|].
        split; [repeat constructor|]. split; [cbn; lia|]. auto.
    + exfalso. destruct PV as (_ & PV). rewrite HA in PV. destruct PV as (_ & _ & _ & _ & _ & NI & _). congruence.
  - (* on the line *)
    assert (HA : exists line n i, w_at w = Working line n i) by (destruct PV as (_ & PV); destruct (w_at w); [destruct PV as (_ & Q & _); congruence|destruct PV as (_ & Q); congruence|eauto]).
    destruct HA as (line & n & i & HA).
    assert (LA : exists r, line_action cap tt w line n i y = Some r).
    { unfold line_action. destruct YL as [->|(s & ->)]; cbn in EX.
      - unfold reader_step in EX. destruct (rd (w_core w)); try congruence; try discriminate; eauto; [destruct mt; eauto|destruct (cb (w_core w)); eauto].
      - destruct (rd (w_core w)); try discriminate. eauto. }
    destruct LA as (r & LA). destruct (line_act cap tt w rest line n i y r TK SM PV HA LA) as (w2 & rest2 & -> & P2 & F2 & E2 & _).
    exists [WLine y], w2. split; [apply wrun_one; [split; [exact I|destruct YL as [->|(s & ->)]; repeat split]|cbn [wexec]; rewrite HA; exact LA]|].
    split; [constructor; [|constructor]; destruct YL as [->|(s & ->)]; exact I|]. split; [cbn; lia|]. split; [congruence|].
    unfold fits_buffer in *. rewrite F2. pose proof (line_filled w line n i y w2 LA YL) as LF. unfold filled in FT at 1. rewrite HA in FT. lia.
Qed.
End Follow.

(** ** Every reader run of the line-level system is matched by the bytes *)
Section FollowRun.
Variable cap : nat.
Variable tt : token_table.
Variable pfxs : list str.
Hypothesis TK : tables_ok (tokens_now tt None).
Hypothesis PX : forall q, In q pfxs -> at_len_ok q.

Lemma run_cut (ok : state -> label -> Prop) s a : forall b s2, run tt ok s (a ++ b) s2 -> exists s1, run tt ok s a s1 /\ run tt ok s1 b s2.
Proof.
  induction b as [|x b IH] using rev_ind; intros s2 R.
  - rewrite app_nil_r in R. exists s2. split; [exact R|constructor].
  - rewrite app_assoc in R. remember ((a ++ b) ++ [x]) as L eqn:EL in R. destruct R as [|s l2 s4 lb2 s5 R4 O4 E4]; [destruct (a ++ b); discriminate|].
    apply app_inj_tail in EL. destruct EL as (-> & ->). destruct (IH _ R4) as (s1 & R1 & R2). exists s1. split; [exact R1|]. econstructor; eassumption.
Qed.
Lemma follow_run n wl w more s' : wrun cap tt (conforming_bytes cap tt pfxs) (winit cap n) wl w -> fits_buffer cap w -> Forall reader_label more ->
  run tt (conforming_runs tt pfxs) (w_core w) more s' ->
  exists wmore w', wrun cap tt (conforming_bytes cap tt pfxs) w wmore w' /\ Forall reader_action wmore /\ (length wmore <= 3 * length more)%nat /\ w_core w' = s' /\ fits_buffer cap w'.
Proof.
  intros WR FT. revert s'. induction more as [|y more IH] using rev_ind; intros s' FA R.
  - remember [] as L eqn:EL in R. remember (w_core w) as c0 eqn:EC. destruct R as [s|s l2 s4 lb2 s5 R4 O4 E4]; [|destruct l2; discriminate].
    exists [], w. split; [constructor|]. split; [constructor|]. split; [cbn; lia|auto].
  - remember (more ++ [y]) as L eqn:EL in R. remember (w_core w) as c0 eqn:EC. destruct R as [|s l2 s4 lb2 s5 R4 O4 E4]; [destruct more; discriminate|].
    apply app_inj_tail in EL. destruct EL as (-> & ->). apply Forall_app in FA. destruct FA as (FA & FY). inversion FY as [|? ? YL _]; subst.
    destruct (IH s4 FA R4) as (wm & w1 & W1 & A1 & L1 & <- & F1).
    destruct (simulation cap tt pfxs TK PX n (wl ++ wm) w1 (wrun_trans cap tt _ _ _ _ _ _ WR W1)) as (lbs & rest & _ & _ & PV & SM & SL).
    destruct (follow cap tt pfxs TK w1 rest y s5 SM PV SL F1 YL E4) as (wm2 & w2 & W2 & A2 & L2 & C2 & F2).
    exists (wm ++ wm2), w2. split; [eapply wrun_trans; eassumption|]. split; [apply Forall_app; auto|]. split; [rewrite !app_length; cbn; lia|auto].
Qed.
Lemma answer_ends n wl w i p g body l : wrun cap tt (conforming_bytes cap tt pfxs) (winit cap n) wl w -> fits_buffer cap w ->
  nth_error (ths (w_core w)) i = Some p -> awaits p g -> answered wl g = body ++ [l] -> l_last l = true ->
  exists more w', Forall reader_action more /\ (length more <= 36 * (length (wire (w_core w)) + 1))%nat /\ wrun cap tt (conforming_bytes cap tt pfxs) w more w' /\
    nth_error (ths (w_core w')) i = Some p /\ exists w2, wexec cap tt (WApp (LThread i)) w' = Some (Ok w2).
Proof.
  intros WR FT EP AW AN LL. destruct (simulation cap tt pfxs TK PX n wl w WR) as (lbs & rest & R & (_ & SE & _) & _ & _ & _).
  destruct (c85_complete_answer_ends_the_wait tt pfxs n lbs (w_core w) i p g body l TK PX R EP AW) as (more & s' & FA & LE & R2 & EP2 & s2 & EX); [rewrite SE; exact AN|exact LL|].
  destruct (run_cut _ _ _ _ _ R2) as (s1 & R3 & R4). rewrite <- (run_det tt _ _ _ _ _ R _ R3) in R4.
  destruct (follow_run n wl w more s' WR FT FA R4) as (wm & w' & W1 & A1 & L1 & C1 & F1).
  exists wm, w'. split; [exact A1|]. split; [lia|]. split; [exact W1|]. rewrite C1. split; [exact EP2|]. cbn [wexec app_label]. rewrite C1, EX. eauto.
Qed.
End FollowRun.

(** Receiving text while time passes: proofs. *)
From Coq Require Import List NArith ZArith Bool Arith Lia.
From Verif Require Import Bytes AtCore Status SpecAt AtProofs AtProofs3 Pktio SpecPktio PktioLine PktioSafe SpecStream PktioStream PktioText PktioFrames G3pp Wire SpecWire SpecTimed WireProofs.
Import ListNotations.

Lemma lines_drop S : stream_lines [] (drop_eol S) = stream_lines [] S.
Proof.
  induction S as [|c S IH]; [reflexivity|]. cbn [drop_eol]. destruct (is_eol c) eqn:E; [|reflexivity]. rewrite IH. cbn [stream_lines].
  unfold is_eol in E. rewrite E. destruct (stream_lines [] S); reflexivity.
Qed.
Lemma lines_app : forall A acc B, stream_lines acc (A ++ B) =
  (fst (stream_lines acc A) ++ fst (stream_lines (snd (stream_lines acc A)) B), snd (stream_lines (snd (stream_lines acc A)) B)).
Proof.
  induction A as [|c A IH]; intros acc B; cbn [app stream_lines fst snd].
  - destruct (stream_lines acc B); reflexivity.
  - destruct ((c =? 0) || (c =? 13) || (c =? 10))%N; [|apply IH]. rewrite (IH [] B). destruct (stream_lines [] A) as [ls r]. cbn [fst snd]. destruct acc; reflexivity.
Qed.
Lemma lines_head l e S : l <> [] -> line_text l -> eol e -> stream_lines [] (l ++ e :: S) = (l :: fst (stream_lines [] S), snd (stream_lines [] S)).
Proof. intros N1 T E. rewrite lines_text by assumption. cbn [app]. destruct l; [contradiction|reflexivity]. Qed.
Lemma lines_acc r B : line_text r -> stream_lines r B = stream_lines [] (r ++ B).
Proof. intro T. rewrite lines_app, (lines_rest [] r T). cbn [fst snd app]. destruct (stream_lines r B); reflexivity. Qed.

Section Timed.
Variable cap : nat.
Variable env : environment.
Hypothesis HE : text_env env.

Lemma pass_text t h s line n sod lft a : holds cap s line n lft a -> rx_dlen s = 0%nat ->
  exists ev out sod', pass cap (env t h) s line n sod = Ok (ev, out, sod') /\
    ((exists s' l e S, out = Stop s' /\ fresh cap s' /\ drop_eol lft = l ++ e :: S /\ l <> [] /\ line_text l /\ eol e /\ rejects (env t h) a l /\ ev = [EvUndef l; EvDrop]) \/
     match out with
     | Next s' line' n' => (n' < n)%nat /\ rx_dlen s' = 0%nat /\ exists l e a' lft', drop_eol lft = l ++ e :: lft' /\ l <> [] /\ line_text l /\ eol e /\
         line_step (env t h) a l ev a' /\ holds cap s' line' n' lft' a'
     | Stop s' => ev = [] /\ rx_dlen s' = 0%nat /\ parked cap s' (drop_eol lft) a /\ line_text (drop_eol lft)
     end).
Proof.
  intros HH HD. pose proof HH as (HB & HL & HS & HI). destruct (HE t h) as (VI & VS & VD & VH & VT & VP & VC). set (v := env t h) in *. pose proof HB as (BL & BZ).
  rewrite pass_tail. destruct (skip_holds (rx_buf s) n line lft) as (l1 & n1 & -> & S1 & E1 & G1); [lia|exact HS|]. cbn [bind].
  assert (HI1 : items_rel (rx_buf s) l1 (rx_resp s) a) by (eapply (items_agree cap); [exact HI|apply agree_refl|exact G1]).
  unfold preprocessInputBuffer. rewrite VI. cbn [bind]. unfold preprocessLine. set (S0 := drop_eol lft) in *.
  assert (LS0 : length S0 = n1) by (rewrite <- S1, firstn_length, skipn_length; lia).
  assert (PK : parked cap (set_left s (Some l1) n1) S0 a).
  { split; [exact HB|]. split; [cbn; lia|]. split; [exact S1|]. split; [exact HI1|]. cbn. congruence. }
  destruct (n1 =? 0)%nat eqn:EN1.
  { apply Nat.eqb_eq in EN1. cbn [bind]. eexists _, _, _. split; [reflexivity|]. right. split; [reflexivity|]. split; [exact HD|]. rewrite EN1 in PK. split; [exact PK|].
    destruct S0; [constructor|cbn [length] in LS0; lia]. }
  rewrite VS, VD. cbn [bind]. unfold tail. apply Nat.eqb_neq in EN1.
  destruct (find_eol (rx_buf s) l1 n1) as [[i|]| |] eqn:FE; cbn [bind];
      [| |exfalso; destruct (find_eol_spec (rx_buf s) n1 l1 ltac:(lia)) as [(? & Q & _)|[Q _]]; rewrite FE in Q; discriminate
         |exfalso; destruct (find_eol_spec (rx_buf s) n1 l1 ltac:(lia)) as [(? & Q & _)|[Q _]]; rewrite FE in Q; discriminate].
  2:{ eexists _, _, _. split; [reflexivity|]. right. split; [reflexivity|]. split; [exact HD|]. split; [exact PK|].
      rewrite <- S1. exact (find_none_text (rx_buf s) l1 n1 ltac:(lia) FE). }
  destruct (find_some_split (rx_buf s) l1 n1 i ltac:(lia) FE) as (l & e & SP & LT & EE & LI & IN & CS).
  rewrite S1 in SP. set (rest := firstn (n1 - S i) (skipn (l1 + S i) (rx_buf s))) in SP.
  assert (LN : l <> []).
  { intros ->. destruct (drop_eol_head lft) as [Q|(c & t0 & Q & NE)]; fold S0 in Q; rewrite SP in Q; cbn [app] in Q; [discriminate|]. inversion Q; subst. contradiction. }
  rewrite st_ok by lia. cbn [bind]. rewrite CS. cbn [bind].
  set (m := upd (rx_buf s) (l1 + i) 0%N) in *. set (s3 := set_buf s m).
  assert (BM : buf_ok cap m) by (apply buf_st; exact HB).
  assert (HI3 : items_rel (rx_buf s3) l1 (rx_resp s3) a).
  { eapply (items_agree cap); [exact HI1| |apply le_n]. eapply agree_le; [apply agree_upd|lia]. }
  assert (SKM : skipn (l1 + S i) m = skipn (l1 + S i) (rx_buf s)) by (apply (skip_upd cap); lia).
  destruct (handleMsgType_step cap v s3 l1 l a VT VP VC VH BM ltac:(lia) CS HI3) as (st & mt' & ev & s4 & -> & HM). cbn [bind].
  destruct HM as [(-> & -> & DR & FR)|(a' & LSP & EB & D4 & IR & HM)].
  { eexists _, _, _. split; [reflexivity|]. left. eexists _, l, e, rest. split; [reflexivity|]. split; [apply FR, HD|]. auto 8. }
  change (rx_buf s3) with m in EB, IR. change (rx_dlen s3) with (rx_dlen s) in D4. rewrite HD in D4. rewrite LI in IR.
  assert (B4 : buf_ok cap (rx_buf s4)) by (rewrite EB; exact BM). pose proof B4 as (BL4 & _).
  assert (FIN : forall st0, (st0 = PKT_OK -> mt' = AT_SOLICITED -> a' = [] /\ rx_resp s4 = None) ->
    exists s' line' n', getNextLine s4 l1 n1 i st0 mt' = Ok (Next s' line' n') /\ (n' < n)%nat /\ rx_dlen s' = 0%nat /\ holds cap s' line' n' rest a').
  { intros st0 Q. unfold getNextLine. replace (n1 <? i + 1)%nat with false by (symmetry; apply Nat.ltb_ge; lia).
    rewrite rd_ok by lia. cbn [bind]. set (dd := firstn _ _).
    assert (DL : length dd = (n1 - (i + 1))%nat) by (unfold dd; rewrite firstn_length, skipn_length; lia).
    assert (DD : dd = rest).
    { unfold dd, rest. rewrite EB. replace (l1 + (i + 1))%nat with (l1 + S i)%nat by lia. rewrite SKM. f_equal. lia. }
    assert (W : wr (rx_buf s4) 0 dd = Ok (firstn 0 (rx_buf s4) ++ dd ++ skipn (0 + length dd) (rx_buf s4))) by (apply wr_ok; lia).
    set (m0 := firstn 0 (rx_buf s4) ++ dd ++ skipn (0 + length dd) (rx_buf s4)) in *.
    assert (PLAIN : exists s' line' n', Ok (Next (set_left s4 (Some (l1 + (i + 1))%nat) (n1 - (i + 1))) (l1 + (i + 1)) (n1 - (i + 1))) = Ok (Next s' line' n') /\ (n' < n)%nat /\ rx_dlen s' = 0%nat /\ holds cap s' line' n' rest a').
    { eexists _, _, _. split; [reflexivity|]. split; [lia|]. split; [exact D4|].
      split; [exact B4|]. split; [lia|]. split; [exact DD|]. cbn [set_left rx_buf rx_resp]. rewrite EB. replace (l1 + (i + 1))%nat with (l1 + i + 1)%nat by lia. exact IR. }
    destruct st0; try exact PLAIN. destruct mt'; try exact PLAIN.
    rewrite W. cbn [bind]. destruct (Q eq_refl eq_refl) as [-> RN].
    eexists _, _, _. split; [reflexivity|]. split; [lia|]. split; [exact D4|].
    split; [eapply buf_wr; [exact B4|exact W|lia]|]. split; [lia|]. cbn [set_left set_buf rx_buf rx_resp]. split.
    - pose proof (wr_slice _ _ _ _ W) as WS. rewrite DL in WS. cbn [skipn] in WS |- *. rewrite WS. exact DD.
    - rewrite RN. reflexivity. }
  assert (DONE : forall st0, (st0 = PKT_OK -> mt' = AT_SOLICITED -> a' = [] /\ rx_resp s4 = None) ->
    exists ev0 out sod', (do x <- getNextLine s4 l1 n1 i st0 mt'; Ok (ev, x, sod)) = Ok (ev0, out, sod') /\ ev0 = ev /\
     match out with
     | Next s' line' n' => (n' < n)%nat /\ rx_dlen s' = 0%nat /\ holds cap s' line' n' rest a' | Stop _ => False end).
  { intros st0 Q. destruct (FIN st0 Q) as (s' & line' & n' & -> & A). cbn [bind]. eexists _, _, _. split; [reflexivity|]. split; [reflexivity|exact A]. }
  assert (GO : forall st0, (st0 = PKT_OK -> mt' = AT_SOLICITED -> a' = [] /\ rx_resp s4 = None) ->
    exists ev0 out sod', (do x <- getNextLine s4 l1 n1 i st0 mt'; Ok (ev, x, sod)) = Ok (ev0, out, sod') /\
    ((exists s' l e S, out = Stop s' /\ fresh cap s' /\ S0 = l ++ e :: S /\ l <> [] /\ line_text l /\ eol e /\ rejects v a l /\ ev0 = [EvUndef l; EvDrop]) \/
     match out with
     | Next s' line' n' => (n' < n)%nat /\ rx_dlen s' = 0%nat /\ exists l e a' lft', S0 = l ++ e :: lft' /\ l <> [] /\ line_text l /\ eol e /\
         line_step v a l ev0 a' /\ holds cap s' line' n' lft' a'
     | Stop s' => ev0 = [] /\ rx_dlen s' = 0%nat /\ parked cap s' S0 a /\ line_text S0
     end)).
  { intros st0 Q. destruct (DONE st0 Q) as (ev0 & out & sod' & X & -> & Y). exists ev, out, sod'. split; [exact X|]. right. destruct out as [|s' line' n']; [contradiction|].
    destruct Y as (Y1 & Y2 & Y3). split; [exact Y1|]. split; [exact Y2|]. exists l, e, a', rest. auto 8. }
  destruct HM as [(-> & HM)|[-> | -> ]].
  - apply GO. intros _. exact HM.
  - apply GO. discriminate.
  - rewrite D4. cbn [Nat.eqb negb]. apply GO. discriminate.
Qed.

(** Up to the end of the input or the first refusal. *)
Definition outcome (t t' : nat) (h : list event) (a : list (list N)) (S : str) (h' : list event) (s' : rx) : Prop :=
  exists ls h1 a1, dispatched env h a ls h1 a1 /\
    ((in_order t ls t' /\ h' = h1 /\ rx_dlen s' = 0%nat /\ exists lft', parked cap s' lft' a1 /\ line_text lft' /\ stream_lines [] S = (map snd ls, lft')) \/
     (exists k l rest, in_order t ls k /\ (k < t')%nat /\ fst (stream_lines [] S) = map snd ls ++ l :: rest /\ rejects (env k h1) a1 l /\ fresh cap s' /\ h' = h1 ++ [EvUndef l; EvDrop])).

Lemma loop_text fuel : forall t h s line n sod t' h' s' lft a, holds cap s line n lft a -> rx_dlen s = 0%nat ->
  handleAllReceived cap fuel env t h s line n sod = Ok (t', h', s') -> outcome t t' h a lft h' s'.
Proof.
  induction fuel as [|fuel IH]; intros t h s line n sod t' h' s' lft a HH HD EQ; [discriminate|]. cbn [handleAllReceived] in EQ.
  destruct (pass_text t h s line n sod lft a HH HD) as (ev & out & sod' & EP & PG). rewrite EP in EQ. cbn [bind] in EQ.
  destruct PG as [(s1 & l & e & S & -> & FR & DE & LN & LT & EE & RJ & ->)|PG].
  - injection EQ as <- <- <-. exists [], h, a. split; [constructor|]. right. exists t, l, (fst (stream_lines [] S)). split; [cbn; lia|]. split; [lia|].
    split; [rewrite <- lines_drop, DE, lines_head by assumption; reflexivity|]. auto.
  - destruct out as [s1|s1 l1 n1].
    + destruct PG as (-> & D1 & P1 & LT). injection EQ as <- <- <-. exists [], h, a. split; [constructor|]. left. split; [cbn; lia|]. rewrite app_nil_r. split; [reflexivity|]. split; [exact D1|].
      exists (drop_eol lft). split; [exact P1|]. split; [exact LT|]. rewrite <- lines_drop, lines_rest by exact LT. reflexivity.
    + destruct PG as (_ & D1 & l & e & a1 & lft1 & DE & LN & LT & EE & LS & H1).
      destruct (IH _ _ _ _ _ _ _ _ _ _ _ H1 D1 EQ) as (ls & h1 & a2 & DP & OUT).
      exists ((t, l) :: ls), h1, a2. split; [econstructor; [exact LS|exact DP]|].
      destruct OUT as [(IO & -> & D2 & lft' & P2 & LT2 & SL)|(k & l2 & rest & IO & KT & SL & RJ & FR & ->)].
      * left. split; [cbn; auto|]. split; [reflexivity|]. split; [exact D2|]. exists lft'. split; [exact P2|]. split; [exact LT2|]. rewrite <- lines_drop, DE, lines_head, SL by assumption. reflexivity.
      * right. exists k, l2, rest. split; [cbn; auto|]. split; [exact KT|]. split; [rewrite <- lines_drop, DE, lines_head by assumption; cbn [fst]; rewrite SL; reflexivity|]. auto.
Qed.

Lemma in_order_le : forall ls t t1 t2, in_order t ls t1 -> (t1 <= t2)%nat -> in_order t ls t2.
Proof. induction ls as [|[k l] ls IH]; cbn; intros t t1 t2 A B; [lia|]. destruct A. split; [assumption|]. eapply IH; eassumption. Qed.
Lemma in_order_app : forall l1 t t1 l2 t2, in_order t l1 t1 -> in_order t1 l2 t2 -> in_order t (l1 ++ l2) t2.
Proof.
  induction l1 as [|[k l] l1 IH]; cbn; intros t t1 l2 t2 A B.
  - destruct l2 as [|[k l] l2]; cbn in *; [lia|]. destruct B. split; [lia|assumption].
  - destruct A. split; [assumption|]. eapply IH; eassumption.
Qed.
Lemma dispatched_app : forall h a l1 h1 a1 l2 h2 a2, dispatched env h a l1 h1 a1 -> dispatched env h1 a1 l2 h2 a2 -> dispatched env h a (l1 ++ l2) h2 a2.
Proof. induction 1; [auto|]. intro. cbn [app]. econstructor; eauto. Qed.

Lemma event_text fuel t h s recv k t1 h1 s1 lft a : parked cap s lft a -> rx_dlen s = 0%nat -> line_text lft -> room cap s -> recv_contract recv ->
  handleRxDataEvent cap fuel env t h s recv = Ok (k, t1, h1, s1) -> outcome t t1 h a (lft ++ recv (offered cap s)) h1 s1.
Proof.
  intros PK HD LT RM RC EQ. unfold handleRxDataEvent in EQ.
  destruct (readline_step cap s recv lft a PK RM RC) as (pl & bytes & s0 & ER & D0 & R0 & Q). rewrite ER in EQ. cbn [bind] in EQ. rewrite HD in D0.
  destruct Q as [(-> & BE & P0)|(p & -> & BP & H0)].
  { cbn [Nat.ltb Nat.leb] in EQ. injection EQ as <- <- <- <-. rewrite BE, app_nil_r. exists [], h, a. split; [constructor|]. left. split; [cbn; lia|]. split; [reflexivity|].
    split; [exact D0|]. exists lft. split; [exact P0|]. split; [exact LT|]. apply lines_rest. exact LT. }
  replace (0 <? bytes)%nat with true in EQ by (symmetry; apply Nat.ltb_lt; lia). rewrite D0 in EQ. cbn [Nat.eqb negb bind] in EQ.
  replace (0 <? bytes)%nat with true in EQ by (symmetry; apply Nat.ltb_lt; lia).
  destruct H0 as (B2 & L2 & S2 & I2). pose proof B2 as [BL _]. rewrite st_ok in EQ by lia. cbn [bind] in EQ.
  destruct (handleAllReceived cap fuel env t h _ p bytes None) as [[[t' h'] s']| |] eqn:EL; cbn [bind] in EQ; [|discriminate|discriminate].
  injection EQ as <- <- <- <-. refine (loop_text _ _ _ _ _ _ _ _ _ _ _ _ _ (_ : rx_dlen (set_buf s0 _) = 0%nat) EL); [|exact D0].
  split; [cbn; apply buf_st; exact B2|]. split; [exact L2|]. cbn. split; [rewrite slice_upd by lia; exact S2|].
  eapply (items_agree cap); [exact I2| |apply le_n]. eapply agree_le; [apply agree_upd|lia].
Qed.

Lemma event_time fuel t h s recv k t1 h1 s1 : handleRxDataEvent cap fuel env t h s recv = Ok (k, t1, h1, s1) -> (t <= t1)%nat.
Proof.
  intro EV.
  assert (L : forall fuel t h s line n sod t' h' s', handleAllReceived cap fuel env t h s line n sod = Ok (t', h', s') -> (t <= t')%nat).
  { clear. induction fuel as [|fuel IH]; intros t h s line n sod t' h' s' E; [discriminate|]. cbn [handleAllReceived] in E.
    destruct (pass cap (env t h) s line n sod) as [[[ev out] sod']| |]; cbn [bind] in E; [|discriminate|discriminate].
    destruct out; [injection E as <- <- <-; lia|]. apply IH in E. lia. }
  unfold handleRxDataEvent in EV. destruct (ReadLine cap s recv) as [[[pl bytes] s0]| |]; cbn [bind] in EV; [|discriminate|discriminate].
  destruct (0 <? bytes)%nat; [|injection EV as <- <- <- <-; lia]. destruct pl as [p|]; [|discriminate].
  destruct (if negb (rx_dlen s0 =? 0)%nat then _ else _) as [[[l2 n2] s2']| |]; cbn [bind] in EV; [|discriminate|discriminate].
  destruct (0 <? n2)%nat; [|injection EV as <- <- <- <-; lia].
  destruct (st _ _ _) as [m| |]; cbn [bind] in EV; [|discriminate|discriminate].
  destruct (handleAllReceived cap fuel env t h _ l2 n2 None) as [[[t' h'] s']| |] eqn:EL; cbn [bind] in EV; [|discriminate|discriminate].
  injection EV as <- <- <- <-. eapply L. exact EL.
Qed.

(** The unfinished line the specification keeps: a full buffer counts as dropped. *)
Definition trim (lft : str) : str := if (length lft =? cap)%nat then [] else lft.
Lemma trim_nil : trim [] = []. Proof. unfold trim. destruct (_ =? _)%nat; reflexivity. Qed.
Lemma capped_small : forall S acc, (length acc < cap)%nat -> (length acc + length S <= cap)%nat ->
  capped_lines cap acc S = (fst (stream_lines acc S), trim (snd (stream_lines acc S))).
Proof.
  induction S as [|c S IH]; intros acc L1 L2; cbn [capped_lines stream_lines].
  - unfold trim. cbn [fst snd]. destruct (Nat.eqb_spec (length acc) cap); [lia|reflexivity].
  - cbn [length] in L2. destruct ((c =? 0) || (c =? 13) || (c =? 10))%N.
    + rewrite (IH []) by (cbn; lia). destruct (stream_lines [] S) as [ls r]. reflexivity.
    + assert (LA : length (acc ++ [c]) = Datatypes.S (length acc)) by (rewrite app_length; cbn; lia).
      destruct (Nat.eqb_spec (length (acc ++ [c])) cap) as [E|E].
      * destruct S; [|cbn in L2; lia]. cbn [capped_lines stream_lines fst snd]. unfold trim. rewrite (proj2 (Nat.eqb_eq _ _) E). reflexivity.
      * apply IH; lia.
Qed.
Lemma capped_app : forall A acc B, capped_lines cap acc (A ++ B) =
  (fst (capped_lines cap acc A) ++ fst (capped_lines cap (snd (capped_lines cap acc A)) B), snd (capped_lines cap (snd (capped_lines cap acc A)) B)).
Proof.
  induction A as [|c A IH]; intros acc B; cbn [app capped_lines fst snd].
  - destruct (capped_lines cap acc B); reflexivity.
  - destruct ((c =? 0) || (c =? 13) || (c =? 10))%N.
    + rewrite (IH [] B). destruct (capped_lines cap [] A) as [ls r]. cbn [fst snd]. destruct acc; reflexivity.
    + destruct (_ =? _)%nat; apply IH.
Qed.

Lemma readline_full s recv lft a : parked cap s lft a -> offered cap s = 0%nat -> rx_resp s = None ->
  exists pl s1, ReadLine cap s recv = Ok (pl, 0%nat, s1) /\ parked cap s1 [] [] /\ rx_dlen s1 = rx_dlen s /\ trim lft = [] /\ a = [].
Proof.
  intros (HB & HL & HS & HI & HD) OF RN. assert (LL : length lft = rx_partial s).
  { rewrite <- HS, firstn_length, skipn_length. destruct HB as [BL _]. lia. }
  rewrite RN in HI. cbn in HI. unfold offered in OF. unfold ReadLine. fold (compacts s).
  assert (NC : compacts s = false).
  { destruct (compacts s) eqn:E; [|reflexivity]. exfalso. unfold compacts in E. unfold off in HL. destruct (rx_ptr s) as [[|p]|]; cbn [andb] in E; try discriminate. lia. }
  rewrite NC in *. cbn [bind]. change (match rx_ptr s with Some p => p | None => 0%nat end) with (off s) in *.
  replace (0 <? cap - rx_partial s - off s)%nat with false by (symmetry; apply Nat.ltb_ge; lia).
  eexists _, _. split; [reflexivity|]. split; [|split; [reflexivity|split; [|destruct a; [reflexivity|first [discriminate HI|inversion HI]]]]].
  - split; [exact HB|]. split; [cbn; lia|]. split; [reflexivity|]. cbn [set_left rx_resp rx_dlen]. rewrite RN. split; [reflexivity|]. rewrite RN in HD. exact HD.
  - unfold compacts in NC. rewrite RN in NC. rewrite andb_true_r in NC. unfold trim. destruct (Nat.eqb_spec (length lft) cap) as [|NE]; [reflexivity|].
    assert (P0 : rx_partial s = 0%nat).
    { unfold off in *. destruct (rx_ptr s) as [[|p]|]; cbn [andb] in NC; [lia| |lia]. destruct (Nat.eqb_spec (rx_partial s) 0) as [Q|Q]; [exact Q|discriminate]. }
    rewrite P0 in LL. destruct lft; [reflexivity|discriminate].
Qed.

Lemma event_capped fuel t h s recv k t1 h1 s1 lft a : parked cap s lft a -> rx_dlen s = 0%nat -> line_text lft ->
  offered cap s <> 0%nat \/ rx_resp s = None -> recv_contract recv -> handleRxDataEvent cap fuel env t h s recv = Ok (k, t1, h1, s1) ->
  exists ls g a1, dispatched env h a ls g a1 /\
    ((in_order t ls t1 /\ h1 = g /\ rx_dlen s1 = 0%nat /\ exists lft', parked cap s1 lft' a1 /\ line_text lft' /\ capped_lines cap (trim lft) (recv (offered cap s)) = (map snd ls, trim lft')) \/
     (exists j l rest, in_order t ls j /\ (j < t1)%nat /\ fst (capped_lines cap (trim lft) (recv (offered cap s))) = map snd ls ++ l :: rest /\ rejects (env j g) a1 l /\ fresh cap s1 /\ h1 = g ++ [EvUndef l; EvDrop])).
Proof.
  intros PK HD LT RM RC EQ. destruct (Nat.eq_dec (offered cap s) 0) as [OF|OF].
  - destruct RM as [RM|RN]; [contradiction|]. destruct (readline_full s recv lft a PK OF RN) as (pl & s0 & ER & P0 & D0 & TR & ->).
    unfold handleRxDataEvent in EQ. rewrite ER in EQ. cbn [bind Nat.ltb Nat.leb] in EQ. injection EQ as <- <- <- <-.
    assert (RE : recv (offered cap s) = []) by (pose proof (RC (offered cap s)) as RL; rewrite OF in *; destruct (recv 0%nat); [reflexivity|cbn [length] in RL; lia]).
    exists [], h, []. split; [constructor|]. left. split; [cbn; lia|]. split; [reflexivity|]. split; [congruence|]. exists []. split; [exact P0|]. split; [constructor|].
    rewrite RE, TR, trim_nil. reflexivity.
  - destruct (event_text fuel t h s recv k t1 h1 s1 lft a PK HD LT (or_introl OF) RC EQ) as (ls & g & a1 & DP & OUT).
    assert (LL : length lft = rx_partial s).
    { destruct PK as (HB & HL & HS & _). rewrite <- HS, firstn_length, skipn_length. destruct HB as [BL _]. lia. }
    assert (LO : (length lft + offered cap s <= cap)%nat) by (unfold offered in *; lia).
    assert (TR : trim lft = lft) by (unfold trim; destruct (Nat.eqb_spec (length lft) cap); [lia|reflexivity]).
    assert (CL : capped_lines cap (trim lft) (recv (offered cap s)) = (fst (stream_lines [] (lft ++ recv (offered cap s))), trim (snd (stream_lines [] (lft ++ recv (offered cap s)))))).
    { rewrite TR, <- lines_acc by exact LT. pose proof (RC (offered cap s)). apply capped_small; lia. }
    rewrite CL. exists ls, g, a1. split; [exact DP|].
    destruct OUT as [(IO & -> & D1 & lft1 & P1 & LT1 & SL)|(j & l & rest & IO & JT & SL & RJ & FR & ->)]; [left|right].
    + split; [exact IO|]. split; [reflexivity|]. split; [exact D1|]. exists lft1. split; [exact P1|]. split; [exact LT1|]. rewrite SL. reflexivity.
    + exists j, l, rest. cbn [fst]. auto 8.
Qed.

Lemma execution_text fuel t h s cs t' h' s' : execution cap fuel env t h s cs t' h' s' -> forall lft a, parked cap s lft a -> rx_dlen s = 0%nat -> line_text lft ->
  text_processed cap env t h a (trim lft) cs t' h'.
Proof.
  induction 1 as [t h s|t h s recv k t1 h1 s1 cs t2 h2 s2 RC RM EV RUN IH]; intros lft a PK HD LT.
  - apply tp_nil. lia.
  - destruct (event_capped _ _ _ _ _ _ _ _ _ _ _ PK HD LT RM RC EV) as (ls & g & a1 & DP & [(IO & -> & D1 & lft1 & P1 & LT1 & SL)|(j & l & rest & IO & JT & SL & RJ & FR & ->)]).
    + eapply tp_chunk; [exact SL|exact IO|exact DP|]. apply IH; assumption.
    + eapply tp_refused; [exact SL|exact IO|exact JT|exact DP|exact RJ|]. rewrite <- trim_nil. apply IH; [apply fresh_parked; exact FR| |constructor].
      destruct FR as (_ & _ & _ & FD & _). exact FD.
Qed.
Lemma text_complete fuel t cs t' h' s' : execution cap fuel env t [] (rx0 cap) cs t' h' s' -> text_processed cap env t [] [] [] cs t' h'.
Proof. intro RUN. rewrite <- trim_nil. eapply execution_text; [exact RUN|apply fresh_parked, fresh0|reflexivity|constructor]. Qed.

Lemma processed_time t h a lft cs t' h' : text_processed cap env t h a lft cs t' h' -> (t <= t')%nat.
Proof.
  assert (IO : forall ls t t', in_order t ls t' -> (t <= t')%nat).
  { induction ls as [|[k l] ls IHl]; cbn; intros t0 t1; [auto|]. intros [A B]. apply IHl in B. lia. }
  induction 1; [assumption| |]; match goal with I : in_order _ _ _ |- _ => apply IO in I end; lia.
Qed.
Lemma dispatched_more h a ls h' a' : dispatched env h a ls h' a' -> exists x, h' = h ++ x.
Proof. induction 1 as [h a|h a t l ev a0 ls h' a' LS DP (x & ->)]; [exists []; rewrite app_nil_r; reflexivity|]. exists (ev ++ x). rewrite app_assoc. reflexivity. Qed.
Lemma processed_more t h a lft cs t' h' : text_processed cap env t h a lft cs t' h' -> exists x, h' = h ++ x.
Proof.
  induction 1 as [t h a lft t' LE|t h a lft c cs ls lft' t1 h1 a1 t' h' SL IO DP TP (x & ->)|t h a lft c cs ls k l rest t1 h1 a1 t' h' SL IO KT DP RJ TP (x & ->)];
    [exists []; rewrite app_nil_r; reflexivity| |]; apply dispatched_more in DP; destruct DP as (y & ->); eexists; rewrite <- !app_assoc; reflexivity.
Qed.
Lemma processed_lines t h a lft cs t' h' : text_processed cap env t h a lft cs t' h' ->
  exists ls h1 a1, in_order t ls t' /\ dispatched env h a ls h1 a1 /\
    ((h' = h1 /\ map snd ls = fst (capped_lines cap lft (concat cs))) \/
     (exists k l rest x, fst (capped_lines cap lft (concat cs)) = map snd ls ++ l :: rest /\ rejects (env k h1) a1 l /\ h' = h1 ++ EvUndef l :: EvDrop :: x)).
Proof.
  induction 1 as [t h a lft t' LE|t h a lft c cs ls lft' t1 h1 a1 t' h' SL IO DP TP (ls2 & g2 & a2 & IO2 & DP2 & OUT2)|t h a lft c cs ls k l rest t1 h1 a1 t' h' SL IO KT DP RJ TP IH].
  - exists [], h, a. split; [cbn; lia|]. split; [constructor|]. left. split; reflexivity.
  - exists (ls ++ ls2), g2, a2. split; [eapply in_order_app; eassumption|]. split; [eapply dispatched_app; eassumption|]. cbn [concat]. rewrite map_app, capped_app, SL. cbn [fst snd].
    destruct OUT2 as [[-> SL2]|(j & l & rest & x & SL2 & RJ & ->)]; [left; rewrite SL2; auto|right]. exists j, l, rest, x. rewrite SL2, <- app_assoc. auto.
  - exists ls, h1, a1. pose proof (processed_time _ _ _ _ _ _ _ TP). split; [eapply in_order_le; [exact IO|lia]|]. split; [exact DP|]. right.
    destruct (processed_more _ _ _ _ _ _ _ TP) as (x & ->). exists k, l, (rest ++ fst (capped_lines cap (snd (capped_lines cap lft c)) (concat cs))), x.
    cbn [concat]. rewrite capped_app. cbn [fst]. rewrite SL, <- !app_assoc. auto.
Qed.
Lemma text_received fuel t cs t' h' s' : execution cap fuel env t [] (rx0 cap) cs t' h' s' -> exists ls, received cap env t cs t' h' ls.
Proof. intro RUN. apply text_complete in RUN. destruct (processed_lines _ _ _ _ _ _ _ RUN) as (ls & h1 & a1 & A). exists ls, h1, a1. exact A. Qed.
End Timed.

(** ** Sessions *)
Section Sessions.
Variable env : environment.
Lemma treply_dispatched q h ps ls a h' ps' : timed_reply env q h ps ls a h' ps' -> dispatched env h ps ls h' ps'.
Proof.
  induction 1 as [h ps|h ps t l ls a h' ps' U R IH|h ps t l ls a h' ps' U UN R IH|h ps t l ls a h' ps' F C P T R IH|h ps t l F C SL|h ps t l F C E|h ps t l F C P T].
  - constructor.
  - econstructor; [apply ls_urc; exact U|exact IH].
  - econstructor; [apply ls_unexpected_ok; [left; exact U|exact UN]|exact IH].
  - destruct F as [F1 F2]. rewrite <- F1 in C. rewrite <- F1 in T. econstructor; [|rewrite app_nil_r; exact IH].
    destruct T as [T|[T ->]]; [apply ls_multi; assumption|]. apply ls_single; auto.
  - destruct F as [F1 F2]. rewrite <- F1 in C. econstructor; [apply ls_success; assumption|constructor].
  - destruct F as [F1 F2]. rewrite <- F1 in C. econstructor; [apply ls_error; assumption|constructor].
  - destruct F as [F1 F2]. rewrite <- F1 in C. rewrite <- F1 in T. econstructor; [apply ls_no_code; assumption|constructor].
Qed.
Lemma tsession_dispatched m sent h rs ls ws : timed_session env m sent h rs ls ws -> exists ps, dispatched env h [] ls (h ++ concat ws) ps.
Proof.
  induction 1 as [sent h|sent h q rs l1 l2 w ws R S (ps & IH)|sent h q l1 w ps R].
  - exists []. cbn. rewrite app_nil_r. constructor.
  - exists ps. cbn [concat]. eapply dispatched_app; [eapply treply_dispatched; exact R|]. rewrite app_assoc. exact IH.
  - exists ps. cbn [concat]. rewrite app_nil_r. eapply treply_dispatched; exact R.
Qed.
Lemma dispatched_det h a ls h1 a1 : dispatched env h a ls h1 a1 -> forall h2 a2, dispatched env h a ls h2 a2 -> h1 = h2 /\ a1 = a2.
Proof.
  induction 1 as [h a|h a t l ev a0 ls h' a' LS DP IH]; intros h2 a2 D; inversion D as [|? ? ? ? ev2 a3 ? ? ? LS2 DP2]; subst; [auto|].
  destruct (line_step_det _ _ _ _ _ _ _ LS LS2) as [-> ->]. auto.
Qed.
Lemma dispatched_split : forall l1 h a l2 h' a', dispatched env h a (l1 ++ l2) h' a' -> exists h1 a1, dispatched env h a l1 h1 a1 /\ dispatched env h1 a1 l2 h' a'.
Proof.
  induction l1 as [|x l1 IH]; intros h a l2 h' a' D; [exists h, a; split; [constructor|exact D]|]. cbn [app] in D. inversion D as [|? ? t l ev2 a3 ? ? ? LS2 DP2]; subst.
  destruct (IH _ _ _ _ _ DP2) as (h1 & a1 & A & B). exists h1, a1. split; [econstructor; eassumption|exact B].
Qed.
Lemma dispatched_grow h a ls h' a' : dispatched env h a ls h' a' -> exists x, h' = h ++ x.
Proof. induction 1 as [h a|h a t l ev a0 ls h' a' LS DP (x & ->)]; [exists []; rewrite app_nil_r; reflexivity|]. exists (ev ++ x). rewrite app_assoc. reflexivity. Qed.

Definition window_answer (w : list event) : answer := response_answer (hd_error (responses w)).
Lemma treply_window q h ps ls a h' ps' : timed_reply env q h ps ls a h' ps' -> exists w, h' = h ++ w /\ window_answer w = a.
Proof.
  induction 1 as [h ps|h ps t l ls a h' ps' U R IH|h ps t l ls a h' ps' U UN R IH|h ps t l ls a h' ps' F C P T R IH|h ps t l F C SL|h ps t l F C E|h ps t l F C P T].
  - exists []. rewrite app_nil_r. auto.
  - destruct IH as (w & -> & A). exists (EvUrc l :: w). rewrite <- app_assoc. auto.
  - destruct IH as (w & -> & A). exists (EvUndef l :: w). rewrite <- app_assoc. auto.
  - exact IH.
  - eexists. split; reflexivity.
  - eexists. split; reflexivity.
  - eexists. split; reflexivity.
Qed.
Lemma treply_window' q h ps ls a w ps' : timed_reply env q h ps ls a (h ++ w) ps' -> window_answer w = a.
Proof. intro R. destruct (treply_window _ _ _ _ _ _ _ R) as (w' & E & A). apply app_inv_head in E. rewrite E. exact A. Qed.

Lemma tsession_answers m sent h rs ls ws : timed_session env m sent h rs ls ws -> forall w0, length w0 = length sent ->
  forall h1 r t, rs = h1 ++ r :: t -> window_modem (w0 ++ ws) (sent ++ h1 ++ [r]) = m (sent ++ h1 ++ [r]).
Proof.
  assert (X : forall (sn : list req) q w0 w ws, length w0 = length sn -> window_modem (w0 ++ w :: ws) (sn ++ [q]) = window_answer w).
  { intros sn q w0 w ws0 L. unfold window_modem, window_answer. rewrite app_length. cbn [length]. rewrite app_nth2 by lia.
    replace (length sn + 1 - 1 - length w0)%nat with 0%nat by lia. reflexivity. }
  induction 1 as [sent h|sent h q rs l1 l2 w ws R S IH|sent h q l1 w ps R]; intros w0 L h0 r t E.
  - destruct h0; discriminate.
  - destruct h0 as [|q' h0].
    + injection E as <- <-. cbn [app]. rewrite X by exact L. eapply treply_window'. exact R.
    + injection E as <- E. specialize (IH (w0 ++ [w]) ltac:(rewrite !app_length; cbn; lia) h0 r t E). rewrite <- !app_assoc in IH. exact IH.
  - destruct h0 as [|q' h0]; [|destruct h0; discriminate]. injection E as <- <-. cbn [app]. rewrite X by exact L. eapply treply_window'. exact R.
Qed.
End Sessions.
(** ** Chunk independence *)
Section Independent.
Variable env : environment.
Hypothesis TI : forall t h, env t h = env 0%nat h.
Lemma dispatched_lines h a ls h' a' : dispatched env h a ls h' a' -> lines_steps (env 0%nat) h a (map snd ls) h' a'.
Proof. induction 1 as [h a|h a t l ev a1 ls h' a' LS DP IH]; cbn [map snd]; [constructor|]. rewrite TI in LS. econstructor; eassumption. Qed.
Lemma lines_steps_det h a ls h1 a1 : lines_steps (env 0%nat) h a ls h1 a1 -> forall h2 a2, lines_steps (env 0%nat) h a ls h2 a2 -> h1 = h2 /\ a1 = a2.
Proof.
  induction 1 as [h a|h a l ev a0 ls h' a' LS DP IH]; intros h2 a2 D; inversion D as [|? ? ? ev2 a3 ? ? ? LS2 DP2]; subst; [auto|].
  destruct (line_step_det _ _ _ _ _ _ _ LS LS2) as [-> ->]. auto.
Qed.
Lemma lines_steps_split : forall l1 h a l2 h' a', lines_steps (env 0%nat) h a (l1 ++ l2) h' a' -> exists h1 a1, lines_steps (env 0%nat) h a l1 h1 a1 /\ lines_steps (env 0%nat) h1 a1 l2 h' a'.
Proof.
  induction l1 as [|x l1 IH]; intros h a l2 h' a' D; [exists h, a; split; [constructor|exact D]|]. cbn [app] in D. inversion D as [|? ? l ev2 a3 ? ? ? LS2 DP2]; subst.
  destruct (IH _ _ _ _ _ DP2) as (h1 & a1 & A & B). exists h1, a1. split; [econstructor; eassumption|exact B].
Qed.
Lemma lines_steps_no_drop h a ls h' a' : lines_steps (env 0%nat) h a ls h' a' -> ~ In EvDrop h -> ~ In EvDrop h'.
Proof. induction 1 as [h a|h a l ev a0 ls h' a' LS DP IH]; [auto|]. intro N1. apply IH. rewrite in_app_iff. intros [Q|Q]; [auto|]. exact (line_step_no_drop _ _ _ _ _ LS Q). Qed.
Lemma no_step_over h a pre l rest h1 a1 h2 a2 : lines_steps (env 0%nat) h a pre h1 a1 -> rejects (env 0%nat h1) a1 l -> lines_steps (env 0%nat) h a (pre ++ l :: rest) h2 a2 -> False.
Proof.
  intros A R B. apply lines_steps_split in B. destruct B as (h3 & a3 & B1 & B2). destruct (lines_steps_det _ _ _ _ _ A _ _ B1) as [<- <-].
  inversion B2 as [|? ? ? ev2 a4 ? ? ? LS2 DP2]; subst. exact (rejects_no_step _ _ _ _ _ R LS2).
Qed.
Lemma app_cases : forall (p q : list str) x r y t, p ++ x :: r = q ++ y :: t -> (p = q /\ x = y /\ r = t) \/ (exists z, q = p ++ x :: z) \/ (exists z, p = q ++ y :: z).
Proof.
  induction p as [|a p IH]; intros q x r y t E.
  - destruct q as [|b q]; [injection E as <- <-; auto|]. injection E as <- E. right; left. exists q. reflexivity.
  - destruct q as [|b q]; [injection E as <- E; right; right; exists p; reflexivity|]. injection E as <- E.
    destruct (IH _ _ _ _ _ E) as [(-> & -> & ->)|[(z & ->)|(z & ->)]]; [auto|right; left; exists z; reflexivity|right; right; exists z; reflexivity].
Qed.
Lemma received_once cap t1 cs1 t1' h1 l1 t2 cs2 t2' h2 l2 : received cap env t1 cs1 t1' h1 l1 -> received cap env t2 cs2 t2' h2 l2 -> concat cs1 = concat cs2 ->
  before_drop h1 = before_drop h2 /\ (In EvDrop h1 <-> In EvDrop h2).
Proof.
  intros (g1 & a1 & _ & D1 & O1) (g2 & a2 & _ & D2 & O2) E. rewrite E in O1. apply dispatched_lines in D1. apply dispatched_lines in D2.
  pose proof (lines_steps_no_drop _ _ _ _ _ D1 (fun x => x)) as N1. pose proof (lines_steps_no_drop _ _ _ _ _ D2 (fun x => x)) as N2.
  destruct O1 as [[-> L1]|(k1 & x1 & r1 & y1 & L1 & R1 & ->)], O2 as [[-> L2]|(k2 & x2 & r2 & y2 & L2 & R2 & ->)].
  - rewrite <- L2 in L1. rewrite L1 in D1. destruct (lines_steps_det _ _ _ _ _ D1 _ _ D2) as [-> _]. split; [reflexivity|tauto].
  - exfalso. rewrite TI in R2. rewrite L1, L2 in D1. eapply no_step_over; [exact D2|exact R2|exact D1].
  - exfalso. rewrite TI in R1. rewrite L2, L1 in D2. eapply no_step_over; [exact D1|exact R1|exact D2].
  - rewrite TI in R1, R2. rewrite L1 in L2. destruct (app_cases _ _ _ _ _ _ L2) as [(M & -> & _)|[(z & M)|(z & M)]].
    + rewrite M in D1. destruct (lines_steps_det _ _ _ _ _ D1 _ _ D2) as [-> _]. rewrite !before_drop_app by assumption. split; [reflexivity|].
      split; intros _; apply in_or_app; right; right; left; reflexivity.
    + exfalso. rewrite M in D2. eapply no_step_over; [exact D1|exact R1|exact D2].
    + exfalso. rewrite M in D1. eapply no_step_over; [exact D2|exact R2|exact D1].
Qed.
End Independent.

(** One read with an input-buffer or data-send callback, and callbacks that always decline (C87, C88): proofs. *)
From Coq Require Import List NArith ZArith Bool Arith Lia.
From Verif Require Import Bytes AtCore Status SpecAt AtProofs AtProofs3 Pktio SpecPktio PktioLine PktioSafe SpecStream PktioStream PktioText SpecFrames PktioFrames.
Import ListNotations.

Section Hooks.
Variable cap : nat.

(** ** The first pass of a read *)
Lemma event_first fuel env t h s recv k t1 h1 s1 lft a : parked cap s lft a -> rx_dlen s = 0%nat -> room cap s -> recv_contract recv -> recv (offered cap s) <> [] ->
  handleRxDataEvent cap fuel env t h s recv = Ok (k, t1, h1, s1) ->
  exists s2 p n, holds cap s2 p n (lft ++ recv (offered cap s)) a /\ rx_dlen s2 = 0%nat /\ rx_resp s2 = rx_resp s /\ k = n /\ (0 < n)%nat /\
    handleAllReceived cap fuel env t h s2 p n None = Ok (t1, h1, s1).
Proof.
  intros PK HD RM RC NE EQ. unfold handleRxDataEvent in EQ.
  destruct (readline_step cap s recv lft a PK RM RC) as (pl & bytes & s0 & ER & D0 & R0 & Q). rewrite ER in EQ. cbn [bind] in EQ. rewrite HD in D0.
  destruct Q as [(-> & BE & P0)|(p & -> & BP & H0)]; [contradiction|].
  replace (0 <? bytes)%nat with true in EQ by (symmetry; apply Nat.ltb_lt; lia). rewrite D0 in EQ. cbn [Nat.eqb negb bind] in EQ.
  replace (0 <? bytes)%nat with true in EQ by (symmetry; apply Nat.ltb_lt; lia).
  destruct H0 as (B2 & L2 & S2 & I2). pose proof B2 as [BL _]. rewrite st_ok in EQ by lia. cbn [bind] in EQ.
  destruct (handleAllReceived cap fuel env t h _ p bytes None) as [[[t' h'] s']| |] eqn:EL; cbn [bind] in EQ; [|discriminate|discriminate].
  inversion EQ; subst. eexists _, p, k. split; [|split; [|split; [|split; [|split; [|exact EL]]]]]; [|exact D0|exact R0|reflexivity|lia].
  split; [cbn; apply buf_st; exact B2|]. split; [exact L2|]. cbn. split; [rewrite slice_upd by lia; exact S2|].
  eapply (items_agree cap); [exact I2| |apply le_n]. eapply agree_le; [apply agree_upd|lia].
Qed.

Lemma drop_split lft E S0 : lft = E ++ S0 -> Forall eol E -> (S0 = [] \/ exists c t, S0 = c :: t /\ ~ eol c) -> drop_eol lft = S0.
Proof.
  intros -> FE HS. induction FE as [|e E EE FE IH]; cbn [app drop_eol].
  - destruct HS as [->|(c & t & -> & NE)]; [reflexivity|]. cbn [drop_eol]. rewrite (proj2 (is_eol_false _) NE). reflexivity.
  - rewrite (proj2 (is_eol_iff _) EE). exact IH.
Qed.

(** What the part of a pass behind the callbacks does with a complete (possibly empty) line. *)
Lemma tail_first v s line n sod l e rest a : tables_ok (v_tokens v) -> prefix_usable (v_prefix v) -> v_cmd2 v = v_cmd v -> v_handler v = true ->
  length (rx_buf s) = S cap -> (line + n <= S cap)%nat -> firstn n (skipn line (rx_buf s)) = l ++ e :: rest -> line_text l -> eol e ->
  buf_ok cap (upd (rx_buf s) (line + length l) 0%N) -> items_rel (rx_buf s) line (rx_resp s) a -> rx_dlen s = 0%nat ->
  forall ev out sod', tail cap v s line n sod = Ok (ev, out, sod') ->
  rejects v a l /\ ev = [EvUndef l; EvDrop] /\ (exists s', out = Stop s') \/ exists a', line_step v a l ev a'.
Proof.
  intros VT VP VC VH BL LN SL LT EE BM HI HD ev out sod' EQ. unfold tail in EQ.
  destruct (find_eol_text (rx_buf s) line n l e rest SL ltac:(lia) LT EE) as [FE FT]. rewrite FE in EQ. cbn [bind] in EQ.
  destruct (find_some_split (rx_buf s) line n (length l) ltac:(lia) FE) as (l' & e' & SP' & LT' & EE' & LI & IN & CS).
  rewrite SL in SP'. destruct (text_unique _ _ _ _ _ _ LT LT' EE EE' SP') as (<- & <- & _).
  rewrite st_ok in EQ by lia. cbn [bind] in EQ. rewrite CS in EQ. cbn [bind] in EQ.
  set (m := upd (rx_buf s) (line + length l) 0%N) in *. set (s3 := set_buf s m) in *.
  assert (HI3 : items_rel (rx_buf s3) line (rx_resp s3) a).
  { eapply (items_agree cap); [exact HI| |apply le_n]. eapply agree_le; [apply agree_upd|lia]. }
  destruct (handleMsgType_step cap v s3 line l a VT VP VC VH BM ltac:(lia) CS HI3) as (st & mt' & ev1 & s4 & E4 & HM). rewrite E4 in EQ. cbn [bind] in EQ.
  destruct HM as [(-> & -> & DR & FR)|(a' & LSP & EB & D4 & IR & HM)].
  { injection EQ as <- <- _. left. eauto. }
  right. exists a'. replace ev with ev1; [exact LSP|]. change (rx_dlen s3) with (rx_dlen s) in D4. rewrite HD in D4.
  destruct HM as [(-> & _)|[-> | -> ]]; [| |rewrite D4 in EQ; cbn [Nat.eqb negb] in EQ].
  all: destruct (getNextLine s4 line n (length l) _ mt') as [x| |]; cbn [bind] in EQ; try discriminate; injection EQ as <- _ _; reflexivity.
Qed.

(** ** Environments that agree pass by pass give the same session *)
Definition same_passes (env1 env2 : environment) : Prop := forall t h s line n sod, lw cap s -> span cap line n -> pass cap (env1 t h) s line n sod = pass cap (env2 t h) s line n sod.
Definition safe_env (env : environment) : Prop := forall t h, view_contract (env t h) /\ announcements_expected (env t h).
Lemma loop_same env1 env2 : safe_env env1 -> same_passes env1 env2 -> forall fuel t h s line n sod, lw cap s -> span cap line n ->
  handleAllReceived cap fuel env1 t h s line n sod = handleAllReceived cap fuel env2 t h s line n sod.
Proof.
  intros SE SP. induction fuel as [|fuel IH]; intros t h s line n sod LW SN; [reflexivity|]. cbn [handleAllReceived]. rewrite <- (SP t h s line n sod LW SN).
  destruct (pass_safe cap (env1 t h) s line n sod (proj1 (SE t h)) (proj2 (SE t h)) LW SN) as (ev & out & sod' & -> & O). cbn [bind].
  destruct out as [s'|s' l' n']; [reflexivity|]. destruct O as (A & B & _). apply IH; assumption.
Qed.
Lemma event_same env1 env2 : safe_env env1 -> same_passes env1 env2 -> forall fuel t h s recv, wf cap s -> recv_contract recv ->
  handleRxDataEvent cap fuel env1 t h s recv = handleRxDataEvent cap fuel env2 t h s recv.
Proof.
  intros SE SP fuel t h s recv W RC. unfold handleRxDataEvent. pose proof W as (B & SN & R & D).
  destruct (readline_safe cap s recv W RC) as (pl & bytes & s1 & -> & B1 & R1 & RE & DE & [[-> W1]|(p & -> & PB & PP)]); cbn [bind]; [reflexivity|].
  replace (0 <? bytes)%nat with true by (symmetry; apply Nat.ltb_lt; lia).
  assert (LOOP : forall s2 l2 n2, buf_ok cap (rx_buf s2) -> resp_ok cap (rx_resp s2) -> rx_dlen s2 = 0%nat -> (l2 + n2 <= cap)%nat -> (0 < n2)%nat ->
     (do m <- st (rx_buf s2) (l2 + n2) 0%N; do q <- handleAllReceived cap fuel env1 t h (set_buf s2 m) l2 n2 None; let '(t', h', s3) := q in Ok (bytes, t', h', s3)) =
     (do m <- st (rx_buf s2) (l2 + n2) 0%N; do q <- handleAllReceived cap fuel env2 t h (set_buf s2 m) l2 n2 None; let '(t', h', s3) := q in Ok (bytes, t', h', s3))).
  { intros s2 l2 n2 B2 R2 D2 L2 N2. pose proof B2 as [BL _]. rewrite st_ok by lia. cbn [bind]. rewrite (loop_same env1 env2 SE SP); [reflexivity| |left; exact L2].
    split; [apply buf_st; exact B2|split; [exact R2|exact D2]]. }
  destruct (rx_dlen s1 =? 0)%nat eqn:ED; cbn [negb].
  - apply Nat.eqb_eq in ED. cbn [bind]. replace (0 <? bytes)%nat with true by (symmetry; apply Nat.ltb_lt; lia).
    apply LOOP; [exact B1|exact R1|exact ED|exact PB|exact PP].
  - apply Nat.eqb_neq in ED. destruct (rx_resp s1) as [r|] eqn:ER; [|rewrite <- RE in D; rewrite DE in ED; exfalso; exact (D ED eq_refl)].
    unfold handleData. rewrite Nat.ltb_irrefl. replace (p + bytes <? p)%nat with false by (symmetry; apply Nat.ltb_ge; lia). cbn [orb].
    rewrite Nat.sub_diag, Nat.sub_0_r, ER. destruct (rx_dlen s1 <=? bytes)%nat eqn:EA; cbn [bind]; [|reflexivity].
    apply Nat.leb_le in EA.
    assert (RO : resp_ok cap (Some (saveRawData r p (rx_dlen s1)))).
    { apply forall_snoc; [exact R1|]. split; cbn; lia. }
    destruct (0 <? bytes - rx_dlen s1)%nat eqn:EZ; [|reflexivity].
    apply Nat.ltb_lt in EZ. apply LOOP; [exact B1|exact RO|reflexivity|lia|exact EZ].
Qed.
Lemma reader_same env1 env2 fuel : safe_env env1 -> same_passes env1 env2 -> (cap < fuel)%nat -> forall inp t h s, wf cap s -> Forall recv_contract inp ->
  reader cap fuel env1 t h s inp = reader cap fuel env2 t h s inp.
Proof.
  intros SE SP F. induction inp as [|r inp IH]; intros t h s W C; cbn [reader]; [reflexivity|]. inversion C; subst.
  rewrite <- (event_same env1 env2 SE SP fuel t h s r W H1). destruct (event_safe cap env1 fuel t h s r SE W H1 F) as (k & t' & h' & s' & -> & W'). cbn [bind]. apply IH; assumption.
Qed.

Lemma skip_span s line n : lw cap s -> span cap line n -> exists l1 n1, skip_eol (rx_buf s) line n = Ok (l1, n1) /\ span cap l1 n1 /\ (l1 + n1 <= length (rx_buf s))%nat.
Proof.
  intros ((BL & _) & _) SN. destruct (skip_eol_spec (rx_buf s) n line) as (l1 & n1 & -> & E1 & G1); [destruct SN as [S|[S ->]]; lia|].
  exists l1, n1. split; [reflexivity|]. destruct SN as [S|[S ->]]; (split; [first [left; lia|right; lia]|lia]).
Qed.
Lemma inbuf_same v f s line n sod : (forall bs, declines f bs) -> lw cap s -> span cap line n ->
  pass cap (with_inbuf (Some f) v) s line n sod = pass cap (with_inbuf None v) s line n sod.
Proof.
  intros DC LW SN. rewrite !pass_tail. destruct (skip_span s line n LW SN) as (l1 & n1 & -> & SP1 & LE). cbn [bind]. unfold preprocessInputBuffer. cbn [with_inbuf v_inbuf].
  rewrite rd_ok by exact LE. cbn [bind]. destruct (DC (firstn n1 (skipn l1 (rx_buf s)))) as (k & ->). rewrite wr_id by exact LE. cbn [bind]. cbv zeta. rewrite set_buf_id. cbn [handleCallbackResult bind].
  reflexivity.
Qed.
Lemma send_same v f s line n sod : (forall bs, f bs = (PKT_PREFIX_MISMATCH, bs)) -> v_inbuf v = None -> v_data v = None -> lw cap s -> span cap line n ->
  pass cap (with_send (Some f) v) s line n sod = pass cap (with_send None v) s line n sod.
Proof.
  intros DC VI VD LW SN. rewrite !pass_tail. destruct (skip_span s line n LW SN) as (l1 & n1 & -> & SP1 & LE). cbn [bind].
  unfold preprocessInputBuffer. cbn [with_send v_inbuf]. rewrite VI. cbn [bind]. unfold preprocessLine. destruct (n1 =? 0)%nat; [reflexivity|]. cbn [with_send v_send v_data]. rewrite VD.
  rewrite rd_ok by exact LE. cbn [bind]. rewrite DC, wr_id by exact LE. cbn [bind]. cbv zeta. rewrite set_buf_id. cbn [handleCallbackResult bind].
  rewrite firstn_length, skipn_length, Nat.min_l by lia. reflexivity.
Qed.
End Hooks.

(** Proofs: the reader in a changing environment, payloads included. *)
From Coq Require Import List NArith ZArith Bool Arith Lia.
From Verif Require Import Bytes AtCore Status SpecAt AtProofs AtProofs3 Pktio SpecPktio PktioLine PktioSafe SpecStream PktioStream G3pp Wire SpecWire SpecTimed PktioTimed SpecData.
Import ListNotations.

Section Data.
Variables (cap : nat) (env : environment).
Hypothesis HE : changing_env env.

Lemma tsteps_le t x t' y : timed_steps env t x t' y -> (t <= t')%nat.
Proof. induction 1; lia. Qed.
Lemma tsteps_early t0 t x t' y : (t0 <= t)%nat -> timed_steps env t x t' y -> timed_steps env t0 x t' y.
Proof. intros L H. destruct H; [apply tms_nil; lia|eapply tms_cons; [|eassumption..]; lia]. Qed.
Lemma tsteps_trans t x k y t' z : timed_steps env t x k y -> timed_steps env k y t' z -> timed_steps env t x t' z.
Proof.
  induction 1 as [t x k L|t j x y k z' L S R IH]; intro Q; [eapply tsteps_early; eassumption|].
  eapply tms_cons; [exact L|exact S|]. apply IH. exact Q.
Qed.
Lemma tsteps_at t x y : stream_steps (env t) x y -> timed_steps env t x t y.
Proof. induction 1; [apply tms_nil; lia|]. eapply tms_cons; [apply le_n|eassumption|assumption]. Qed.
Lemma tsteps_later t x t' t2 y : timed_steps env t x t' y -> (t' <= t2)%nat -> timed_steps env t x t2 y.
Proof. induction 1; intro Q; [apply tms_nil; lia|]. eapply tms_cons; [eassumption..|]. auto. Qed.

(** Up to the end of the input or the first refusal. *)
Definition data_outcome (t t' : nat) (x : stream_state) (h' : list event) (s' : rx) : Prop :=
  (exists k a' lft', (t <= k)%nat /\ (k <= t')%nat /\ timed_steps env t x k (h', a', rx_dlen s', lft') /\ settled (env k h') (rx_dlen s') lft' /\ parked cap s' lft' a') \/
  (exists k h0 a0 l e rest, (k < t')%nat /\ timed_steps env t x k (h0, a0, 0%nat, l ++ e :: rest) /\ l <> [] /\ line_text l /\ eol e /\
     rejects (env k h0) a0 l /\ not_data (env k h0) (l ++ e :: rest) /\ fresh cap s' /\ h' = h0 ++ [EvUndef l; EvDrop]).
Lemma outcome_before t k t' x y h' s' : timed_steps env t x k y -> data_outcome k t' y h' s' -> data_outcome t t' x h' s'.
Proof.
  intros S [(j & a' & lft' & L1 & L2 & R & Q)|(j & h0 & a0 & l & e & rest & L & R & Q)]; [left|right].
  - exists j, a', lft'. pose proof (tsteps_le _ _ _ _ S). split; [lia|]. split; [exact L2|]. split; [eapply tsteps_trans; eassumption|exact Q].
  - exists j, h0, a0, l, e, rest. split; [exact L|]. split; [eapply tsteps_trans; eassumption|exact Q].
Qed.

Lemma loop_data fuel : forall t h s line n sod t' h' s' lft a, holds cap s line n lft a -> rx_dlen s = 0%nat ->
  handleAllReceived cap fuel env t h s line n sod = Ok (t', h', s') -> data_outcome t t' (h, a, 0%nat, lft) h' s'.
Proof.
  induction fuel as [|fuel IH]; intros t h s line n sod t' h' s' lft a HH HD E; [discriminate|]. cbn [handleAllReceived] in E.
  destruct (pass_step cap (fun _ => env t) 0 h s line n sod lft a (HE t) HH HD) as (ev & out & sod' & EP & R). cbn beta in EP, R. rewrite EP in E. cbn [bind] in E.
  destruct out as [s1|s1 l1 n1].
  - injection E as <- <- <-. destruct R as [((s2 & Q & FR) & R)|(a' & lft' & P & ST & SS)].
    + inversion Q; subst. destruct (R []) as (h0 & a0 & l & e & S & A1 & A2 & A3 & A4 & A5 & A6 & A7). rewrite app_nil_r in A7.
      right. exists t, h0, a0, l, e, S. split; [lia|]. split; [apply tsteps_at; exact A7|]. auto 10.
    + left. exists t, a', lft'. split; [lia|]. split; [lia|]. specialize (SS []). rewrite !app_nil_r in SS. split; [apply tsteps_at; exact SS|]. auto.
  - destruct R as [((s2 & Q & FR) & R)|(_ & D1 & a1 & lft1 & H1 & S1)]; [discriminate|].
    specialize (S1 []). rewrite !app_nil_r in S1. eapply outcome_before; [|eapply IH; [exact H1|exact D1|exact E]].
    eapply tsteps_later; [apply tsteps_at; exact S1|lia].
Qed.

Lemma event_data fuel t h s recv k t1 h1 s1 lft a : parked cap s lft a -> room cap s -> recv_contract recv ->
  handleRxDataEvent cap fuel env t h s recv = Ok (k, t1, h1, s1) ->
  (recv (offered cap s) = [] /\ h1 = h /\ t1 = t /\ rx_dlen s1 = rx_dlen s /\ parked cap s1 lft a) \/
  (recv (offered cap s) <> [] /\ data_outcome t t1 (h, a, rx_dlen s, lft ++ recv (offered cap s)) h1 s1).
Proof.
  intros PK RM RC E. unfold handleRxDataEvent in E.
  destruct (readline_step cap s recv lft a PK RM RC) as (pl & bytes & s0 & ER & D0 & R0 & Q). rewrite ER in E. cbn [bind] in E.
  destruct Q as [(-> & BE & P0)|(p & -> & BP & H0)].
  { cbn [Nat.ltb Nat.leb] in E. injection E as <- <- <- <-. left. rewrite BE. auto. }
  replace (0 <? bytes)%nat with true in E by (symmetry; apply Nat.ltb_lt; lia).
  set (bs := recv (offered cap s)) in *.
  destruct (list_eq_dec N.eq_dec bs []) as [BN|BN].
  { exfalso. destruct PK as (HB & HL & HS & HI & HD). rewrite BN, app_nil_r in H0.
    unfold ReadLine in ER. fold (compacts s) in ER. unfold offered in *. 
    destruct (if compacts s then _ else Ok s) as [s00| |] eqn:EC; cbn [bind] in ER; [|discriminate|discriminate].
    assert (PP : rx_partial s00 = rx_partial s).
    { destruct (compacts s); [|injection EC as <-; reflexivity]. destruct (rd _ _ _) as [x| |]; cbn [bind] in EC; [|discriminate|discriminate].
      destruct (wr _ _ _) as [m0| |]; cbn [bind] in EC; [|discriminate|discriminate]. destruct (st _ _ _) as [m1| |]; cbn [bind] in EC; [|discriminate|discriminate].
      injection EC as <-. reflexivity. }
    rewrite PP in ER.
    destruct (0 <? _)%nat; [|inversion ER; subst; lia].
    destruct (wr _ _ _) as [m| |]; cbn [bind] in ER; [|discriminate|discriminate].
    match type of ER with (if ?b then _ else _) = _ => destruct b eqn:EB end.
    - apply Nat.ltb_lt in EB. unfold bs in BN. 
      match type of EB with (0 < length ?q)%nat => assert (q = []) as Z end; [|rewrite Z in EB; cbn in EB; lia]. exact BN.
    - inversion ER; subst; lia. }
  right. split; [exact BN|].
  assert (HALL : forall s2 l2 n2 lft2 a2, holds cap s2 l2 n2 lft2 a2 -> rx_dlen s2 = 0%nat ->
     (do m <- st (rx_buf s2) (l2 + n2) 0%N; do q <- handleAllReceived cap fuel env t h (set_buf s2 m) l2 n2 None; let '(t', h', s3) := q in Ok (bytes, t', h', s3)) = Ok (k, t1, h1, s1) ->
     data_outcome t t1 (h, a2, 0%nat, lft2) h1 s1).
  { intros s2 l2 n2 lft2 a2 (B2 & L2 & S2 & I2) D2 EQ. pose proof B2 as [BL _]. rewrite st_ok in EQ by lia. cbn [bind] in EQ.
    destruct (handleAllReceived cap fuel env t h _ l2 n2 None) as [[[t' h'] s']| |] eqn:EL; cbn [bind] in EQ; [|discriminate|discriminate].
    injection EQ as <- <- <- <-. refine (loop_data _ _ _ _ _ _ _ _ _ _ _ _ _ (_ : rx_dlen (set_buf s2 _) = 0%nat) EL); [|exact D2].
    split; [cbn; apply buf_st; exact B2|]. split; [exact L2|]. cbn. split; [rewrite slice_upd by lia; exact S2|].
    eapply (items_agree cap); [exact I2| |apply le_n]. eapply agree_le; [apply agree_upd|lia]. }
  destruct (rx_dlen s0 =? 0)%nat eqn:ED; cbn [negb bind] in E.
  - apply Nat.eqb_eq in ED. replace (0 <? bytes)%nat with true in E by (symmetry; apply Nat.ltb_lt; lia).
    rewrite <- D0, ED. exact (HALL _ _ _ _ _ H0 ED E).
  - apply Nat.eqb_neq in ED. pose proof (holds_len _ _ _ _ _ _ H0) as LEN. destruct H0 as (B0 & L0 & S0 & I0).
    unfold handleData in E. rewrite Nat.ltb_irrefl in E. replace (p + bytes <? p)%nat with false in E by (symmetry; apply Nat.ltb_ge; lia). cbn [orb] in E.
    rewrite Nat.sub_diag, Nat.sub_0_r in E. destruct PK as (_ & _ & _ & _ & PD).
    destruct (rx_resp s0) as [r|] eqn:ER0; [|exfalso; apply PD; congruence].
    destruct (rx_dlen s0 <=? bytes)%nat eqn:EA; cbn [bind] in E.
    + apply Nat.leb_le in EA. set (d := rx_dlen s0) in *. set (pl := firstn d (lft ++ bs)).
      assert (LPL : length pl = d) by (unfold pl; rewrite firstn_length; lia).
      assert (PAY : timed_steps env t (h, a, d, lft ++ bs) t (h, a ++ [pl], 0%nat, skipn d (lft ++ bs))).
      { eapply tms_cons; [apply le_n| |apply tms_nil, le_n]. rewrite <- (firstn_skipn d (lft ++ bs)) at 1. fold pl. rewrite <- LPL at 1.
        apply ss_payload. intro Q. rewrite Q in LPL. cbn [length] in LPL. lia. }
      assert (PM : firstn d (skipn p (rx_buf s0)) = pl) by (unfold pl; rewrite <- S0, firstn_firstn; f_equal; lia).
      assert (RST : firstn (bytes - d) (skipn (p + d) (rx_buf s0)) = skipn d (lft ++ bs)).
      { rewrite <- (skipn_skipn' (rx_buf s0) d p), <- S0, skipn_firstn_comm. reflexivity. }
      assert (FR2 : Forall2 (content_at (rx_buf s0) (p + d)) (r_items (saveRawData r p d)) (a ++ [pl])).
      { apply Forall2_app; [eapply (content_mono cap); [exact I0|lia]|constructor; [|constructor]]. unfold content_at. cbn [it_raw it_ptr].
        split; [symmetry; exact LPL|]. split; [exact PM|lia]. }
      destruct (0 <? bytes - d)%nat eqn:EZ.
      * apply Nat.ltb_lt in EZ. 
        assert (HX : forall s2, s2 = set_left (set_dlen (set_resp s0 (Some (saveRawData r p d))) 0) (Some (p + d)%nat) (bytes - d) -> holds cap s2 (p + d) (bytes - d) (skipn d (lft ++ bs)) (a ++ [pl])).
        { intros s2 ->. split; [exact B0|]. split; [lia|]. split; [exact RST|exact FR2]. }
        rewrite <- D0. eapply outcome_before; [exact PAY|]. exact (HALL _ _ _ _ _ (HX _ eq_refl) eq_refl E).
      * apply Nat.ltb_ge in EZ. injection E as <- <- <- <-. left. exists t, (a ++ [pl]), (skipn d (lft ++ bs)).
        split; [lia|]. split; [lia|]. split; [rewrite <- D0; exact PAY|]. split.
        -- right. split; [reflexivity|]. left. apply skipn_all2. lia.
        -- split; [exact B0|]. split; [cbn; lia|]. split; [exact RST|]. split; [exact FR2|]. cbn; congruence.
    + apply Nat.leb_gt in EA. cbn [Nat.ltb Nat.leb] in E. injection E as <- <- <- <-. left. exists t, a, (lft ++ bs).
      split; [lia|]. split; [lia|]. split; [cbn; rewrite <- D0; apply tms_nil, le_n|]. split.
      * left. cbn. split; [exact ED|]. lia.
      * split; [exact B0|]. split; [cbn; lia|]. split; [exact S0|]. split; [cbn; rewrite ER0; exact I0|]. cbn. congruence.
Qed.

Lemma parked_length s lft a : parked cap s lft a -> length lft = rx_partial s.
Proof. intros (HB & HL & HS & _). rewrite <- HS, firstn_length, skipn_length. destruct HB as [BL _]. lia. Qed.

Lemma execution_data fuel t h s cs t' h' s' : execution cap fuel env t h s cs t' h' s' -> forall lft a, parked cap s lft a ->
  data_processed cap env t h a (rx_dlen s) (keep cap lft) cs t' h'.
Proof.
  induction 1 as [t h s|t h s recv k t1 h1 s1 cs t2 h2 s2 RC RM EV RUN IH]; intros lft a PK.
  - apply dtp_nil. lia.
  - destruct (Nat.eq_dec (offered cap s) 0) as [OF|OF].
    + destruct RM as [RM|RN]; [contradiction|]. destruct (readline_full cap s recv lft a PK OF RN) as (pl & s0 & ER & P0 & D0 & TR & ->).
      unfold handleRxDataEvent in EV. rewrite ER in EV. cbn [bind Nat.ltb Nat.leb] in EV. injection EV as <- <- <- <-.
      assert (RE : recv (offered cap s) = []) by (pose proof (RC (offered cap s)) as RL; rewrite OF in *; destruct (recv 0%nat); [reflexivity|cbn [length] in RL; lia]).
      rewrite RE. change (keep cap lft) with (trim cap lft). rewrite TR. eapply dtp_empty; [apply le_n|]. rewrite <- D0.
      specialize (IH [] [] P0). unfold keep in IH. destruct (length [] =? cap)%nat; exact IH.
    + assert (KP : keep cap lft = lft).
      { unfold keep. destruct (Nat.eqb_spec (length lft) cap) as [Q|Q]; [|reflexivity]. pose proof (parked_length _ _ _ PK). unfold offered in OF. lia. }
      destruct (event_data fuel t h s recv k t1 h1 s1 lft a PK (or_introl OF) RC EV) as [(RE & -> & -> & D1 & P1)|(RE & [(j & a' & lft' & L1 & L2 & SS & ST & P1)|(j & h0 & a0 & l & e & rest & L & SS & LN & LT & EE & RJ & ND & FR & ->)])].
      * rewrite RE. eapply dtp_empty; [apply le_n|]. rewrite <- D1. apply IH. exact P1.
      * rewrite KP. eapply dtp_chunk; [exact L1|exact L2|exact RE|exact SS|exact ST|]. apply IH. exact P1.
      * rewrite KP. eapply dtp_refused; [exact L|exact SS|exact LN|exact LT|exact EE|exact RJ|exact ND|].
        specialize (IH [] [] (fresh_parked cap _ FR)). destruct FR as (_ & _ & _ & FD & _). rewrite FD in IH. unfold keep in IH. destruct (length [] =? cap)%nat; exact IH.
Qed.

(** ** Payload mode *)
Lemma payload_step e h a d S y : stream_step e (h, a, d, S) y -> d <> 0%nat -> exists p S', S = p ++ S' /\ length p = d /\ y = (h, a ++ [p], 0%nat, S').
Proof. intros H D. inversion H; subst; try (exfalso; apply D; reflexivity). eexists _, _. split; [reflexivity|]. split; reflexivity. Qed.
Lemma nothing_left e h a y : ~ stream_step e (h, a, 0%nat, []) y.
Proof.
  intro H. remember (h, a, 0%nat, @nil N) as x eqn:E. destruct H; inversion E.
  - destruct l; discriminate.
  - destruct l; discriminate.
  - match goal with NE : ?q <> [], H : ?q ++ _ = [] |- _ => apply NE; apply app_eq_nil in H; apply H end.
Qed.
Lemma payload_steps t h a d S k y : timed_steps env t (h, a, d, S) k y -> d <> 0%nat ->
  (y = (h, a, d, S)) \/ exists p S' j, (t <= j)%nat /\ S = p ++ S' /\ length p = d /\ timed_steps env j (h, a ++ [p], 0%nat, S') k y.
Proof.
  intros H D. inversion H as [|t0 j x y0 k0 z L ST R]; subst; [left; reflexivity|]. right.
  destruct (payload_step _ _ _ _ _ _ ST D) as (p & S' & -> & LP & ->). exists p, S', j. auto.
Qed.

Lemma execution_payload fuel t h s cs t' h' s' : execution cap fuel env t h s cs t' h' s' -> forall lft a, parked cap s lft a ->
  rx_dlen s <> 0%nat -> (length lft < rx_dlen s)%nat ->
  ((length (lft ++ concat cs) < rx_dlen s)%nat /\ h' = h) \/
  exists cs1 c1 c2 cs2 k, (t <= k)%nat /\ cs = cs1 ++ (c1 ++ c2) :: cs2 /\ length (lft ++ concat cs1 ++ c1) = rx_dlen s /\
    data_processed cap env k h (a ++ [lft ++ concat cs1 ++ c1]) 0%nat [] (c2 :: cs2) t' h'.
Proof.
  induction 1 as [t h s|t h s recv k t1 h1 s1 cs t2 h2 s2 RC RM EV RUN IH]; intros lft a PK DN LL.
  - left. cbn. rewrite app_nil_r. auto.
  - pose proof PK as (_ & _ & _ & _ & PD). specialize (PD DN).
    assert (OF : offered cap s <> 0%nat) by (destruct RM as [RM|RM]; [exact RM|contradiction]).
    destruct (event_data fuel t h s recv k t1 h1 s1 lft a PK (or_introl OF) RC EV) as [(RE & -> & -> & D1 & P1)|(RE & OUT)].
    { rewrite RE. destruct (IH lft a P1) as [[A B]|(cs1 & c1 & c2 & cs2 & j & L & E & LN & DP)]; [congruence|lia| |].
      - left. cbn. rewrite <- D1. auto.
      - right. exists ([] :: cs1), c1, c2, cs2, j. split; [exact L|]. split; [cbn; rewrite E; reflexivity|]. cbn. rewrite <- D1. auto. }
    set (bs := recv (offered cap s)) in *.
    assert (SW : (exists k2 a' lft', (t <= k2)%nat /\ (k2 <= t1)%nat /\ timed_steps env t (h, a, rx_dlen s, lft ++ bs) k2 (h1, a', rx_dlen s1, lft') /\ settled (env k2 h1) (rx_dlen s1) lft' /\ parked cap s1 lft' a' /\ h1 = h /\ a' = a /\ rx_dlen s1 = rx_dlen s /\ lft' = lft ++ bs /\ (length (lft ++ bs) < rx_dlen s)%nat) \/
                 (exists p S' j, (t <= j)%nat /\ lft ++ bs = p ++ S' /\ length p = rx_dlen s /\ data_outcome j t1 (h, a ++ [p], 0%nat, S') h1 s1)).
    { destruct OUT as [(k2 & a' & lft' & L1 & L2 & SS & ST & P1)|(k2 & h0 & a0 & l & e & rest & L & SS & Q)].
      - destruct (payload_steps _ _ _ _ _ _ _ SS DN) as [E|(p & S' & j & LJ & E & LP & R)].
        + injection E as E1 E2 E3 E4. left. exists k2, a', lft'. split; [exact L1|]. split; [exact L2|]. split; [exact SS|]. split; [exact ST|]. split; [exact P1|].
          split; [exact E1|]. split; [exact E2|]. split; [exact E3|]. split; [exact E4|]. destruct ST as [[_ X]|[X _]]; [congruence|congruence].
        + right. exists p, S', j. split; [exact LJ|]. split; [exact E|]. split; [exact LP|]. left. exists k2, a', lft'. pose proof (tsteps_le _ _ _ _ R). auto 8.
      - destruct (payload_steps _ _ _ _ _ _ _ SS DN) as [E|(p & S' & j & LJ & E & LP & R)]; [congruence|].
        right. exists p, S', j. split; [exact LJ|]. split; [exact E|]. split; [exact LP|]. right. exists k2, h0, a0, l, e, rest. auto 8. }
    destruct SW as [(k2 & a' & lft' & L1 & L2 & SS & ST & P1 & -> & -> & D1 & -> & SH)|(p & S' & j & LJ & E & LP & OUT')].
    + destruct (IH _ _ P1) as [[A B]|(cs1 & c1 & c2 & cs2 & i & L & E & LN & DP)]; [congruence|lia| |].
      * left. cbn. rewrite <- D1, app_assoc. auto.
      * right. exists (bs :: cs1), c1, c2, cs2, i. split; [lia|]. split; [cbn; rewrite E; reflexivity|]. cbn [concat]. rewrite <- D1. rewrite <- app_assoc in LN, DP |- *. auto.
    + right.
      assert (SPL : exists c1, p = lft ++ c1 /\ bs = c1 ++ S').
      { exists (skipn (length lft) p). assert (F : firstn (length lft) p = lft).
        { assert (X : firstn (length lft) (lft ++ bs) = firstn (length lft) (p ++ S')) by (rewrite E; reflexivity).
          rewrite firstn_app, Nat.sub_diag, firstn_all in X. cbn [firstn] in X. rewrite app_nil_r in X. rewrite firstn_app in X.
          replace (length lft - length p)%nat with 0%nat in X by lia. cbn [firstn] in X. rewrite app_nil_r in X. symmetry. exact X. }
        assert (P : p = lft ++ skipn (length lft) p) by (rewrite <- F at 1; symmetry; apply firstn_skipn).
        split; [exact P|]. rewrite P, <- app_assoc in E. apply app_inv_head in E. exact E. }
      destruct SPL as (c1 & -> & EB). exists [], c1, S', cs, j. split; [exact LJ|]. split; [cbn; rewrite EB; reflexivity|]. cbn [concat app].
      split; [exact LP|].
      destruct OUT' as [(k2 & a' & lft' & L1 & L2 & SS & ST & P1)|(k2 & h0 & a0 & l & e & rest & L & SS & LN & LT & EE & RJ & ND & FR & ->)].
      * destruct S' as [|c0 S'].
        -- inversion SS as [|t0 jj x y0 k0 z LL0 ST0 R0]; subst.
           ++ eapply dtp_empty with (t1 := t1); [lia|]. pose proof (execution_data fuel _ _ _ _ _ _ _ RUN _ _ P1) as X. unfold keep in X. destruct (length [] =? cap)%nat; match goal with Q : 0%nat = rx_dlen s1 |- _ => rewrite <- Q in X | Q : rx_dlen s1 = 0%nat |- _ => rewrite Q in X | _ => idtac end; exact X.
           ++ exfalso. exact (nothing_left _ _ _ _ ST0).
        -- eapply dtp_chunk; [exact L1|exact L2|discriminate|exact SS|exact ST|]. eapply execution_data; [exact RUN|exact P1].
      * destruct S' as [|c0 S'].
        -- exfalso. inversion SS as [|t0 jj x y0 k0 z LL0 ST0 R0]; subst.
           ++ destruct l; discriminate.
           ++ exact (nothing_left _ _ _ _ ST0).
        -- eapply dtp_refused; [exact L|exact SS|exact LN|exact LT|exact EE|exact RJ|exact ND|].
           pose proof (execution_data fuel _ _ _ _ _ _ _ RUN _ _ (fresh_parked cap _ FR)) as X. destruct FR as (_ & _ & _ & FD & _). rewrite FD in X. unfold keep in X. destruct (length [] =? cap)%nat; exact X.
Qed.

(** ** What is unfinished are the last bytes received *)
Lemma step_suffix e x y : stream_step e x y -> exists u, snd x = u ++ snd y.
Proof.
  intro H. inversion H; subst; cbn [snd].
  - exists [c]. reflexivity.
  - exists (l ++ [e0]). rewrite <- app_assoc. reflexivity.
  - exists (firstn o (l ++ e0 :: S)). symmetry. apply firstn_skipn.
  - exists p. reflexivity.
Qed.
Lemma steps_suffix t x k y : timed_steps env t x k y -> exists u, snd x = u ++ snd y.
Proof.
  induction 1 as [|t k x y t' z L ST R (u & E)]; [exists []; reflexivity|]. apply step_suffix in ST. destruct ST as (w & ->). exists (w ++ u). rewrite E. apply app_assoc.
Qed.
Lemma execution_unfinished fuel t h s cs t' h' s' : execution cap fuel env t h s cs t' h' s' -> forall lft a, parked cap s lft a -> (rx_dlen s <> 0%nat -> (length lft < rx_dlen s)%nat) ->
  exists lft' a' u, parked cap s' lft' a' /\ lft ++ concat cs = u ++ lft' /\ (rx_dlen s' <> 0%nat -> (length lft' < rx_dlen s')%nat).
Proof.
  induction 1 as [t h s|t h s recv k t1 h1 s1 cs t2 h2 s2 RC RM EV RUN IH]; intros lft a PK DL.
  - exists lft, a, []. cbn. rewrite app_nil_r. auto.
  - assert (ONE : exists lft1 a1 u, parked cap s1 lft1 a1 /\ lft ++ recv (offered cap s) = u ++ lft1 /\ (rx_dlen s1 <> 0%nat -> (length lft1 < rx_dlen s1)%nat)).
    { destruct (Nat.eq_dec (offered cap s) 0) as [OF|OF].
      - destruct RM as [RM|RN]; [contradiction|]. destruct (readline_full cap s recv lft a PK OF RN) as (pl & s0 & ER & P0 & D0 & TR & ->).
        unfold handleRxDataEvent in EV. rewrite ER in EV. cbn [bind Nat.ltb Nat.leb] in EV. injection EV as <- <- <- <-.
        exists [], [], (lft ++ recv (offered cap s)). split; [exact P0|]. split; [rewrite app_nil_r; reflexivity|]. rewrite D0. cbn. lia.
      - destruct (event_data fuel t h s recv k t1 h1 s1 lft a PK (or_introl OF) RC EV) as [(RE & -> & -> & D1 & P1)|(RE & [(j & a' & lft' & L1 & L2 & SS & ST & P1)|(j & h0 & a0 & l & e & rest & L & SS & LN & LT & EE & RJ & ND & FR & ->)])].
        + exists lft, a, []. rewrite RE, app_nil_r, D1. auto.
        + destruct (steps_suffix _ _ _ _ SS) as (u & E). cbn [snd] in E. exists lft', a', u. split; [exact P1|]. split; [exact E|]. intro Q. destruct ST as [[_ X]|[X _]]; [exact X|contradiction].
        + exists [], [], (lft ++ recv (offered cap s)). split; [apply fresh_parked; exact FR|]. split; [rewrite app_nil_r; reflexivity|]. destruct FR as (_ & _ & _ & FD & _). rewrite FD. congruence. }
    destruct ONE as (lft1 & a1 & u & P1 & E1 & D1). destruct (IH lft1 a1 P1 D1) as (lft' & a' & w & P2 & E2 & D2).
    exists lft', a', (u ++ w). split; [exact P2|]. split; [|exact D2]. cbn [concat]. rewrite app_assoc, E1, <- app_assoc, E2. apply app_assoc.
Qed.
End Data.

(** Property theorems: the request path on bytes with a reader that must be woken up (C103). *)
From Coq Require Import String List NArith ZArith Bool Arith Lia.
From Verif Require Import Bytes AtCore Status SpecAt AtProofs Pktio SpecPktio PktioLine PktioSafe SpecStream PktioStream PktioText PktioTimed Request SpecRequest SpecAnswers RequestInv RequestLive RequestTidy RequestFull.
From Verif Require Import Properties_Request Properties_Answers Whole SpecWhole WholeProofs Properties_Whole SpecLive Properties_Live Driven SpecDriven.
Import ListNotations.
Local Open Scope string_scope.
Local Open Scope list_scope.

(** ** The request path in it *)
Lemma dexec_path cap tt lb d d' : dexec cap tt lb d = Some (Ok d') ->
  match lb with DWhole a => wexec cap tt a (d_whole d) = Some (Ok (d_whole d')) | _ => d_whole d' = d_whole d end.
Proof.
  unfold dexec. destruct lb as [a|ok w|].
  - destruct a as [a|bs g|k| |a]; try destruct (d_awake d); try discriminate; destruct (wexec cap tt _ _) as [[w| |]|] eqn:E; try discriminate; cbn [bind]; try (intros [= <-]; reflexivity).
    destruct (bytes_read cap k (d_whole d)); try discriminate. cbn [bind]. intros [= <-]. reflexivity.
  - destruct (snd _); [intros [= <-]; reflexivity|discriminate].
  - destruct (_ && _); [intros [= <-]; reflexivity|discriminate].
Qed.
Lemma path_app a b : path_actions (a ++ b) = path_actions a ++ path_actions b.
Proof. apply flat_map_app. Qed.
Lemma drun_path cap tt pfxs n (ok : driven -> dlabel -> Prop) lbs d : (forall d0 lb, ok d0 lb -> conforming_modem cap tt pfxs d0 lb) -> drun cap tt ok (dinit cap n) lbs d ->
  wrun cap tt (conforming_bytes cap tt pfxs) (winit cap n) (path_actions lbs) (d_whole d).
Proof.
  intros C R. remember (dinit cap n) as d0 eqn:E0. induction R as [d|d lbs d1 lb d2 R IH O E]; [subst; constructor|]. specialize (IH E0). rewrite path_app. apply dexec_path in E. apply C in O.
  destruct lb as [a| |]; cbn [path_actions flat_map]; rewrite ?app_nil_r; [eapply wrun_step; eassumption| |]; rewrite E; exact IH.
Qed.

(** ** Awake *)
Lemma reads_all cap k w : bytes_read cap k w = Ok 0%nat -> offered cap (w_rx w) <> 0%nat -> (k = 0%nat -> w_fifo w = []) -> w_fifo w = [].
Proof.
  intros B OF K. destruct (w_fifo w) as [|c f] eqn:FI; [reflexivity|]. assert (KN : k <> 0%nat) by (intro Q; specialize (K Q); discriminate). exfalso.
  assert (LN : forall sp, sp <> 0%nat -> length (firstn (Nat.min k sp) (c :: f)) <> 0%nat) by (intros sp N; rewrite firstn_length; cbn [length]; lia).
  unfold bytes_read in B. rewrite FI in B. unfold ReadLine in B. fold (compacts (w_rx w)) in B. unfold offered in OF.
  destruct (compacts (w_rx w)) eqn:CM.
  - destruct (Pktio.rd _ _ _) as [x| |]; cbn [bind] in B; try discriminate. destruct (wr _ _ x) as [m| |]; cbn [bind] in B; try discriminate. destruct (Bytes.st m _ _) as [m'| |]; cbn [bind] in B; try discriminate.
    cbn [rx_partial set_left] in B. specialize (LN _ OF). destruct (Nat.ltb_spec 0 (cap - rx_partial (w_rx w) - 0)) as [L|L]; [|lia].
    destruct (wr _ _ _) as [m1| |]; cbn [bind] in B; try discriminate. destruct (Nat.ltb_spec 0 (length (firstn (Nat.min k (cap - rx_partial (w_rx w) - 0)) (c :: f)))) as [L2|L2]; [|lia].
    destruct (Bytes.st _ _ _) as [m2| |]; cbn [bind] in B; try discriminate. injection B as B. lia.
  - cbn [bind] in B. specialize (LN _ OF). destruct (Nat.ltb_spec 0 (cap - rx_partial (w_rx w) - match rx_ptr (w_rx w) with Some p => p | None => 0%nat end)) as [L|L]; [|lia].
    destruct (wr _ _ _) as [m1| |]; cbn [bind] in B; try discriminate.
    destruct (Nat.ltb_spec 0 (length (firstn (Nat.min k (cap - rx_partial (w_rx w) - match rx_ptr (w_rx w) with Some p => p | None => 0%nat end)) (c :: f)))) as [L2|L2]; [|lia].
    destruct (Bytes.st _ _ _) as [m2| |]; cbn [bind] in B; try discriminate. injection B as B. lia.
Qed.
(** Bytes in the comm interface have someone who will fetch them. *)
Definition alert (d : driven) : Prop :=
  (w_at (d_whole d) <> Waiting -> d_awake d = true) /\ (w_fifo (d_whole d) <> [] -> d_owed d = true \/ d_bit d = true \/ d_awake d = true).
Lemma read_zero cap k w w' : read_bytes cap k w = Ok w' -> bytes_read cap k w = Ok 0%nat -> w_at w' = Waiting.
Proof.
  unfold read_bytes, bytes_read. intros E B. destruct (ReadLine _ _ _) as [[[pl b] s1]| |]; cbn [bind] in *; try discriminate. injection B as ->. cbn [Nat.ltb Nat.leb] in E. injection E as <-. reflexivity.
Qed.
Lemma core_frame cap tt a w w' : match a with WRead _ | WSend _ _ | WScan | WLine _ => False | _ => True end -> wexec cap tt a w = Some (Ok w') -> w_at w' = w_at w /\ w_fifo w' = w_fifo w.
Proof.
  destruct a as [a|bs g|k| |a]; try contradiction. intros _ E. cbn [wexec] in E. destruct (app_label a); [|discriminate]. destruct (exec tt a (w_core w)); [|discriminate]. injection E as <-. split; reflexivity.
Qed.
Section Inv.
Variable cap : nat.
Variable tt : token_table.
Variable pfxs : list str.
Lemma alert_step d lb d' : read_delivers d lb -> events_accepted d lb -> space_offered cap d lb -> dexec cap tt lb d = Some (Ok d') -> alert d -> alert d'.
Proof.
  intros RD EA SO E (A1 & A2). destruct lb as [a|ok wk|].
  - destruct a as [a|bs g|k| |a].
    + cbn [dexec] in E. destruct (wexec cap tt (WApp a) (d_whole d)) as [[w| |]|] eqn:X; try discriminate. cbn [bind] in E. injection E as <-. destruct (core_frame cap tt (WApp a) _ _ I X) as (F1 & F2). split; cbn; rewrite ?F1, ?F2; assumption.
    + cbn [dexec] in E. destruct (wexec cap tt (WSend bs g) (d_whole d)) as [[w| |]|] eqn:X; try discriminate. cbn [bind] in E. injection E as <-. cbn [wexec] in X.
      assert (F : w_at w = w_at (d_whole d) /\ w_fifo w = w_fifo (d_whole d) ++ bs) by (destruct g as [g|]; [destruct (exec tt (LEmit g) (w_core (d_whole d))); [|discriminate]|]; injection X as <-; split; reflexivity).
      destruct F as (F1 & F2). split; cbn; rewrite ?F1, ?F2; [exact A1|]. intro N. destruct bs; [rewrite app_nil_r in N; exact (A2 N)|left; reflexivity].
    + cbn [dexec] in E. destruct (d_awake d) eqn:AW; [|discriminate]. destruct (wexec cap tt (WRead k) (d_whole d)) as [[w| |]|] eqn:X; try discriminate. cbn [bind] in E.
      destruct (bytes_read cap k (d_whole d)) as [b| |] eqn:B; try discriminate. cbn [bind] in E. injection E as <-. cbn [wexec] in X. destruct (w_at (d_whole d)) eqn:HA; try discriminate. injection X as X.
      split; cbn; destruct b as [|b]; try (intros; auto; fail).
      * intro N. elim N. eapply read_zero; eassumption.
      * intro NE. exfalso. apply NE. rewrite (read_fifo _ _ _ _ X). replace (w_fifo (d_whole d)) with (@nil N); [rewrite firstn_nil; reflexivity|]. symmetry. eapply reads_all; [exact B|exact (SO k eq_refl)|intros ->; exact (RD eq_refl)].
    + cbn [dexec] in E. destruct (wexec cap tt WScan (d_whole d)) as [[w| |]|] eqn:X; try discriminate. cbn [bind] in E. injection E as <-. cbn [wexec] in X.
      destruct (w_at (d_whole d)) eqn:HA; try discriminate. injection X as X. assert (AW : d_awake d = true) by (apply A1; discriminate). split; cbn; auto.
    + cbn [dexec] in E. destruct (wexec cap tt (WLine a) (d_whole d)) as [[w| |]|] eqn:X; try discriminate. cbn [bind] in E. injection E as <-. cbn [wexec] in X.
      destruct (w_at (d_whole d)) eqn:HA; try discriminate. assert (AW : d_awake d = true) by (apply A1; discriminate). split; cbn; auto.
  - cbn [dexec Wakeup.PktRxCallBack] in E. destruct ok; [|elim (EA wk); reflexivity]. cbn [snd] in E. injection E as <-. split; cbn; auto.
  - cbn [dexec] in E. destruct (_ && _); [|discriminate]. injection E as <-. split; cbn; auto.
Qed.
Lemma alert_init n : alert (dinit cap n).
Proof. split; cbn; [congruence|congruence]. Qed.
End Inv.

Lemma drun_alert cap tt pfxs n lbs d : drun cap tt (roomy cap tt pfxs) (dinit cap n) lbs d -> alert d.
Proof.
  intro R. remember (dinit cap n) as d0 eqn:E0. induction R as [d|d lbs d1 lb d2 R IH ((_ & O2 & O3) & O4) E]; [subst; apply alert_init|]. eapply alert_step; eauto.
Qed.
(** At rest, everything has been processed. *)
Lemma rest_empty cap tt pfxs n lbs d : tables_ok (tokens_now tt None) -> (forall q, In q pfxs -> at_len_ok q) ->
  drun cap tt (roomy cap tt pfxs) (dinit cap n) lbs d -> at_rest d -> w_fifo (d_whole d) = [] /\ w_at (d_whole d) = Waiting /\ rd (w_core (d_whole d)) = RIdle /\ wire (w_core (d_whole d)) = [].
Proof.
  intros TK PX R (O & B & A). destruct (drun_alert _ _ _ _ _ _ R) as (A1 & A2).
  assert (F : w_fifo (d_whole d) = []) by (destruct (w_fifo (d_whole d)); [reflexivity|]; destruct (A2 ltac:(discriminate)) as [Q|[Q|Q]]; congruence).
  assert (W : w_at (d_whole d) = Waiting) by (destruct (w_at (d_whole d)); [reflexivity| |]; rewrite (A1 ltac:(discriminate)) in A; discriminate).
  pose proof (drun_path cap tt pfxs n (roomy cap tt pfxs) lbs d (fun _ _ H => proj1 (proj1 H)) R) as WR.
  destruct (simulation cap tt pfxs TK PX n _ _ WR) as (ls & rest & _ & _ & PV & _ & SL). pose proof PV as (_ & PP). rewrite W in PP. destruct PP as (_ & R0 & LT).
  rewrite F, app_nil_r, lines_rest in SL by exact LT. split; [exact F|]. split; [exact W|]. split; [exact R0|]. injection SL as SL. destruct (wire (w_core (d_whole d))); [reflexivity|discriminate].
Qed.

(** ** Infinite executions *)
(** A moment without an action of the request path, as an action that changes nothing. *)
Definition fresh (s : state) : nat := Datatypes.S (fold_right (fun t m => Nat.max (fst (tr_tag t)) m) 0%nat (pend s)).
Definition pause (s : state) : label := LGiveUp (fresh s, false).
Lemma fresh_ge t s : In t (pend s) -> (fst (tr_tag t) < fresh s)%nat.
Proof.
  unfold fresh. induction (pend s) as [|x p IH]; [intros []|]. cbn [fold_right]. intros [->|I0]; [lia|]. specialize (IH I0). lia.
Qed.
Lemma filter_all {A} (f : A -> bool) l : (forall x, In x l -> f x = true) -> filter f l = l.
Proof. induction l as [|x l IH]; intro H; [reflexivity|]. cbn [filter]. rewrite (H x (or_introl eq_refl)), IH; [reflexivity|]. intros y I0. apply H. right. exact I0. Qed.
Lemma pause_exec tt s : exec tt (pause s) s = Some s.
Proof.
  cbn [pause exec]. unfold drop_tag. rewrite filter_all; [destruct s; reflexivity|]. intros t I0. apply fresh_ge in I0. unfold tag_eqb. destruct (tr_tag t) as [a b]. cbn [fst] in *.
  destruct (Nat.eqb_spec a (fresh s)); [lia|reflexivity].
Qed.
Lemma pause_wexec cap tt w : wexec cap tt (WApp (pause (w_core w))) w = Some (Ok w).
Proof. cbn [wexec app_label pause]. fold (pause (w_core w)). rewrite pause_exec. destruct w; reflexivity. Qed.

Section Live.
Variable cap : nat.
Variable tt : token_table.
Variable pfxs : list str.
Variable n : nat.
Variable st : nat -> driven.
Variable act : nat -> option dlabel.
Hypothesis CP : (0 < cap)%nat.
Hypothesis TK : tables_ok (tokens_now tt None).
Hypothesis PX : forall q, In q pfxs -> at_len_ok q.
Hypothesis EX : driven_execution cap tt n (usual cap tt pfxs) st act.
Hypothesis CB : callbacks_come st act.
Hypothesis RS : reader_scheduled st act.
Hypothesis TS : threads_scheduled cap tt st act.

Definition wst (k : nat) : whole := d_whole (st k).
Definition wact (k : nat) : wlabel := match act k with Some (DWhole a) => a | _ => WApp (pause (w_core (wst k))) end.
Lemma moment k lb : act k = Some lb -> usual cap tt pfxs (st k) lb /\ dexec cap tt lb (st k) = Some (Ok (st (S k))).
Proof. destruct EX as (_ & ES). specialize (ES k). intro A. rewrite A in ES. exact ES. Qed.
Lemma path_execution : byte_execution cap tt pfxs n wst wact.
Proof.
  destruct EX as (E0 & ES). split; [unfold wst; rewrite E0; reflexivity|]. intro k. specialize (ES k). unfold wact, wst in *.
  assert (P : conforming_bytes cap tt pfxs (d_whole (st k)) (WApp (pause (w_core (d_whole (st k)))))) by (split; [exact I|]; split; [split; [exact I|split; exact I]|exact I]).
  destruct (act k) as [[a|ok wk|]|]; [destruct ES as ((O & _) & E); apply dexec_path in E; split; assumption| | |].
  - destruct ES as (_ & E). apply dexec_path in E. rewrite E. split; [exact P|apply pause_wexec].
  - destruct ES as (_ & E). apply dexec_path in E. rewrite E. split; [exact P|apply pause_wexec].
  - rewrite ES. split; [exact P|apply pause_wexec].
Qed.
Lemma so_far_S k : so_far act (S k) = so_far act k ++ match act k with Some lb => [lb] | None => [] end.
Proof. unfold so_far. rewrite seq_S, flat_map_app. cbn [flat_map Nat.add]. rewrite app_nil_r. reflexivity. Qed.
Lemma so_far_run k : drun cap tt (usual cap tt pfxs) (dinit cap n) (so_far act k) (st k).
Proof.
  destruct EX as (E0 & ES). induction k as [|k IH]; [cbn; rewrite E0; constructor|]. rewrite so_far_S. specialize (ES k). destruct (act k) as [lb|]; [destruct ES; econstructor; eassumption|rewrite app_nil_r, ES; exact IH].
Qed.
Lemma same_answers k g : answered (past wact k) g = answered (path_actions (so_far act k)) g.
Proof.
  induction k as [|k IH]; [reflexivity|]. rewrite past_S, so_far_S, path_app, !answered_app, IH. f_equal. unfold wact. destruct (act k) as [[a|ok wk|]|]; reflexivity.
Qed.
Lemma path_threads : threads_run cap tt wst wact.
Proof.
  intros k i (w & E). destruct (TS k i) as (j & a & LE & A & O).
  - unfold dexec. fold (wst k). rewrite E. cbn [bind]. eauto.
  - exists j, a. split; [exact LE|]. split; [unfold wact; rewrite A; reflexivity|exact O].
Qed.
Lemma path_reads : reads_deliver wst wact.
Proof.
  intros k m A NE ->. apply NE. unfold wact in A. destruct (act k) as [[a|ok wk|]|] eqn:Q; try discriminate. subst a. destruct (moment k _ Q) as ((_ & _ & RD) & _). apply RD. reflexivity.
Qed.
(** A reader that works is awake. *)
Lemma works_awake k : w_at (wst k) <> Waiting -> d_awake (st k) = true.
Proof.
  induction k as [|k IH]; [unfold wst; destruct EX as (-> & _); cbn; congruence|]. destruct EX as (_ & ES). specialize (ES k). unfold wst in *.
  destruct (act k) as [[a|ok wk|]|]; [| | |rewrite ES; exact IH].
  - destruct ES as (_ & E). destruct a as [a|bs g|m| |a].
    + pose proof (dexec_path _ _ _ _ _ E) as X. cbn beta iota in X. destruct (core_frame cap tt (WApp a) _ _ I X) as (F1 & _). rewrite F1.
      cbn [dexec] in E. destruct (wexec cap tt (WApp a) (d_whole (st k))) as [[w| |]|]; try discriminate. cbn [bind] in E. injection E as <-. exact IH.
    + cbn [dexec] in E. destruct (wexec cap tt (WSend bs g) (d_whole (st k))) as [[w| |]|] eqn:X; try discriminate. cbn [bind] in E. injection E as <-. cbn [wexec] in X.
      assert (F : w_at w = w_at (d_whole (st k))) by (destruct g as [g|]; [destruct (exec tt (LEmit g) (w_core (d_whole (st k)))); [|discriminate]|]; injection X as <-; reflexivity). cbn. rewrite F. exact IH.
    + cbn [dexec] in E. destruct (d_awake (st k)) eqn:AW; [|discriminate]. destruct (wexec cap tt (WRead m) (d_whole (st k))) as [[w| |]|] eqn:X; try discriminate. cbn [bind] in E.
      destruct (bytes_read cap m (d_whole (st k))) as [b| |] eqn:B; try discriminate. cbn [bind] in E. injection E as <-. cbn [wexec] in X. destruct (w_at (d_whole (st k))) eqn:HA; try discriminate. injection X as X.
      cbn. destruct b as [|b]; [|reflexivity]. intro NW. elim NW. eapply read_zero; eassumption.
    + cbn [dexec] in E. destruct (wexec cap tt WScan (d_whole (st k))) as [[w| |]|] eqn:X; try discriminate. cbn [bind] in E. injection E as <-. cbn [wexec] in X. destruct (w_at (d_whole (st k))) eqn:HA; try discriminate. intros _. apply IH. discriminate.
    + cbn [dexec] in E. destruct (wexec cap tt (WLine a) (d_whole (st k))) as [[w| |]|] eqn:X; try discriminate. cbn [bind] in E. injection E as <-. cbn [wexec] in X. destruct (w_at (d_whole (st k))) eqn:HA; try discriminate. intros _. apply IH. discriminate.
  - destruct ES as (_ & E). cbn [dexec Wakeup.PktRxCallBack] in E. destruct ok; cbn [snd] in E; injection E as E; rewrite <- E; exact IH.
  - destruct ES as (_ & E). cbn [dexec] in E. destruct (_ && _); [|discriminate]. injection E as E. rewrite <- E. intros _. reflexivity.
Qed.
(** Whoever is alert acts. *)
Lemma acts_awake k : d_awake (st k) = true -> exists j, (k <= j)%nat /\ reader_action (wact j).
Proof.
  intro AW. destruct RS as (_ & R2 & R3). destruct (w_at (d_whole (st k))) eqn:HA.
  - destruct (R2 k AW HA) as (j & m & LE & A). exists j. split; [exact LE|]. unfold wact. rewrite A. exact I.
  - destruct (R3 k ltac:(congruence)) as (j & a & LE & A & RA). exists j. split; [exact LE|]. unfold wact. rewrite A. exact RA.
  - destruct (R3 k ltac:(congruence)) as (j & a & LE & A & RA). exists j. split; [exact LE|]. unfold wact. rewrite A. exact RA.
Qed.
Lemma acts_bit k : d_bit (st k) = true -> exists j, (k <= j)%nat /\ reader_action (wact j).
Proof.
  intro B. destruct (d_awake (st k)) eqn:AW; [apply acts_awake; exact AW|]. destruct RS as (R1 & _). destruct (R1 k AW B) as (j & LE & A). destruct (moment j _ A) as (_ & E).
  cbn [dexec] in E. destruct (_ && _); [|discriminate]. injection E as E. destruct (acts_awake (S j)) as (j2 & L2 & X); [rewrite <- E; reflexivity|]. exists j2. split; [lia|exact X].
Qed.
Lemma acts_owed k : d_owed (st k) = true -> exists j, (k <= j)%nat /\ reader_action (wact j).
Proof.
  intro O. destruct (CB k O) as (j & wk & LE & A). destruct (moment j _ A) as (_ & E). cbn [dexec Wakeup.PktRxCallBack snd] in E. injection E as E.
  destruct (acts_bit (S j)) as (j2 & L2 & X); [rewrite <- E; reflexivity|]. exists j2. split; [lia|exact X].
Qed.
Lemma path_reader : not_cut_off cap st act -> reader_runs wst wact.
Proof.
  intros [SO|TALK] k B.
  - assert (AL : alert (st k)).
    { clear B. induction k as [|k IH]; [destruct EX as (-> & _); apply alert_init|]. destruct EX as (_ & ES). specialize (ES k). destruct (act k) as [lb|] eqn:A; [|rewrite ES; exact IH].
      destruct ES as ((_ & O2 & O3) & E). eapply alert_step; eauto. }
    destruct AL as (A1 & A2). unfold reader_busy in B. fold (wst k) in *. destruct (w_at (wst k)) eqn:HA; try (apply acts_awake, A1; discriminate).
    destruct (A2 B) as [Q|[Q|Q]]; [apply acts_owed|apply acts_bit|apply acts_awake]; exact Q.
  - destruct (w_at (wst k)) eqn:HA; try (apply acts_awake, works_awake; congruence).
    destruct (TALK k) as (j & bs & g & LE & A). destruct (moment j _ A) as ((OK & _) & E). cbn [conforming_modem conforming_bytes] in OK. destruct OK as (_ & l & _ & (pre & post & EB & _ & _ & NP & _) & _).
    cbn [dexec] in E. destruct (wexec cap tt (WSend bs g) (d_whole (st j))) as [[w| |]|]; try discriminate. cbn [bind] in E. injection E as E.
    destruct (acts_owed (S j)) as (j2 & L2 & X); [|exists j2; split; [lia|exact X]]. rewrite <- E. cbn. destruct bs; [|reflexivity]. destruct pre; [|discriminate]. destruct (l_text l); [|discriminate]. destruct post; [congruence|discriminate].
Qed.
End Live.

(** ** C103 *)
(** Whoever wakes the reader and whenever it sleeps: every call that returned, returned what the modem's bytes say (C99). *)
Theorem c103_calls_return_what_the_bytes_say : forall cap tt pfxs n lbs d, tables_ok (tokens_now tt None) -> (forall q, In q pfxs -> at_len_ok q) ->
  drun cap tt (conforming_modem cap tt pfxs) (dinit cap n) lbs d ->
  forall c s o, In (Returned c s o) (log (w_core (d_whole d))) ->
    nth_error (calls_made (path_actions lbs)) (c_id c) = Some (c_req c) /\ must_return cap tt pfxs n (path_actions lbs) (c_id c) (c_req c) s.
Proof.
  intros cap tt pfxs n lbs d TK PX R c s o IL. eapply c99_calls_return_what_the_bytes_say; try eassumption. eapply drun_path; [|exact R]. auto.
Qed.
Print Assumptions c103_calls_return_what_the_bytes_say.

(** No wake-up is lost: when everything is quiet (no callback owed, no event pending, the reader asleep), no byte is left in the comm
    interface, no line is left unprocessed, and every thread that waits for a transmission whose answer the modem has sent completely has
    the result in the queue: its next action is possible and takes it.  Missing: reads that find the buffer full to its end (see below). *)
Theorem c103_nothing_is_left_at_rest_partial : forall cap tt pfxs n lbs d, tables_ok (tokens_now tt None) -> (forall q, In q pfxs -> at_len_ok q) ->
  drun cap tt (roomy cap tt pfxs) (dinit cap n) lbs d -> at_rest d ->
  w_fifo (d_whole d) = [] /\ wire (w_core (d_whole d)) = [] /\
  forall i p g body l, nth_error (ths (w_core (d_whole d))) i = Some p -> awaits p g -> answered (path_actions lbs) g = body ++ [l] -> l_last l = true ->
    exists d', dexec cap tt (DWhole (WApp (LThread i))) d = Some (Ok d') /\ queue (w_core (d_whole d)) <> None /\ queue (w_core (d_whole d')) = None.
Proof.
  intros cap tt pfxs n lbs d TK PX R AR. destruct (rest_empty cap tt pfxs n lbs d TK PX R AR) as (F & W & R0 & WI). split; [exact F|]. split; [exact WI|].
  intros i p g body l EP AW AN LL. pose proof (drun_path cap tt pfxs n (roomy cap tt pfxs) lbs d (fun _ _ H => proj1 (proj1 H)) R) as WR.
  destruct (simulation cap tt pfxs TK PX n _ _ WR) as (ls & rest & RR & (_ & SE & _) & _). rewrite <- SE in AN.
  assert (Q : queue (w_core (d_whole d)) <> None) by (eapply (answered_when_read tt pfxs n ls _ i p g body l TK PX RR EP AW AN LL R0); rewrite WI; intros []).
  unfold dexec, wexec. cbn [app_label exec]. unfold thread_step. rewrite EP. destruct (queue (w_core (d_whole d))) as [q|] eqn:QQ; [|congruence].
  destruct AW as (c & [(-> & _)|(-> & _)]); cbn [bind]; eexists; (split; [reflexivity|]); (split; [discriminate|reflexivity]).
Qed.
Print Assumptions c103_nothing_is_left_at_rest_partial.

(** Every complete answer is taken, without the help of a time-out: the comm interface calls the callback it owes, the platform accepts
    its event, the reader thread and the application threads are scheduled, and either no read finds the buffer full to its end or the
    modem never falls silent (what happens otherwise: below). *)
Theorem c103_answer_ends_the_wait_partial : forall cap tt pfxs n st act k i p g body l, (0 < cap)%nat -> tables_ok (tokens_now tt None) -> (forall q, In q pfxs -> at_len_ok q) ->
  driven_execution cap tt n (usual cap tt pfxs) st act -> callbacks_come st act -> reader_scheduled st act -> threads_scheduled cap tt st act -> not_cut_off cap st act ->
  nth_error (ths (w_core (d_whole (st k)))) i = Some p -> awaits p g -> answered (path_actions (so_far act k)) g = body ++ [l] -> l_last l = true ->
  exists k', (k <= k')%nat /\ act k' = Some (DWhole (WApp (LThread i))) /\ nth_error (ths (w_core (d_whole (st k')))) i = Some p /\
    answered (path_actions (so_far act k')) g = body ++ [l].
Proof.
  intros cap tt pfxs n sts act k i p g body l CP TK PX EX CB RS TS NC EP AW AN LL.
  destruct (c102_answer_ends_the_wait cap tt pfxs n (wst sts) (wact sts act) k i p g body l CP TK PX (path_execution cap tt pfxs n sts act EX) (path_reader cap tt pfxs n sts act CP PX EX CB RS NC) (path_reads _ _ _ _ _ _ EX)
    (path_threads cap tt sts act TS) EP AW) as (k' & LE & A & EP' & AN').
  - rewrite same_answers. exact AN.
  - exact LL.
  - exists k'. split; [exact LE|]. split; [|split; [exact EP'|rewrite same_answers in AN'; exact AN']]. unfold wact in A. destruct (act k') as [[a|ok wk|]|]; try discriminate. subst a. reflexivity.
Qed.
Print Assumptions c103_answer_ends_the_wait_partial.

(** ... and the call returns, with the status that the answer (and the result of its response callback) determine. *)
Theorem c103_answered_call_returns_partial : forall cap tt pfxs n st act k i p g body l c, (0 < cap)%nat -> tables_ok (tokens_now tt None) -> (forall q, In q pfxs -> at_len_ok q) ->
  driven_execution cap tt n (usual cap tt pfxs) st act -> callbacks_come st act -> reader_scheduled st act -> threads_scheduled cap tt st act -> not_cut_off cap st act ->
  nth_error (ths (w_core (d_whole (st k)))) i = Some p -> awaits p g -> answered (path_actions (so_far act k)) g = body ++ [l] -> l_last l = true ->
  p = Wait c /\ data_of (rq_kind (c_req c)) = None \/ p = DataWait c ->
  exists k' s o, (k <= k')%nat /\ In (Returned c s o) (log (w_core (d_whole (st k')))) /\
    (p = Wait c -> command_status cap tt pfxs n (path_actions (so_far act k')) (c_id c) (c_req c) s) /\
    (p = DataWait c -> data_status tt (path_actions (so_far act k')) (c_id c) s).
Proof.
  intros cap tt pfxs n sts act k i p g body l c CP TK PX EX CB RS TS NC EP AW AN LL SH. rewrite <- (same_answers sts act k g) in AN.
  destruct (c102_answered_call_returns cap tt pfxs n (wst sts) (wact sts act) k i p g body l c CP TK PX (path_execution cap tt pfxs n sts act EX) (path_reader cap tt pfxs n sts act CP PX EX CB RS NC) (path_reads _ _ _ _ _ _ EX)
    (path_threads cap tt sts act TS) EP AW AN LL SH) as (k' & s & o & LE & RT & _).
  exists k', s, o. split; [exact LE|]. split; [exact RT|].
  pose proof (answered_on cap tt pfxs n _ _ TK PX (path_execution cap tt pfxs n sts act EX) g body l k k' LL AN LE) as AN2. rewrite same_answers in AN2.
  pose proof (drun_path cap tt pfxs n _ _ _ (fun _ _ H => proj1 H) (so_far_run _ _ _ _ _ _ EX k')) as WR.
  destruct (c99_calls_return_what_the_bytes_say cap tt pfxs n _ _ TK PX WR c s o RT) as (_ & MR).
  assert (NE : body ++ [l] <> []) by (destruct body; discriminate).
  split; intros ->.
  - destruct AW as (c' & [(Q & ->)|(Q & _)]); [injection Q as <-|discriminate]. destruct SH as [(_ & DN)|Q]; [|discriminate]. destruct MR; try congruence; assumption.
  - destruct AW as (c' & [(Q & _)|(Q & ->)]); [discriminate|injection Q as <-]. destruct MR; try congruence; assumption.
Qed.
Print Assumptions c103_answered_call_returns_partial.

(** ** Non-triviality: executions that end in a cycle *)
Lemma skipn_nth {A} k (l : list A) d : (k < length l)%nat -> skipn k l = nth k l d :: skipn (S k) l.
Proof. revert k. induction l as [|x l IH]; intros [|k] L; cbn in *; try lia; [reflexivity|]. apply IH. lia. Qed.
Section Lasso.
Variable cap : nat.
Variable tt : token_table.
Variable n : nat.
Variables pre cyc : list (option dlabel).
Definition doing (o : option dlabel) (d : driven) : driven := match o with Some lb => match dexec cap tt lb d with Some (Ok d') => d' | _ => d end | None => d end.
Definition lact (k : nat) : option dlabel := if (k <? length pre)%nat then nth k pre None else nth ((k - length pre) mod (length cyc)) cyc None.
Fixpoint lst (k : nat) : driven := match k with O => dinit cap n | Datatypes.S j => doing (lact j) (lst j) end.
Definition once : nat := (length pre + length cyc)%nat.
Hypothesis NE : cyc <> [].
Hypothesis CYC : lst once = lst (length pre).
Lemma period_pos : (0 < length cyc)%nat.
Proof. destruct cyc; [congruence|cbn; lia]. Qed.
Lemma lact_period k : (length pre <= k)%nat -> lact (k + length cyc) = lact k.
Proof.
  intro L. pose proof period_pos. unfold lact. destruct (Nat.ltb_spec k (length pre)); [lia|]. destruct (Nat.ltb_spec (k + length cyc) (length pre)); [lia|].
  replace (k + length cyc - length pre)%nat with ((k - length pre) + 1 * length cyc)%nat by lia. rewrite Nat.mod_add by lia. reflexivity.
Qed.
Lemma lst_period k : (length pre <= k)%nat -> lst (k + length cyc) = lst k.
Proof.
  induction k as [|k IH]; intro L.
  - assert (Q : length pre = 0%nat) by lia. unfold once in CYC. rewrite Q in CYC. exact CYC.
  - destruct (Nat.eq_dec (length pre) (Datatypes.S k)) as [Q|Q]; [rewrite <- Q; exact CYC|]. cbn [Nat.add lst]. rewrite lact_period, IH by lia. reflexivity.
Qed.
(** Every moment looks like one of the first [once]. *)
Lemma reduces k : exists k0, (k0 < once)%nat /\ (k0 <= k)%nat /\ lst k = lst k0 /\ (forall i, lact (k + i) = lact (k0 + i)) /\ lst (S k) = lst (S k0).
Proof.
  induction k as [k IH] using lt_wf_ind. destruct (Nat.lt_ge_cases k once) as [L|L]; [exists k; auto 6|]. unfold once in L. pose proof period_pos.
  destruct (IH (k - length cyc)%nat) as (k0 & A & B & C & D & E); [lia|]. exists k0. split; [exact A|]. split; [lia|].
  assert (K : k = (k - length cyc + length cyc)%nat) by lia. split; [rewrite K, lst_period by lia; exact C|]. split.
  - intro i. rewrite <- D. rewrite K. replace (k - length cyc + length cyc + i)%nat with ((k - length cyc + i) + length cyc)%nat by lia. rewrite lact_period by lia. f_equal. lia.
  - rewrite <- E. rewrite K at 1. change (Datatypes.S (k - length cyc + length cyc)) with (Datatypes.S (k - length cyc) + length cyc)%nat. apply lst_period. lia.
Qed.
(** What holds of the first moments holds of all. *)
Lemma lasso_fair (F : driven -> bool) (G : option dlabel -> bool) :
  forallb (fun k => negb (F (lst k)) || existsb (fun i => G (lact (k + i))) (seq 0 (once + length cyc))) (seq 0 once) = true ->
  forall k, F (lst k) = true -> exists j, (k <= j)%nat /\ G (lact j) = true.
Proof.
  intros H k FK. destruct (reduces k) as (k0 & A & B & C & D & _). rewrite forallb_forall in H. specialize (H k0 ltac:(apply in_seq; lia)). rewrite <- C, FK in H. cbn [negb orb] in H.
  apply existsb_exists in H. destruct H as (i & _ & GI). exists (k + i)%nat. split; [lia|]. rewrite D. exact GI.
Qed.
Lemma lasso_all (P : driven -> option dlabel -> Prop) : (forall k, (k < once)%nat -> P (lst k) (lact k)) -> forall k, P (lst k) (lact k).
Proof. intros H k. destruct (reduces k) as (k0 & A & _ & C & D & _). specialize (D 0%nat). rewrite !Nat.add_0_r in D. rewrite C, D. apply H. exact A. Qed.
(** A walk along the first [once] labels. *)
Inductive owalk (ok : driven -> dlabel -> Prop) : driven -> list (option dlabel) -> Prop :=
| owalk_nil d : owalk ok d []
| owalk_none d r : owalk ok d r -> owalk ok d (None :: r)
| owalk_some d lb d1 r : dexec cap tt lb d = Some (Ok d1) -> ok d lb -> owalk ok d1 r -> owalk ok d (Some lb :: r).
Lemma lact_nth k : (k < once)%nat -> lact k = nth k (pre ++ cyc) None.
Proof.
  unfold lact, once. intro L. destruct (Nat.ltb_spec k (length pre)); [rewrite app_nth1 by lia; reflexivity|]. rewrite app_nth2 by lia. rewrite Nat.mod_small by lia. reflexivity.
Qed.
Lemma owalk_at ok : owalk ok (dinit cap n) (pre ++ cyc) -> forall k, (k < once)%nat ->
  match lact k with Some lb => ok (lst k) lb /\ dexec cap tt lb (lst k) = Some (Ok (lst (S k))) | None => lst (S k) = lst k end.
Proof.
  intro W. assert (G : forall k, (k <= once)%nat -> owalk ok (lst k) (skipn k (pre ++ cyc))).
  { induction k as [|k IH]; intro L; [exact W|]. specialize (IH ltac:(lia)). assert (LL : (k < length (pre ++ cyc))%nat) by (rewrite app_length; unfold once in L; lia).
    rewrite (skipn_nth (k) (pre ++ cyc) None LL) in IH. cbn [lst]. rewrite lact_nth by lia. inversion IH; subst; cbn [doing]; [assumption|]. match goal with H : dexec _ _ _ _ = _ |- _ => rewrite H end. assumption. }
  intros k L. specialize (G k ltac:(lia)). assert (LL : (k < length (pre ++ cyc))%nat) by (rewrite app_length; exact L). rewrite (skipn_nth k (pre ++ cyc) None LL) in G. cbn [lst]. rewrite lact_nth by exact L.
  inversion G; subst; cbn [doing]; [reflexivity|]. match goal with H : dexec _ _ _ _ = _ |- _ => rewrite H end. split; [assumption|reflexivity].
Qed.
Lemma lasso_execution ok : owalk ok (dinit cap n) (pre ++ cyc) -> driven_execution cap tt n ok lst lact.
Proof.
  intro W. split; [reflexivity|]. intro k. destruct (reduces k) as (k0 & A & _ & C & D & E). specialize (D 0%nat). rewrite !Nat.add_0_r in D. rewrite C, D, E. apply owalk_at; assumption.
Qed.
Lemma lasso_checked ok : (forall k, (k < once)%nat -> match lact k with Some lb => ok (lst k) lb | None => True end) ->
  forallb (fun k => match lact k with Some lb => match dexec cap tt lb (lst k) with Some (Ok _) => true | _ => false end | None => true end) (seq 0 once) = true ->
  driven_execution cap tt n ok lst lact.
Proof.
  intros H1 H2. split; [reflexivity|]. intro k. destruct (reduces k) as (k0 & A & _ & C & D & E). specialize (D 0%nat). rewrite !Nat.add_0_r in D. rewrite C, D, E.
  specialize (H1 k0 A). rewrite forallb_forall in H2. specialize (H2 k0 ltac:(apply in_seq; lia)). cbn [lst]. destruct (lact k0) as [lb|]; [|reflexivity]. cbn [doing].
  destruct (dexec cap tt lb (lst k0)) as [[d| |]|]; try discriminate. split; [exact H1|reflexivity].
Qed.
End Lasso.
Definition waitingb (w : whole) : bool := match w_at w with Waiting => true | _ => false end.
Definition is_callback (o : option dlabel) : bool := match o with Some (DCallback true _) => true | _ => false end.
Definition is_wake (o : option dlabel) : bool := match o with Some DWake => true | _ => false end.
Definition is_read (o : option dlabel) : bool := match o with Some (DWhole (WRead _)) => true | _ => false end.
Definition is_reader (o : option dlabel) : bool :=
  match o with Some (DWhole (WRead _)) | Some (DWhole WScan) | Some (DWhole (WLine LReader)) | Some (DWhole (WLine (LCbReturns _))) => true | _ => false end.
Definition is_own (i : nat) (o : option dlabel) : bool := match o with Some (DWhole (WApp (LThread j))) => (j =? i)%nat | _ => false end.
Definition is_send (o : option dlabel) : bool := match o with Some (DWhole (WSend _ _)) => true | _ => false end.
Definition enabledb (i : nat) (d : driven) : bool := match thread_step i (w_core (d_whole d)) with Some _ => true | None => false end.
Definition fairb cap tt n pre cyc (nth_ : nat) : bool :=
  let st := lst cap tt n pre cyc in
  let len := once pre cyc in
  let chk F G := forallb (fun k => negb (F (st k)) || existsb (fun i => G (lact pre cyc (k + i))) (seq 0 (len + length cyc))) (seq 0 len) in
  chk d_owed is_callback && chk (fun d => negb (d_awake d) && d_bit d) is_wake && chk (fun d => d_awake d && waitingb (d_whole d)) is_read && chk (fun d => negb (waitingb (d_whole d))) is_reader &&
  forallb (fun i => chk (enabledb i) (is_own i)) (seq 0 nth_) && forallb (fun k => (length (ths (w_core (d_whole (st k)))) =? nth_)%nat) (seq 0 len).
Lemma fair_lasso cap tt n pre cyc m : cyc <> [] -> lst cap tt n pre cyc (once pre cyc) = lst cap tt n pre cyc (length pre) -> fairb cap tt n pre cyc m = true ->
  callbacks_come (lst cap tt n pre cyc) (lact pre cyc) /\ reader_scheduled (lst cap tt n pre cyc) (lact pre cyc) /\ threads_scheduled cap tt (lst cap tt n pre cyc) (lact pre cyc).
Proof.
  intros NE CY H. unfold fairb in H. rewrite !andb_true_iff in H. destruct H as (((((H1 & H2) & H3) & H4) & H5) & H6).
  pose proof (lasso_fair cap tt n pre cyc NE CY) as LF. split; [|split; [split; [|split]|]].
  - intros k O. destruct (LF d_owed is_callback H1 k O) as (j & LE & A). exists j. destruct (lact pre cyc j) as [[a|[|] wk|]|]; try discriminate. exists wk. auto.
  - intros k AW B. destruct (LF (fun d => negb (d_awake d) && d_bit d) is_wake H2 k) as (j & LE & A); [cbn beta; rewrite AW, B; reflexivity|]. exists j. destruct (lact pre cyc j) as [[a|ok wk|]|]; try discriminate. auto.
  - intros k AW W. destruct (LF (fun d => d_awake d && waitingb (d_whole d)) is_read H3 k) as (j & LE & A); [cbn beta; rewrite AW; unfold waitingb; rewrite W; reflexivity|]. exists j. destruct (lact pre cyc j) as [[[a|bs g|q| |a]|ok wk|]|]; try discriminate. exists q. auto.
  - intros k W. destruct (LF (fun d => negb (waitingb (d_whole d))) is_reader H4 k) as (j & LE & A); [cbn beta; unfold waitingb; destruct (w_at _); [congruence|reflexivity|reflexivity]|]. exists j. destruct (lact pre cyc j) as [[a|ok wk|]|]; try discriminate.
    exists a. split; [exact LE|]. split; [reflexivity|]. destruct a as [a|bs g|q| |[]]; try discriminate; exact I.
  - intros k i (d & E). assert (EN : enabledb i (lst cap tt n pre cyc k) = true).
    { unfold dexec, wexec in E. cbn [app_label exec] in E. unfold enabledb. destruct (thread_step i _); [reflexivity|discriminate]. }
    assert (IL : (i < m)%nat).
    { destruct (reduces cap tt n pre cyc NE CY k) as (k0 & A & _ & C & _). rewrite C in EN. rewrite forallb_forall in H6. specialize (H6 k0 ltac:(apply in_seq; lia)). apply Nat.eqb_eq in H6. rewrite <- H6.
      apply nth_error_Some. unfold enabledb, thread_step in EN. destruct (nth_error _ i); [discriminate|discriminate EN]. }
    rewrite forallb_forall in H5. specialize (H5 i ltac:(apply in_seq; lia)). destruct (LF (enabledb i) (is_own i) H5 k EN) as (j & LE & A). exists j.
    destruct (lact pre cyc j) as [[[[]| | | |]| |]|]; try discriminate. cbn in A. apply Nat.eqb_eq in A. subst. eexists. split; [exact LE|]. split; [reflexivity|reflexivity].
Qed.

Ltac room_ok ::= lazymatch goal with |- reads_with_room _ _ (WRead _) => first [left; vm_compute; discriminate | right; split; reflexivity] | |- _ => exact I end.
Ltac all_cells := repeat (apply Forall_cons; [unfold eol; cbn; lia|]); apply Forall_nil.
Ltac spell_ok ::= lazymatch goal with
  | |- spelled ?bs ?l =>
      let post := eval vm_compute in (if (nth (length bs - 2) bs 0 <? 14)%N then crlf else [13%N]) in
      let pre := eval vm_compute in (filter (fun c => (c <? 14)%N) (firstn (length bs - length (l_text l) - length post) bs)) in
      exists pre, post; split; [reflexivity|]; split; [all_cells|]; split; [all_cells|]; split; [discriminate|]; split; [discriminate|];
      unfold line_text; cbn; all_cells
  end.
Ltac usual_ok := split; [cbn [conforming_modem d_whole]; first [exact I|cbn [conforming_bytes]; bytes_ok]|split; [let w := fresh in let Q := fresh in intros w Q; discriminate Q|let Q := fresh in intro Q; first [discriminate Q|reflexivity]]].
Ltac space_ok := let w := fresh in let Q := fresh in intros w Q; first [discriminate Q|vm_compute; discriminate].
Ltac owalk_step tac :=
  lazymatch goal with
  | |- owalk _ _ _ _ [] => apply owalk_nil
  | |- owalk _ _ _ _ (None :: _) => apply owalk_none
  | |- owalk ?cap ?tt ?ok ?d (Some ?lb :: ?r) =>
      let x := eval vm_compute in (dexec cap tt lb d) in
      lazymatch x with
      | Some (Ok ?d1) => apply (owalk_some cap tt ok d lb d1 r); [vm_compute; reflexivity|tac|]
      end
  end.
Definition dw (l : list wlabel) : list (option dlabel) := map (fun a => Some (DWhole a)) l.
Definition irq : list (option dlabel) := [Some (DCallback true true); Some DWake].

(** Two calls; the answer to the first arrives in two interrupts (the second raised while the reader is at work: it sleeps and wakes up once
    more), the second call is answered; then nothing happens any more. *)
Definition pre103 : list (option dlabel) :=
  dw (map WApp (start 0 q_multi) ++ [says (ans "+COPS: 1" 0 false false)]) ++ irq ++ dw [WRead 7; WScan; WApp (LCall 1 q_plain); WRead 100] ++
  dw [WScan; says (ans "OK" 0 false true)] ++ [Some (DCallback true false)] ++ dw (repeat (WLine LReader) 4 ++ [WScan; WRead 4; WScan; WRead 2] ++ wreads 7 ++
  [WLine (LCbReturns PKT_OK); WLine LReader; WScan; WRead 9]) ++ [Some DWake] ++ dw ([WRead 3; WApp (LThread 0)] ++ map WApp (finish 0) ++
  map WApp (repeat (LThread 1) 5) ++ [says (ans "OK" 1 false true)]) ++ irq ++ dw ([WRead 40] ++ wreads 7 ++ [WScan; WApp (LThread 1); WRead 1] ++ map WApp (finish 1)).
Definition st103 : nat -> driven := lst 40 tt0 2 pre103 [None].
Definition act103 : nat -> option dlabel := lact pre103 [None].
Lemma walk103 : owalk 40 tt0 (roomy 40 tt0 pfx0) (dinit 40 2) (pre103 ++ [None]).
Proof.
  let r := eval vm_compute in (pre103 ++ [None]) in change (pre103 ++ [None]) with r. let s0 := eval vm_compute in (dinit 40 2) in change (dinit 40 2) with s0.
  repeat (owalk_step ltac:(split; [usual_ok|space_ok])).
Qed.
Lemma closed103 : lst 40 tt0 2 pre103 [None] (once pre103 [None]) = lst 40 tt0 2 pre103 [None] (length pre103).
Proof. vm_compute. reflexivity. Qed.
Lemma fair103 : fairb 40 tt0 2 pre103 [None] 2 = true.
Proof. vm_compute. reflexivity. Qed.
Lemma weaker (ok ok' : driven -> dlabel -> Prop) cap tt n st act : (forall d lb, ok d lb -> ok' d lb) -> driven_execution cap tt n ok st act -> driven_execution cap tt n ok' st act.
Proof. intros H (E0 & ES). split; [exact E0|]. intro k. specialize (ES k). destruct (act k); [destruct ES; auto|exact ES]. Qed.
Example c103_ex : driven_execution 40 tt0 2 (usual 40 tt0 pfx0) st103 act103 /\ callbacks_come st103 act103 /\ reader_scheduled st103 act103 /\ threads_scheduled 40 tt0 st103 act103 /\
  not_cut_off 40 st103 act103 /\
  nth_error (ths (w_core (d_whole (st103 15)))) 0 = Some (Wait {| c_id := 0; c_req := q_multi |}) /\
  answered (path_actions (so_far act103 15)) (0%nat, false) = [ans "+COPS: 1" 0 false false] ++ [ans "OK" 0 false true] /\ queue (w_core (d_whole (st103 15))) = None /\
  length (log (w_core (d_whole (st103 65)))) = 3%nat /\
  drun 40 tt0 (roomy 40 tt0 pfx0) (dinit 40 2) (so_far act103 65) (st103 65) /\ at_rest (st103 65).
Proof.
  assert (NE : [@None dlabel] <> []) by discriminate.
  pose proof (lasso_execution 40 tt0 2 pre103 [None] NE closed103 _ walk103) as X. destruct (fair_lasso 40 tt0 2 pre103 [None] 2 NE closed103 fair103) as (F1 & F2 & F3).
  fold st103 in *. fold act103 in *.
  split; [exact (weaker _ _ _ _ _ _ _ (fun d lb H => proj1 H) X)|]. split; [exact F1|]. split; [exact F2|]. split; [exact F3|]. split.
  - left. intros k lb A. destruct X as (_ & ES). specialize (ES k). rewrite A in ES. apply ES.
  - split; [reflexivity|]. split; [reflexivity|]. split; [reflexivity|]. split; [vm_compute; reflexivity|]. split; [|repeat split].
    destruct X as (E0 & ES). generalize 65%nat. intro k. induction k as [|k IH]; [cbn; rewrite <- E0; constructor|]. rewrite so_far_S. specialize (ES k). destruct (act103 k) as [lb|]; [destruct ES; econstructor; eassumption|rewrite app_nil_r, ES; exact IH].
Qed.

(** Room for twelve bytes, a URC of twelve bytes and an answer of twelve bytes in one interrupt: the read after the URC finds the buffer full,
    the reader goes to sleep, the answer stays behind; the modem's next URC wakes the reader up.  From then on one URC follows the other,
    and every second read finds the buffer full. *)
Definition slow_ok : wlabel := WSend (repeat 10%N 9 ++ s2b "OK" ++ [13%N]) (Some (ans "OK" 0 false true)).
Definition talk_pre : list (option dlabel) :=
  dw (map WApp (start 0 q_plain) ++ [says (urc "+CREG: 1"); slow_ok]) ++ irq ++ dw ([WRead 12] ++ wreads 3 ++ [WScan; WRead 12]) ++
  dw [says (urc "+CREG: 1")] ++ irq ++ dw ([WRead 12] ++ wreads 7 ++ [WScan; WRead 12] ++ wreads 3 ++ [WScan; WRead 12; WApp (LThread 0)] ++ map WApp (finish 0)).
Definition talk_cyc : list (option dlabel) := dw [says (urc "+CREG: 1")] ++ irq ++ dw ([WRead 12] ++ wreads 3 ++ [WScan; WRead 12]).
Lemma talk_walk : owalk 12 tt0 (usual 12 tt0 pfx0) (dinit 12 1) (talk_pre ++ talk_cyc).
Proof.
  let r := eval vm_compute in (talk_pre ++ talk_cyc) in change (talk_pre ++ talk_cyc) with r. let s0 := eval vm_compute in (dinit 12 1) in change (dinit 12 1) with s0.
  repeat (owalk_step ltac:(usual_ok)).
Qed.
Lemma talk_closed : lst 12 tt0 1 talk_pre talk_cyc (once talk_pre talk_cyc) = lst 12 tt0 1 talk_pre talk_cyc (length talk_pre).
Proof. vm_compute. reflexivity. Qed.
Lemma talk_fair : fairb 12 tt0 1 talk_pre talk_cyc 1 = true.
Proof. vm_compute. reflexivity. Qed.
Lemma talk_sends : forallb (fun k => negb true || existsb (fun i => is_send (lact talk_pre talk_cyc (k + i))) (seq 0 (once talk_pre talk_cyc + length talk_cyc))) (seq 0 (once talk_pre talk_cyc)) = true.
Proof. vm_compute. reflexivity. Qed.
Example c103_talk_ex : let st := lst 12 tt0 1 talk_pre talk_cyc in let act := lact talk_pre talk_cyc in
  driven_execution 12 tt0 1 (usual 12 tt0 pfx0) st act /\ callbacks_come st act /\ reader_scheduled st act /\ threads_scheduled 12 tt0 st act /\ not_cut_off 12 st act /\
  nth_error (ths (w_core (d_whole (st 17)))) 0 = Some (Wait {| c_id := 0; c_req := q_plain |}) /\
  answered (path_actions (so_far act 17)) (0%nat, false) = [] ++ [ans "OK" 0 false true] /\ at_rest (st 17%nat) /\ length (w_fifo (d_whole (st 17))) = 12%nat /\
  (exists lb, act 16%nat = Some lb /\ ~ space_offered 12 (st 16%nat) lb).
Proof.
  intros st act. assert (NE : talk_cyc <> []) by discriminate.
  destruct (fair_lasso 12 tt0 1 talk_pre talk_cyc 1 NE talk_closed talk_fair) as (F1 & F2 & F3).
  split; [exact (lasso_execution 12 tt0 1 talk_pre talk_cyc NE talk_closed _ talk_walk)|]. split; [exact F1|]. split; [exact F2|]. split; [exact F3|]. split.
  - right. intro k. destruct (lasso_fair 12 tt0 1 talk_pre talk_cyc NE talk_closed (fun _ => true) is_send talk_sends k eq_refl) as (j & LE & A). exists j.
    destruct (lact talk_pre talk_cyc j) as [[[a|bs g|q| |a]| |]|] eqn:Q; try discriminate. exists bs, g. auto.
  - split; [reflexivity|]. split; [reflexivity|]. split; [repeat split|]. split; [reflexivity|]. eexists. split; [reflexivity|]. intro SO. apply (SO 12%nat eq_refl). reflexivity.
Qed.

(** Missing: a buffer that is full to its end.  (A configured size of 400 bytes; with the default of 1600 and the same mechanism:
    c93_answer_left_behind_refuted.)  Two URCs of 200 bytes and the answer arrive in one interrupt; the URCs fill the buffer of
    the library exactly; the next read is offered no space, returns nothing, and the reader goes to sleep with the answer still in the comm
    interface.  Everything is scheduled fairly, and yet, if the modem has nothing more to say, nothing ever happens again: only its
    time-out ends the call, whose answer has been there all the time. *)
Definition long_urc : line := {| l_text := s2b "+QIND: " ++ repeat 120%N 189; l_from := None; l_last := false |}.
Lemma long_spontaneous : spontaneous tt0 pfx0 (s2b "+QIND: " ++ repeat 120%N 189).
Proof.
  intros cmd p HP. right. split.
  - apply wp_iff. vm_compute. reflexivity.
  - right. intros (q & E & (r & X)). subst p. destruct (HP q eq_refl) as [<-|[]]. cbn in X. discriminate.
Qed.
Definition stuck_pre : list (option dlabel) :=
  dw (map WApp (start 0 q_plain) ++ repeat (says long_urc) 2 ++ [says (ans "OK" 0 false true)]) ++ irq ++ dw ([WRead 400] ++ concat (repeat (wreads 3) 2) ++ [WScan; WRead 400]).
Definition small_buffer : nat := N.to_nat 400.
Lemma stuck_steps : forallb (fun k => match lact stuck_pre [None] k with
    | Some lb => match dexec small_buffer tt0 lb (lst small_buffer tt0 1 stuck_pre [None] k) with Some (Ok _) => true | _ => false end
    | None => true end) (seq 0 (once stuck_pre [None])) = true.
Proof. vm_compute. reflexivity. Qed.
Lemma long_said w : conforming_bytes small_buffer tt0 pfx0 w (says long_urc).
Proof.
  split; [exact I|]. exists long_urc. split; [reflexivity|]. split.
  - exists crlf, crlf. split; [reflexivity|]. split; [repeat constructor; unfold eol; cbn; lia|]. split; [repeat constructor; unfold eol; cbn; lia|]. split; [discriminate|]. split; [discriminate|].
    apply Forall_app. split; [repeat constructor; unfold eol; cbn; lia|]. apply Forall_forall. intros c IC. apply repeat_spec in IC. subst c. unfold eol. lia.
  - split; [split; [split; [reflexivity|exact long_spontaneous]|split; exact I]|]. intros g Q. discriminate Q.
Qed.
Ltac core_known :=
  lazymatch goal with
  | |- context [w_core (d_whole ?d)] => let x := eval vm_compute in (w_core (d_whole d)) in replace (w_core (d_whole d)) with x by (vm_compute; reflexivity)
  end.
Ltac stuck_case d :=
  split; [|split; [let w := fresh in let Q := fresh in intros w Q; discriminate Q|let Q := fresh in intro Q; discriminate Q]]; cbn [conforming_modem];
  lazymatch goal with
  | |- conforming_bytes _ _ _ _ (WSend _ (Some {| l_text := _; l_from := None; l_last := _ |})) => apply long_said
  | |- conforming_bytes _ _ _ _ _ => cbn [conforming_bytes]; split; [room_ok|];
      lazymatch goal with
      | |- exists l, Some ?x = Some l /\ _ => exists x; split; [reflexivity|]; split; [spell_ok|core_known; conform_ok]
      | |- True => exact I
      | |- _ => first [exact (conj (conj I (conj I I)) I)|core_known; conform_ok]
      end
  | |- True => exact I
  end.
Lemma stuck_usual : forall k, (k < once stuck_pre [None])%nat -> match lact stuck_pre [None] k with Some lb => usual small_buffer tt0 pfx0 (lst small_buffer tt0 1 stuck_pre [None] k) lb | None => True end.
Proof.
  intros k L. generalize (lact_nth stuck_pre [None] k L). unfold once in L. change (length stuck_pre + length [@None dlabel])%nat with 23%nat in L.
  intro E. rewrite E. clear E.
  let r := eval vm_compute in (stuck_pre ++ [None]) in change (stuck_pre ++ [None]) with r.
  do 23 (destruct k as [|k]; [cbn [nth]; first [exact I|stuck_case 0]|]). lia.
Qed.
Lemma stuck_closed : lst small_buffer tt0 1 stuck_pre [None] (once stuck_pre [None]) = lst small_buffer tt0 1 stuck_pre [None] (length stuck_pre).
Proof. vm_compute. reflexivity. Qed.
Lemma stuck_fair : fairb small_buffer tt0 1 stuck_pre [None] 1 = true.
Proof. vm_compute. reflexivity. Qed.
Theorem c103_full_buffer_refuted : exists st act k c,
  driven_execution small_buffer tt0 1 (usual small_buffer tt0 pfx0) st act /\ callbacks_come st act /\ reader_scheduled st act /\ threads_scheduled small_buffer tt0 st act /\
  answered (path_actions (so_far act k)) (c_id c, false) = [ans "OK" 0 false true] /\
  forall k', (k <= k')%nat -> at_rest (st k') /\ nth_error (ths (w_core (d_whole (st k')))) 0 = Some (Wait c) /\ queue (w_core (d_whole (st k'))) = None /\
    length (w_fifo (d_whole (st k'))) = 6%nat /\ act k' = None.
Proof.
  set (st := lst small_buffer tt0 1 stuck_pre [None]). set (act := lact stuck_pre [None]). assert (NE : [@None dlabel] <> []) by discriminate.
  exists st, act, (length stuck_pre), {| c_id := 0; c_req := q_plain |}.
  destruct (fair_lasso small_buffer tt0 1 stuck_pre [None] 1 NE stuck_closed stuck_fair) as (F1 & F2 & F3). fold st act in F1, F2, F3.
  split; [exact (lasso_checked small_buffer tt0 1 stuck_pre [None] NE stuck_closed _ stuck_usual stuck_steps)|]. split; [exact F1|]. split; [exact F2|]. split; [exact F3|]. split; [vm_compute; reflexivity|].
  assert (ST : forall m, st (length stuck_pre + m)%nat = st (length stuck_pre)).
  { induction m as [|m IH]; [rewrite Nat.add_0_r; reflexivity|]. replace (length stuck_pre + Datatypes.S m)%nat with (length stuck_pre + m + 1)%nat by lia. rewrite <- IH.
    apply (lst_period small_buffer tt0 1 stuck_pre [None] NE stuck_closed). lia. }
  intros k' L. replace k' with (length stuck_pre + (k' - length stuck_pre))%nat by lia. rewrite ST. split; [repeat split; vm_compute; reflexivity|]. split; [vm_compute; reflexivity|]. split; [vm_compute; reflexivity|]. split; [vm_compute; reflexivity|].
  unfold act, lact. destruct (Nat.ltb_spec (length stuck_pre + (k' - length stuck_pre)) (length stuck_pre)); [lia|]. cbn [length]. rewrite Nat.mod_1_r. reflexivity.
Qed.
Print Assumptions c103_full_buffer_refuted.

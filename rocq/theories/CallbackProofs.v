(** Lemmas about event callbacks. *)
From Coq Require Import List Bool Arith Lia.
From Verif Require Import Callbacks SpecCallbacks.
Import ListNotations.

Lemma kind_eqb_eq a b : kind_eqb a b = true <-> a = b.
Proof. destruct a, b; split; intro H; try reflexivity; try discriminate H. Qed.
Lemma kind_eqb_refl a : kind_eqb a a = true.
Proof. apply kind_eqb_eq. reflexivity. Qed.
Lemma upd_same {A} k (v : A) m : upd k v m k = v.
Proof. unfold upd. rewrite kind_eqb_refl. reflexivity. Qed.
Lemma upd_other {A} k k' (v : A) m : k <> k' -> upd k v m k' = m k'.
Proof. intro H. unfold upd. destruct (kind_eqb k k') eqn:E; [apply kind_eqb_eq in E; contradiction|reflexivity]. Qed.
Lemma kind_dec (a b : kind) : {a = b} + {a <> b}.
Proof. decide equality. Qed.

(** A thread holds the lock. *)
Definition inside (p : apc) : Prop := match p with AFn _ _ _ | ACtx _ _ _ | AUnlock _ _ _ => True | _ => False end.
Definition reader_locked (r : rpc) : Prop := match r with RGet EvInput _ _ _ | RCall EvInput _ _ _ => True | _ => False end.

(** What the table holds, given the threads. *)
Definition half_state (s : state) (p : apc) : Prop :=
  match p with
  | ACtx k f c => fns s k = f /\ ctxs s k = snd (last_registration k (log s))
  | AUnlock k f c => fns s k = f /\ ctxs s k = stored_ctx k f c
  | _ => True
  end.
Definition seen_input (s : state) : Prop :=
  match rd s with
  | RGet EvInput e f c => match f with Some v => v = fns s EvInput | None => True end /\ match c with Some v => v = ctxs s EvInput | None => True end
  | RCall EvInput e f c => f = fns s EvInput /\ c = ctxs s EvInput
  | _ => True
  end.

Record inv (s : state) : Prop := {
  i_app : forall t p, nth_error (ths s) t = Some p -> inside p -> owner s = App t;
  i_rd : reader_locked (rd s) -> owner s = Reader;
  i_table : forall k, ~ half_registered s k -> (fns s k, ctxs s k) = last_registration k (log s);
  i_half : forall t p, nth_error (ths s) t = Some p -> half_state s p;
  i_seen : seen_input s }.

Lemma nth_set (l : list apc) t p t' : t < length l ->
  nth_error (firstn t l ++ p :: skipn (S t) l) t' = if t' =? t then Some p else nth_error l t'.
Proof.
  intro H. destruct (Nat.eqb_spec t' t) as [-> |N].
  - rewrite nth_error_app2 by (rewrite firstn_length; lia). rewrite firstn_length, Nat.min_l by lia. rewrite Nat.sub_diag. reflexivity.
  - destruct (Nat.lt_ge_cases t' t) as [L|G].
    + rewrite nth_error_app1 by (rewrite firstn_length; lia). rewrite <- (firstn_skipn t l) at 2. rewrite nth_error_app1 by (rewrite firstn_length; lia). reflexivity.
    + rewrite nth_error_app2 by (rewrite firstn_length; lia). rewrite firstn_length, Nat.min_l by lia.
      destruct (t' - t) as [|d] eqn:E; [lia|]. cbn [nth_error]. rewrite <- (firstn_skipn (S t) l) at 2.
      rewrite nth_error_app2 by (rewrite firstn_length; lia). rewrite firstn_length. f_equal. lia.
Qed.
Lemma nth_lt (l : list apc) t p : nth_error l t = Some p -> t < length l.
Proof. intro H. apply nth_error_Some. congruence. Qed.

Lemma inv_init n : inv (init n).
Proof.
  assert (K : forall t p, nth_error (repeat AIdle n) t = Some p -> p = AIdle).
  { intros t p H. apply nth_error_In in H. apply repeat_spec in H. exact H. }
  constructor; cbn; try (intros; contradiction); try (intros; discriminate); auto.
  - intros t p H I. rewrite (K _ _ H) in I. destruct I.
  - intros t p H. rewrite (K _ _ H). exact I.
Qed.

(** Only the thread list changes, thread [t] from a state outside the critical region to another one. *)
Lemma half_th s t p q k : nth_error (ths s) t = Some q -> ~ inside q -> ~ half_registered (set_th t p s) k -> ~ half_registered s k.
Proof.
  intros Hq Hn H (t' & f & c & E). apply H. exists t', f, c. cbn [set_th ths]. rewrite (nth_set _ _ _ _ (nth_lt _ _ _ Hq)).
  destruct (Nat.eqb_spec t' t) as [-> |N]; [|exact E]. destruct E as [E|E]; rewrite Hq in E; inversion E; subst; destruct (Hn I).
Qed.

Lemma inv_call s t k f c : inv s -> nth_error (ths s) t = Some AIdle -> inv (set_th t (ALock k f c) s).
Proof.
  intros V Hq. destruct V. pose proof (nth_lt _ _ _ Hq) as L. constructor; cbn [set_th ths owner rd fns ctxs log].
  - intros t' p. rewrite nth_set by exact L. destruct (t' =? t); [intro Q; inversion Q; subst; intros []|apply i_app0].
  - assumption.
  - intros k' H. apply i_table0. eapply half_th; [exact Hq|intros []|exact H].
  - intros t' p. rewrite nth_set by exact L. destruct (t' =? t); [intro Q; inversion Q; subst; exact I|]. intro Q. apply (i_half0 t' p Q).
  - exact i_seen0.
Qed.

Lemma outside_others s t p : inv s -> nth_error (ths s) t = Some p -> inside p ->
  forall t' q, nth_error (ths s) t' = Some q -> inside q -> t' = t.
Proof. intros V Hp Ip t' q Hq Iq. pose proof (i_app _ V _ _ Hp Ip). pose proof (i_app _ V _ _ Hq Iq). congruence. Qed.

Lemma half_only s t p : inv s -> nth_error (ths s) t = Some p -> inside p -> forall k, half_registered s k ->
  exists f c, p = ACtx k f c \/ p = AUnlock k f c.
Proof.
  intros V Hp Ip k (t' & f & c & E). exists f, c.
  assert (t' = t) by (destruct E as [E|E]; exact (outside_others s t p V Hp Ip _ _ E I)). subst t'.
  destruct E as [E|E]; rewrite Hp in E; inversion E; auto.
Qed.

Lemma reader_out s t p : inv s -> nth_error (ths s) t = Some p -> inside p -> ~ reader_locked (rd s).
Proof. intros V Hp Ip H. pose proof (i_app _ V _ _ Hp Ip). pose proof (i_rd _ V H). congruence. Qed.
Lemma seen_unlocked s s' : ~ reader_locked (rd s) -> rd s' = rd s -> seen_input s'.
Proof. intros H E. unfold seen_input. rewrite E. destruct (rd s); try exact I; destruct k; try exact I; destruct (H I). Qed.

Lemma inv_thread s t s' : inv s -> thread_step t s = Some s' -> inv s'.
Proof.
  intros V H. unfold thread_step in H. destruct (nth_error (ths s) t) as [p|] eqn:Hp; [|discriminate].
  pose proof (nth_lt _ _ _ Hp) as L. destruct p as [|k f c|k f c|k f c|k f c]; try discriminate.
  - destruct (owner s) eqn:O; try discriminate. inversion H; subst; clear H.
    constructor; cbn [set_th set_owner ths owner rd fns ctxs log].
    + intros t' q. rewrite nth_set by exact L. destruct (Nat.eqb_spec t' t) as [-> |N]; [reflexivity|]. intros Q I'. pose proof (i_app _ V _ _ Q I'). congruence.
    + intro R. pose proof (i_rd _ V R). congruence.
    + intros k' Hk. apply (i_table _ V). intro Hh. apply Hk. destruct Hh as (t' & f' & c' & E). exists t', f', c'. cbn [set_th set_owner ths].
      rewrite nth_set by exact L. destruct (Nat.eqb_spec t' t) as [-> |N]; [|exact E]. destruct E as [E|E]; rewrite Hp in E; discriminate.
    + intros t' q. rewrite nth_set by exact L. destruct (t' =? t); [intro Q; inversion Q; subst; exact I|]. intro Q. exact (i_half _ V t' q Q).
    + apply (seen_unlocked s); [|reflexivity]. intro R. pose proof (i_rd _ V R). congruence.
  - inversion H; subst; clear H. pose proof (i_app _ V _ _ Hp I) as O. pose proof (reader_out _ _ _ V Hp I) as RO.
    assert (NH : forall k', ~ half_registered s k').
    { intros k' Hh. destruct (half_only _ _ _ V Hp I _ Hh) as (f' & c' & [E|E]); discriminate. }
    constructor; cbn [set_th set_fn ths owner rd fns ctxs log].
    + intros t' q. rewrite nth_set by exact L. destruct (Nat.eqb_spec t' t) as [-> |N]; [intros; exact O|]. intros Q I'. exact (i_app _ V _ _ Q I').
    + intro R. destruct (RO R).
    + intros k' Hk. destruct (kind_dec k k') as [-> |NE].
      * destruct Hk. exists t, f, c. cbn [set_th set_fn ths]. rewrite nth_set by exact L. rewrite Nat.eqb_refl. auto.
      * rewrite upd_other by exact NE. apply (i_table _ V). apply NH.
    + intros t' q. rewrite nth_set by exact L. destruct (Nat.eqb_spec t' t) as [-> |N].
      * intro Q; inversion Q; subst. cbn [half_state set_th set_fn fns ctxs log]. rewrite upd_same. split; [reflexivity|].
        rewrite <- (i_table _ V k (NH k)). reflexivity.
      * intro Q. destruct q; try exact I; [destruct (N (outside_others _ _ _ V Hp I _ _ Q I))|destruct (N (outside_others _ _ _ V Hp I _ _ Q I))].
    + apply (seen_unlocked s); [exact RO|reflexivity].
  - inversion H; subst; clear H. pose proof (i_app _ V _ _ Hp I) as O. pose proof (reader_out _ _ _ V Hp I) as RO.
    assert (NH : forall k', k <> k' -> ~ half_registered s k').
    { intros k' NE Hh. destruct (half_only _ _ _ V Hp I _ Hh) as (f' & c' & [E|E]); inversion E; subst; congruence. }
    destruct (i_half _ V _ _ Hp) as [HF HC].
    constructor; cbn [set_th set_ctx ths owner rd fns ctxs log].
    + intros t' q. rewrite nth_set by exact L. destruct (Nat.eqb_spec t' t) as [-> |N]; [intros; exact O|]. intros Q I'. exact (i_app _ V _ _ Q I').
    + intro R. destruct (RO R).
    + intros k' Hk. destruct (kind_dec k k') as [-> |NE].
      * destruct Hk. exists t, f, c. cbn [set_th set_ctx ths]. rewrite nth_set by exact L. rewrite Nat.eqb_refl. auto.
      * rewrite upd_other by exact NE. apply (i_table _ V). apply NH. exact NE.
    + intros t' q. rewrite nth_set by exact L. destruct (Nat.eqb_spec t' t) as [-> |N].
      * intro Q; inversion Q; subst. cbn [half_state set_th set_ctx fns ctxs log]. rewrite upd_same. split; reflexivity.
      * intro Q. destruct q; try exact I; [destruct (N (outside_others _ _ _ V Hp I _ _ Q I))|destruct (N (outside_others _ _ _ V Hp I _ _ Q I))].
    + apply (seen_unlocked s); [exact RO|reflexivity].
  - inversion H; subst; clear H. pose proof (i_app _ V _ _ Hp I) as O. pose proof (reader_out _ _ _ V Hp I) as RO.
    assert (NH : forall k', k <> k' -> ~ half_registered s k').
    { intros k' NE Hh. destruct (half_only _ _ _ V Hp I _ Hh) as (f' & c' & [E|E]); inversion E; subst; congruence. }
    destruct (i_half _ V _ _ Hp) as [HF HC].
    constructor; cbn [set_th set_owner add_log ths owner rd fns ctxs log].
    + intros t' q. rewrite nth_set by exact L. destruct (Nat.eqb_spec t' t) as [-> |N]; [intros Q I'; inversion Q; subst; destruct I'|].
      intros Q I'. destruct (N (outside_others _ _ _ V Hp I _ _ Q I')).
    + intro R. destruct (RO R).
    + intros k' Hk. cbn [last_registration]. destruct (kind_eqb k k') eqn:E.
      * apply kind_eqb_eq in E. subst k'. rewrite HF, HC. reflexivity.
      * apply (i_table _ V). apply NH. intros ->. rewrite kind_eqb_refl in E. discriminate.
    + intros t' q. rewrite nth_set by exact L. destruct (Nat.eqb_spec t' t) as [-> |N].
      * intro Q; inversion Q; subst. exact I.
      * intro Q. destruct q; try exact I; [destruct (N (outside_others _ _ _ V Hp I _ _ Q I))|destruct (N (outside_others _ _ _ V Hp I _ _ Q I))].
    + apply (seen_unlocked s); [exact RO|reflexivity].
Qed.

(** The reader changes neither table nor threads. *)
Lemma inv_rd s r : inv s -> (reader_locked r -> owner s = Reader) -> seen_input (set_rd r s) -> inv (set_rd r s).
Proof. intros V H1 H2. destruct V. constructor; auto. Qed.
Lemma inv_own s r h : inv s -> (h = Free /\ owner s = Reader \/ h = Reader /\ owner s = Free) -> (reader_locked r -> h = Reader) ->
  seen_input (set_rd r s) -> inv (set_rd r (set_owner h s)).
Proof.
  intros V H1 H2 H3. constructor; cbn [set_rd set_owner ths owner rd fns ctxs log].
  - intros t p Q I'. pose proof (i_app _ V _ _ Q I'). destruct H1 as [[_ E]|[_ E]]; congruence.
  - exact H2.
  - apply V.
  - apply V.
  - exact H3.
Qed.
Lemma inv_log s k e f c : inv s -> inv (add_log (Invoked k e f c) s).
Proof.
  intro V. destruct V. constructor; cbn [add_log ths owner rd fns ctxs log last_registration]; auto.
Qed.

Local Ltac fin := try assumption; try (intros []; fail); try exact I; try solve [intros []]; cbn in *; try tauto.
Lemma inv_reader s b s' : inv s -> reader_step b s = Some s' -> inv s'.
Proof.
  intros V H. unfold reader_step in H. pose proof (i_seen _ V) as Sn. pose proof (i_rd _ V) as Rd. unfold seen_input in Sn.
  destruct (rd s) as [|k e|k e|k e|k e f c|k e f c|] eqn:R; try discriminate.
  - destruct (fns s k); inversion H; subst; apply inv_rd; fin.
  - destruct (fns s k) as [g|]; inversion H; subst; [|apply inv_rd; fin]. destruct k; apply inv_rd; fin.
  - destruct (owner s) eqn:O; try discriminate. inversion H; subst. destruct k; apply inv_own; fin.
  - destruct f as [f|], c as [c|]; inversion H; subst.
    + destruct k; apply inv_rd; fin.
    + destruct k; apply inv_rd; fin.
    + destruct k; apply inv_rd; fin.
    + destruct b; destruct k; apply inv_rd; fin.
  - destruct f as [f|]; inversion H; subst.
    + destruct k; try (apply inv_rd; [apply inv_log; assumption|intros []|exact I]).
      change (inv (set_rd RIdle (set_owner Free (add_log (Invoked EvInput e f c) s)))). apply inv_own; [apply inv_log; assumption| |intros []|exact I].
      left. split; [reflexivity|]. cbn. apply Rd. exact I.
    + apply inv_rd; fin.
Qed.

Lemma inv_step l s s' : inv s -> step l s = Some s' -> inv s'.
Proof.
  intros V H. destruct l as [t k f c|t|k e|b]; cbn [step] in H.
  - destruct (nth_error (ths s) t) as [[| | | |]|] eqn:E; inversion H; subst. apply inv_call; assumption.
  - eapply inv_thread; eassumption.
  - destruct (rd s) eqn:R; try discriminate. inversion H; subst. destruct k; apply inv_rd; fin.
  - eapply inv_reader; eassumption.
Qed.

Lemma inv_exec t x n : execution t x n -> forall i, i <= n -> inv (x i).
Proof.
  intros [H0 HS] i. induction i as [|i IH]; intro L; [rewrite H0; apply inv_init|].
  destruct (HS i ltac:(lia)) as [l E]. eapply inv_step; [apply IH; lia|exact E].
Qed.

(** What one action does to the reader. *)
Lemma thread_rd t s s' : thread_step t s = Some s' -> rd s' = rd s.
Proof.
  unfold thread_step. intro H. destruct (nth_error (ths s) t) as [[|? ? ?|? ? ?|? ? ?|? ? ?]|]; try discriminate; try (inversion H; reflexivity).
  destruct (owner s); inversion H; reflexivity.
Qed.
Lemma step_rd l s s' : step l s = Some s' ->
  rd s' = rd s \/ (rd s = RIdle /\ exists k e, handling s' k e /\ (rd s' = RFirst k e \/ rd s' = RCheck k e)) \/ (exists b, reader_step b s = Some s').
Proof.
  intro H. destruct l as [t k f c|t|k e|b]; cbn [step] in H.
  - destruct (nth_error (ths s) t) as [[|? ? ?|? ? ?|? ? ?|? ? ?]|]; inversion H; subst. left; reflexivity.
  - left. eapply thread_rd; eassumption.
  - destruct (rd s) eqn:R; try discriminate. inversion H; subst. right; left. split; [reflexivity|]. exists k, e. unfold handling. destruct k; cbn; auto.
  - right; right. eauto.
Qed.

Definition reads (x : nat -> state) (i n : nat) (k : kind) (e : nat) : Prop :=
  (forall f c, rd (x n) = RGet k e (Some f) c -> exists j, i < j <= n /\ fns (x j) k = f) /\
  (forall f c, rd (x n) = RGet k e f (Some c) -> exists j, i < j <= n /\ ctxs (x j) k = c) /\
  (forall f c, rd (x n) = RCall k e f c -> (exists j, i < j <= n /\ fns (x j) k = f) /\ (exists j, i < j <= n /\ ctxs (x j) k = c)).

Lemma handling_not_idle s k e : handling s k e -> rd s <> RIdle.
Proof. intros [H|[H|[H|[(f & c & H)|(f & c & H)]]]]; rewrite H; discriminate. Qed.
Lemma handling_rd s s' k e : rd s' = rd s -> handling s k e -> handling s' k e.
Proof. unfold handling. intros ->. trivial. Qed.

(** The reader's own actions, while it goes on handling the event. *)
Lemma reader_handles b s s' k e : reader_step b s = Some s' -> handling s' k e -> handling s k e /\
  (forall f c, rd s' = RGet k e (Some f) c -> (exists c', rd s = RGet k e (Some f) c') \/ fns s k = f) /\
  (forall f c, rd s' = RGet k e f (Some c) -> (exists f', rd s = RGet k e f' (Some c)) \/ ctxs s k = c) /\
  (forall f c, rd s' = RCall k e f c -> ((exists c', rd s = RGet k e (Some f) c') \/ fns s k = f) /\ ((exists f', rd s = RGet k e f' (Some c)) \/ ctxs s k = c)).
Proof.
  intros H HH. unfold reader_step in H. unfold handling in *.
  destruct (rd s) as [|k0 e0|k0 e0|k0 e0|k0 e0 f0 c0|k0 e0 f0 c0|] eqn:R; try discriminate.
  - destruct (fns s k0); inversion H; subst; cbn in HH; destruct HH as [Q|[Q|[Q|[(fz & cz & Q)|(fz & cz & Q)]]]]; try discriminate; inversion Q; subst.
    split; [auto|]. cbn. repeat split; intros; discriminate.
  - destruct (fns s k0); [|inversion H; subst; cbn in HH; destruct HH as [Q|[Q|[Q|[(fz & cz & Q)|(fz & cz & Q)]]]]; discriminate].
    assert (E : k0 = k /\ e0 = e) by (destruct k0; inversion H; subst; cbn in HH; destruct HH as [Q|[Q|[Q|[(fz & cz & Q)|(fz & cz & Q)]]]]; try discriminate; inversion Q; subst; auto).
    destruct E as [-> ->]. split; [auto|]. destruct k; inversion H; subst; cbn; repeat split; intros; discriminate.
  - destruct (owner s); try discriminate. inversion H; subst; cbn in HH; destruct HH as [Q|[Q|[Q|[(fz & cz & Q)|(fz & cz & Q)]]]]; try discriminate; inversion Q; subst.
    split; [auto|]. cbn. repeat split; intros; discriminate.
  - assert (E : k0 = k /\ e0 = e).
    { destruct f0, c0, b; inversion H; subst; cbn in HH; destruct HH as [Q|[Q|[Q|[(fz & cz & Q)|(fz & cz & Q)]]]]; try discriminate; inversion Q; subst; auto. }
    destruct E as [-> ->]. split; [eauto 10|].
    destruct f0 as [f0|], c0 as [c0|]; try destruct b; inversion H; subst; cbn; (split; [|split]); intros fz cz Q; inversion Q; subst; try (split; eauto; fail); eauto.
  - destruct f0; inversion H; subst; [destruct k0|]; cbn in HH; destruct HH as [Q|[Q|[Q|[(fz & cz & Q)|(fz & cz & Q)]]]]; discriminate.
Qed.

Lemma window_exists t x n : execution t x n -> forall m k e, m <= n -> handling (x m) k e -> exists i, window x i m k e /\ reads x i m k e.
Proof.
  intros [H0 HS] m. induction m as [|m IH]; intros k e L H; [apply handling_not_idle in H; rewrite H0 in H; destruct (H eq_refl)|].
  destruct (HS m ltac:(lia)) as [l E]. destruct (step_rd _ _ _ E) as [R|[[R (k' & e' & H' & R')]|[b R]]].
  - destruct (IH k e ltac:(lia) (handling_rd _ _ _ _ (eq_sym R) H)) as (i & (W1 & W2 & W3) & A & B & C). exists i. split.
    + split; [lia|]. split; [exact W2|]. intros q Q. destruct (Nat.eq_dec q (S m)) as [-> |]; [exact H|apply W3; lia].
    + unfold reads. rewrite R. split; [|split].
      * intros f c Q. destruct (A f c Q) as (j & J & K). exists j. split; [lia|exact K].
      * intros f c Q. destruct (B f c Q) as (j & J & K). exists j. split; [lia|exact K].
      * intros f c Q. destruct (C f c Q) as ((j & J & K) & (j' & J' & K')). split; [exists j|exists j']; (split; [lia|assumption]).
  - exists m. assert (k' = k /\ e' = e) as [-> ->].
    { destruct R' as [R'|R']; destruct H as [Q|[Q|[Q|[(f & c & Q)|(f & c & Q)]]]]; rewrite R' in Q; inversion Q; auto. }
    split.
    + split; [lia|]. split; [exact R|]. intros q Q. replace q with (S m) by lia. exact H.
    + unfold reads. destruct R' as [R'|R']; rewrite R'; repeat split; intros; discriminate.
  - destruct (reader_handles _ _ _ _ _ R H) as (HM & A' & B' & C').
    destruct (IH k e ltac:(lia) HM) as (i & (W1 & W2 & W3) & A & B & C). exists i. split.
    + split; [lia|]. split; [exact W2|]. intros q Q. destruct (Nat.eq_dec q (S m)) as [-> |]; [exact H|apply W3; lia].
    + assert (FA : forall f, (exists c', rd (x m) = RGet k e (Some f) c') \/ fns (x m) k = f -> exists j, i < j <= S m /\ fns (x j) k = f).
      { intros f [[c' Q]|Q]; [destruct (A f c' Q) as (j & J & K); exists j; split; [lia|exact K]|exists m; split; [lia|exact Q]]. }
      assert (FB : forall c, (exists f', rd (x m) = RGet k e f' (Some c)) \/ ctxs (x m) k = c -> exists j, i < j <= S m /\ ctxs (x j) k = c).
      { intros c [[f' Q]|Q]; [destruct (B f' c Q) as (j & J & K); exists j; split; [lia|exact K]|exists m; split; [lia|exact Q]]. }
      split; [|split].
      * intros f c Q. apply FA. exact (A' f c Q).
      * intros f c Q. apply FB. exact (B' f c Q).
      * intros f c Q. destruct (C' f c Q) as [U V]. split; [apply FA|apply FB]; assumption.
Qed.

(** All schedules: what is called was registered at some moment of the event's handling. *)
Lemma called_was_current t x n k e f c : execution t x n -> rd (x n) = RCall k e f c ->
  exists i, window x i n k e /\ (exists j, i < j <= n /\ fns (x j) k = f) /\ (exists j, i < j <= n /\ ctxs (x j) k = c).
Proof.
  intros HE H. destruct (window_exists _ _ _ HE n k e (le_n _)) as (i & W & A & B & C); [unfold handling; eauto 10|].
  exists i. split; [exact W|]. apply (C f c H).
Qed.

(** Quiet windows. *)
Lemma table_last t x n i k : execution t x n -> i <= n -> ~ half_registered (x i) k -> (fns (x i) k, ctxs (x i) k) = last_registration k (log (x i)).
Proof. intros HE L H. apply (i_table _ (inv_exec _ _ _ HE i L)). exact H. Qed.

(** One action in which no registration for [k] is half done before or after leaves [k]'s entry and its last registration alone. *)
Lemma thread_log t s s' k : thread_step t s = Some s' -> ~ half_registered s k -> ~ half_registered s' k ->
  last_registration k (log s') = last_registration k (log s) /\ invocations (log s') = invocations (log s).
Proof.
  unfold thread_step. intros H NH NH'. destruct (nth_error (ths s) t) as [[|k0 f c|k0 f c|k0 f c|k0 f c]|] eqn:E; try discriminate; try (inversion H; subst; split; reflexivity).
  - destruct (owner s); inversion H; subst; split; reflexivity.
  - inversion H; subst. cbn. destruct (kind_eqb k0 k) eqn:K; [|split; reflexivity]. apply kind_eqb_eq in K. subst k0. destruct NH. exists t, f, c. auto.
Qed.
Lemma step_log l s s' k : step l s = Some s' -> ~ half_registered s k -> ~ half_registered s' k -> (rd s' <> RIdle \/ rd s = RIdle) ->
  last_registration k (log s') = last_registration k (log s) /\ invocations (log s') = invocations (log s).
Proof.
  intros H N1 N2 NI. destruct l as [t k0 f c|t|k0 e|b]; cbn [step] in H.
  - destruct (nth_error (ths s) t) as [[|? ? ?|? ? ?|? ? ?|? ? ?]|]; inversion H; subst; split; reflexivity.
  - eapply thread_log; eassumption.
  - destruct (rd s); inversion H; subst; split; reflexivity.
  - unfold reader_step in H. destruct (rd s) as [|k1 e1|k1 e1|k1 e1|k1 e1 f0 c0|k1 e1 f0 c0|]; try discriminate.
    + destruct (fns s k1); inversion H; subst; split; reflexivity.
    + destruct (fns s k1); inversion H; subst; split; reflexivity.
    + destruct (owner s); inversion H; subst; split; reflexivity.
    + destruct f0, c0; inversion H; subst; split; reflexivity.
    + destruct f0; inversion H; subst; [|split; reflexivity]. destruct NI as [NI|NI]; [|discriminate]. destruct k1; cbn in NI; congruence.
Qed.

Lemma quiet_window t x n i k e : execution t x n -> window x i n k e -> (forall m, i <= m <= n -> ~ half_registered (x m) k) ->
  forall m, i <= m <= n -> last_registration k (log (x m)) = last_registration k (log (x i)) /\ invocations (log (x m)) = invocations (log (x i)).
Proof.
  intros HE (W1 & W2 & W3) NQ m. induction m as [|m IH]; intro L; [replace i with 0 by lia; auto|].
  destruct (Nat.eq_dec (S m) i) as [<- |NE]; [auto|].
  destruct (IH ltac:(lia)) as [A B]. destruct HE as [_ HS]. destruct (HS m ltac:(lia)) as [l E].
  assert (NI : rd (x (S m)) <> RIdle \/ rd (x m) = RIdle) by (left; eapply handling_not_idle; apply W3; lia).
  destruct (step_log l _ _ k E (NQ m ltac:(lia)) (NQ (S m) ltac:(lia)) NI) as [C D]. split; congruence.
Qed.

(** The event's handling ends at [S n]; no registration of this callback was half done meanwhile: the callback registered last
    has been called exactly once, with its context; nothing has been called if none was registered. *)
Lemma quiet_exact t x n i k e : execution t x (S n) -> window x i n k e -> (forall m, i <= m <= n -> ~ half_registered (x m) k) ->
  ~ handling (x (S n)) k e ->
  rd (x (S n)) = RIdle /\
  invocations (log (x (S n))) = match last_registration k (log (x i)) with
                                | (Some f, c) => [Invoked k e f c]
                                | (None, _) => []
                                end ++ invocations (log (x i)).
Proof.
  intros HE W NQ NH. assert (HE' : execution t x n) by (destruct HE as [A B]; split; [exact A|intros; apply B; lia]).
  pose proof (quiet_window _ _ _ _ _ _ HE' W NQ) as QW.
  assert (TB : forall m, i <= m <= n -> (fns (x m) k, ctxs (x m) k) = last_registration k (log (x i))).
  { intros m L. rewrite (table_last t x n m k HE' (proj2 L) (NQ m L)). apply QW. exact L. }
  destruct W as (W1 & W2 & W3). pose proof (W3 n ltac:(lia)) as HN.
  destruct HE as [_ HS]. destruct (HS n ltac:(lia)) as [l E]. destruct (step_rd _ _ _ E) as [R|[[R _]|[b R]]].
  - destruct (NH (handling_rd _ _ _ _ R HN)).
  - destruct (handling_not_idle _ _ _ HN R).
  - destruct (QW n ltac:(lia)) as [_ QI]. pose proof (TB n ltac:(lia)) as Tn. unfold reader_step in R.
    destruct HN as [Q|[Q|[Q|[(f & c & Q)|(f & c & Q)]]]]; rewrite Q in R.
    + destruct (fns (x n) k) eqn:F; inversion R as [R']; rewrite <- R' in *; [destruct NH; unfold handling; cbn; auto|]. cbn.
      rewrite <- Tn. split; [reflexivity|exact QI].
    + destruct (fns (x n) k) eqn:F; inversion R as [R']; rewrite <- R' in *; [destruct NH; unfold handling; destruct k; cbn; eauto 10|]. cbn.
      rewrite <- Tn. split; [reflexivity|exact QI].
    + destruct (owner (x n)); inversion R as [R']; rewrite <- R' in *. destruct NH; unfold handling; cbn; eauto 10.
    + destruct f, c; inversion R as [R']; rewrite <- R' in *; destruct NH; unfold handling; try destruct b; cbn; eauto 10.
    + destruct (called_was_current _ _ _ _ _ _ _ HE' Q) as (i' & (W1' & W2' & W3') & (j & J & FJ) & (j' & J' & CJ)).
      assert (i' = i).
      { destruct (Nat.lt_trichotomy i' i) as [LT|[EQ|GT]]; [|exact EQ|].
        - destruct (handling_not_idle _ _ _ (W3' i ltac:(lia)) W2).
        - destruct (handling_not_idle _ _ _ (W3 i' ltac:(lia)) W2'). }
      subst i'. pose proof (TB j ltac:(lia)) as Tj. pose proof (TB j' ltac:(lia)) as Tj'.
      assert (EP : last_registration k (log (x i)) = (f, c)) by (rewrite <- Tj' in Tj; inversion Tj; congruence).
      rewrite EP. destruct f as [g|].
      * destruct k; inversion R as [R']; rewrite <- R' in *; cbn [set_rd set_owner add_log rd log invocations filter app]; (split; [reflexivity|]); f_equal; exact QI.
      * (* the check saw a function, so it cannot be gone *)
        exfalso. clear R NH E b l QI Tn.
        assert (NC : forall m, i < m <= n -> handling (x m) k e -> rd (x m) = RFirst k e \/ rd (x m) = RCheck k e).
        { intros m. induction m as [|m IH]; intros L H; [lia|]. destruct (HS m ltac:(lia)) as [l E].
          destruct (Nat.eq_dec m i) as [-> |NE].
          - destruct (step_rd _ _ _ E) as [R|[[R (k' & e' & H' & R')]|[b R]]].
            + rewrite W2 in R. destruct (handling_not_idle _ _ _ H R).
            + assert (k' = k /\ e' = e) as [-> ->].
              { destruct R' as [R'|R']; destruct H as [U|[U|[U|[(f & c' & U)|(f & c' & U)]]]]; rewrite R' in U; inversion U; auto. }
              exact R'.
            + unfold reader_step in R. rewrite W2 in R. discriminate.
          - destruct (IH ltac:(lia) (W3 m ltac:(lia))) as [P|P].
            + destruct (step_rd _ _ _ E) as [R|[[R _]|[b R]]]; [rewrite R, P; auto|congruence|].
              unfold reader_step in R. rewrite P in R. pose proof (TB m ltac:(lia)) as Tm. rewrite EP in Tm. inversion Tm as [[Fm Cm]]. rewrite Fm in R.
              inversion R as [R']. rewrite <- R' in H. destruct (handling_not_idle _ _ _ H eq_refl).
            + destruct (step_rd _ _ _ E) as [R|[[R _]|[b R]]]; [rewrite R, P; auto|congruence|].
              unfold reader_step in R. rewrite P in R. pose proof (TB m ltac:(lia)) as Tm. rewrite EP in Tm. inversion Tm as [[Fm Cm]]. rewrite Fm in R.
              inversion R as [R']. rewrite <- R' in H. destruct (handling_not_idle _ _ _ H eq_refl). }
        destruct (NC n ltac:(lia) (W3 n ltac:(lia))) as [P|P]; congruence.
Qed.

(** The input buffer callback is called under the lock: function and context always belong together and are the last registered. *)
Lemma input_pair t x n e f c : execution t x n -> rd (x n) = RCall EvInput e f c -> last_registration EvInput (log (x n)) = (f, c).
Proof.
  intros HE H. pose proof (inv_exec _ _ _ HE n (le_n _)) as V. pose proof (i_seen _ V) as Sn. unfold seen_input in Sn. rewrite H in Sn. destruct Sn as [-> ->].
  symmetry. apply (i_table _ V). intros (t' & f' & c' & E).
  assert (O1 : owner (x n) = Reader) by (apply (i_rd _ V); rewrite H; exact I).
  assert (O2 : owner (x n) = App t') by (destruct E as [E|E]; exact (i_app _ V _ _ E I)). congruence.
Qed.

(** An entry [Invoked] is logged only by the reader's call. *)
Lemma invoked_from t x n k e f c : execution t x (S n) -> log (x (S n)) = Invoked k e f c :: log (x n) -> rd (x n) = RCall k e (Some f) c.
Proof.
  intros [_ HS] HL. destruct (HS n ltac:(lia)) as [l E].
  assert (NE : forall (l0 : list entry) a, l0 = a :: l0 -> False) by (induction l0; intros ? Q; inversion Q; eauto).
  destruct l as [t0 k0 f0 c0|t0|k0 e0|b]; cbn [step] in E.
  - destruct (nth_error (ths (x n)) t0) as [[]|]; inversion E as [E']; rewrite <- E' in HL; cbn in HL; destruct (NE _ _ HL).
  - unfold thread_step in E. destruct (nth_error (ths (x n)) t0) as [[]|]; try discriminate.
    + destruct (owner (x n)); inversion E as [E']; rewrite <- E' in HL; cbn in HL; destruct (NE _ _ HL).
    + inversion E as [E']; rewrite <- E' in HL; cbn in HL; destruct (NE _ _ HL).
    + inversion E as [E']; rewrite <- E' in HL; cbn in HL; destruct (NE _ _ HL).
    + inversion E as [E']; rewrite <- E' in HL; cbn in HL; discriminate.
  - destruct (rd (x n)); inversion E as [E']; rewrite <- E' in HL; cbn in HL; destruct (NE _ _ HL).
  - unfold reader_step in E. destruct (rd (x n)) as [|k1 e1|k1 e1|k1 e1|k1 e1 f0 c0|k1 e1 f0 c0|]; try discriminate.
    + destruct (fns (x n) k1); inversion E as [E']; rewrite <- E' in HL; cbn in HL; destruct (NE _ _ HL).
    + destruct (fns (x n) k1); inversion E as [E']; rewrite <- E' in HL; cbn in HL; destruct (NE _ _ HL).
    + destruct (owner (x n)); inversion E as [E']; rewrite <- E' in HL; cbn in HL; destruct (NE _ _ HL).
    + destruct f0, c0; inversion E as [E']; rewrite <- E' in HL; cbn in HL; destruct (NE _ _ HL).
    + destruct f0; inversion E as [E']; rewrite <- E' in HL; [destruct k1; cbn in HL; inversion HL; reflexivity|cbn in HL; destruct (NE _ _ HL)].
Qed.

Lemma path_run ls : forall s s', run ls s = Some s' -> path ls s (length ls) = s' /\
  forall i, i < length ls -> exists l, step l (path ls s i) = Some (path ls s (S i)).
Proof.
  induction ls as [|l ls IH]; cbn [run length]; intros s s' H; [inversion H; subst; split; [reflexivity|intros; lia]|].
  destruct (step l s) as [s1|] eqn:E; [|discriminate]. destruct (IH _ _ H) as [A B]. split.
  - cbn [path]. rewrite E. exact A.
  - intros [|i] L.
    + exists l. cbn [path]. rewrite E. destruct ls; reflexivity.
    + destruct (B i ltac:(lia)) as [l' Q]. exists l'. cbn [path]. rewrite E. exact Q.
Qed.
Lemma run_execution ls t s : run ls (init t) = Some s -> exists x, execution t x (length ls) /\ x (length ls) = s.
Proof.
  intro H. destruct (path_run _ _ _ H) as [A B]. exists (path ls (init t)). split; [split|exact A].
  - destruct ls; reflexivity.
  - exact B.
Qed.

(** Log entries are what the calls asked for. *)
Definition pc_args (p : apc) : option (kind * option nat * nat) :=
  match p with AIdle => None | ALock k f c | AFn k f c | ACtx k f c | AUnlock k f c => Some (k, f, c) end.
Lemma nth_set_th t p s u : t < length (ths s) -> nth_error (ths (set_th t p s)) u = if t =? u then Some p else nth_error (ths s) u.
Proof.
  intro L. cbn [set_th ths]. generalize dependent t. generalize (ths s) as l. clear s. intro l. revert u. induction l as [|a l IH]; intros u t L; [cbn in L; lia|].
  destruct t as [|t]; destruct u as [|u]; try reflexivity. cbn [length] in L. cbn. apply (IH u t). lia.
Qed.
Lemma nth_some_lt {A} (l : list A) t p : nth_error l t = Some p -> t < length l.
Proof. intro H. apply nth_error_Some. congruence. Qed.
(** One action leaves a thread's arguments alone, unless the thread calls or returns. *)
Lemma step_args l s s' t a : step l s = Some s' -> (exists p, nth_error (ths s') t = Some p /\ pc_args p = Some a) ->
  (exists p, nth_error (ths s) t = Some p /\ pc_args p = Some a) \/ l = LCall t (fst (fst a)) (snd (fst a)) (snd a) /\ nth_error (ths s) t = Some AIdle.
Proof.
  intros H (p & E & A). destruct l as [u k f c|u|k e|b]; cbn [step] in H.
  - destruct (nth_error (ths s) u) as [[| | | |]|] eqn:U; inversion H; subst; clear H. rewrite nth_set_th in E by (eapply nth_some_lt; exact U).
    destruct (u =? t) eqn:Q; [|left; eauto]. apply Nat.eqb_eq in Q. subst u. injection E as <-. cbn in A. injection A as <-. right. auto.
  - unfold thread_step in H. destruct (nth_error (ths s) u) as [[|k f c|k f c|k f c|k f c]|] eqn:U; try discriminate.
    + destruct (owner s); inversion H; subst; clear H. rewrite nth_set_th in E by (eapply nth_some_lt; exact U). destruct (u =? t) eqn:Q; [|left; eauto].
      apply Nat.eqb_eq in Q. subst u. injection E as <-. left. eauto.
    + inversion H; subst; clear H. rewrite nth_set_th in E by (eapply nth_some_lt; exact U). destruct (u =? t) eqn:Q; [|left; eauto].
      apply Nat.eqb_eq in Q. subst u. injection E as <-. left. eauto.
    + inversion H; subst; clear H. rewrite nth_set_th in E by (eapply nth_some_lt; exact U). destruct (u =? t) eqn:Q; [|left; eauto].
      apply Nat.eqb_eq in Q. subst u. injection E as <-. left. eauto.
    + inversion H; subst; clear H. rewrite nth_set_th in E by (eapply nth_some_lt; exact U). destruct (u =? t) eqn:Q; [|left; eauto].
      apply Nat.eqb_eq in Q. subst u. injection E as <-. discriminate.
  - destruct (rd s); inversion H; subst; left; eauto.
  - left. exists p. split; [|exact A]. unfold reader_step in H. destruct (rd s) as [|k1 e1|k1 e1|k1 e1|k1 e1 f0 c0|k1 e1 f0 c0|]; try discriminate.
    + destruct (fns s k1); inversion H; subst; exact E.
    + destruct (fns s k1); inversion H; subst; exact E.
    + destruct (owner s); inversion H; subst; exact E.
    + destruct f0, c0; inversion H; subst; exact E.
    + destruct f0; inversion H; subst; [destruct k1|]; exact E.
Qed.
Lemma args_from t0 x n : execution t0 x n -> forall t a, (exists p, nth_error (ths (x n)) t = Some p /\ pc_args p = Some a) ->
  exists i, i < n /\ nth_error (ths (x i)) t = Some AIdle /\ step (LCall t (fst (fst a)) (snd (fst a)) (snd a)) (x i) = Some (x (S i)) /\
    forall j, i < j <= n -> nth_error (ths (x j)) t <> Some AIdle.
Proof.
  induction n as [|n IH]; intros HE t a H.
  - destruct HE as [HE _]. destruct H as (p & E & A). rewrite HE in E. cbn in E. apply nth_error_In in E. apply repeat_spec in E. subst p. discriminate.
  - assert (HN : nth_error (ths (x (S n))) t <> Some AIdle) by (destruct H as (p & E & A); intro Q; rewrite Q in E; injection E as <-; discriminate).
    destruct (proj2 HE n (Nat.lt_succ_diag_r n)) as (l & S). destruct (step_args _ _ _ _ _ S H) as [K|[-> K]].
    + destruct (IH (conj (proj1 HE) (fun i L => proj2 HE i (Nat.lt_lt_succ_r _ _ L))) t a K) as (i & L & E & C & N). exists i. split; [lia|]. split; [exact E|]. split; [exact C|].
      intros j J. destruct (Nat.eq_dec j (Datatypes.S n)) as [-> |NE]; [exact HN|apply N; lia].
    + exists n. split; [lia|]. split; [exact K|]. split; [exact S|]. intros j J. replace j with (Datatypes.S n) by lia. exact HN.
Qed.
Lemma registered_step l s s' k f c : step l s = Some s' -> log s' = Registered k f c :: log s ->
  exists t c0, nth_error (ths s) t = Some (AUnlock k f c0) /\ c = stored_ctx k f c0.
Proof.
  assert (NS : forall e (l : list entry), l <> e :: l) by (intros e l0 Q; apply (f_equal (@length _)) in Q; cbn in Q; lia).
  intros H G. destruct l as [u k0 f0 c0|u|k0 e|b]; cbn [step] in H.
  - destruct (nth_error (ths s) u) as [[| | | |]|]; inversion H; subst; cbn in G; destruct (NS _ _ G).
  - unfold thread_step in H. destruct (nth_error (ths s) u) as [[|k1 f1 c1|k1 f1 c1|k1 f1 c1|k1 f1 c1]|] eqn:U; try discriminate; try (inversion H; subst; cbn in G; destruct (NS _ _ G)).
    + destruct (owner s); inversion H; subst; cbn in G; destruct (NS _ _ G).
    + inversion H; subst. cbn in G. injection G as -> -> <-. eauto.
  - destruct (rd s); inversion H; subst; cbn in G; destruct (NS _ _ G).
  - unfold reader_step in H. destruct (rd s) as [|k1 e1|k1 e1|k1 e1|k1 e1 f1 c1|k1 e1 f1 c1|]; try discriminate.
    + destruct (fns s k1); inversion H; subst; cbn in G; destruct (NS _ _ G).
    + destruct (fns s k1); inversion H; subst; cbn in G; destruct (NS _ _ G).
    + destruct (owner s); inversion H; subst; cbn in G; destruct (NS _ _ G).
    + destruct f1, c1; inversion H; subst; cbn in G; destruct (NS _ _ G).
    + destruct f1; inversion H; subst; [|cbn in G; destruct (NS _ _ G)]. destruct k1; cbn in G; discriminate.
Qed.

(** Progress of requests (C68): every action of a thread inside a request brings it closer to its return, and such an action is
    always possible. *)
From Coq Require Import List NArith ZArith Bool Arith Lia.
From Verif Require Import Bytes AtCore Status SpecAt Pktio SpecPktio SpecStream Request SpecRequest RequestInv.
Import ListNotations.

Definition rank (p : tpc) : nat :=
  match p with
  | Idle => 0 | Release _ _ _ => 1 | DataReset _ _ _ => 2 | DataWait _ => 3 | Data2 _ => 4 | Data1 _ => 5 | Unhook _ _ _ => 6
  | Reset _ _ _ => 7 | Wait _ => 8 | SendB _ => 9 | SendA _ => 10 | Setup _ => 11 | Hook _ => 12 | Called _ => 13
  end.
Definition call_in (p : tpc) : option call :=
  match p with
  | Idle => None
  | Called c | Hook c | Setup c | SendA c | SendB c | Wait c | Reset c _ _ | Unhook c _ _ | Data1 c | Data2 c | DataWait c | DataReset c _ _ | Release c _ _ => Some c
  end.

Section Live.
Variable tt : token_table.

(** Positions a thread can only be in with these parts of the request present. *)
Definition shaped (p : tpc) : Prop :=
  match p with SendA c => rq_cmd (c_req c) <> None | Data1 c => data_of (rq_kind (c_req c)) <> None | _ => True end.

Lemma own_step lb i s s' p : own i lb -> exec tt lb s = Some s' -> nth_error (ths s) i = Some p ->
  exists p', ths s' = set_nth (ths s) i p' /\ (rank p' < rank p)%nat /\ (shaped p -> shaped p') /\
    (call_in p' = call_in p \/ p' = Idle /\ exists c st o, call_in p = Some c /\ log s' = Returned c st o :: log s).
Proof.
  intros O E EP. destruct lb as [j r|j|j|j|j| | | | | ]; try contradiction; cbn in O; subst j; cbn [exec] in E.
  - unfold thread_step in E. rewrite EP in E.
    destruct p as [|c|c|c|c|c|c|c st o|c st o|c|c|c|c st o|c st o]; try discriminate.
    + destruct (mtx s); [discriminate|]. injection E as <-. eexists. split; [reflexivity|]. cbn. auto.
    + injection E as <-. exists (Setup c). split; [destruct (rq_kind (c_req c)); reflexivity|]. cbn. auto.
    + destruct (rq_cmd (c_req c)) eqn:RC; injection E as <-; (eexists; split; [reflexivity|]; cbn; split; [lia|]; split; [intros _; try exact I; congruence|auto]).
    + destruct (rq_cmd (c_req c)); [|discriminate]. destruct (send_check _ _ _) as [st|e]; injection E as <-; [eexists; split; [reflexivity|]; cbn; split; [lia|auto]|].
      exists (SendB c). split; [destruct e; reflexivity|]. cbn. auto.
    + injection E as <-. eexists. split; [reflexivity|]. cbn. auto.
    + destruct (queue s); [|discriminate]. injection E as <-. eexists. split; [reflexivity|]. cbn. auto.
    + injection E as <-. eexists. split; [reflexivity|]. cbn. auto.
    + injection E as <-. exists (after_command c st o). split; [destruct (rq_kind (c_req c)); reflexivity|].
      unfold after_command. destruct (data_of (rq_kind (c_req c))) eqn:DO; [destruct st|]; cbn; (split; [lia|]); (split; [intros _; try exact I; congruence|auto]).
    + destruct (data_of _) as [d|]; [|discriminate]. destruct (d_data d); injection E as <-; (eexists; split; [reflexivity|]; cbn; split; [lia|auto]).
    + injection E as <-. eexists. split; [reflexivity|]. cbn. auto.
    + destruct (queue s); [|discriminate]. injection E as <-. eexists. split; [reflexivity|]. cbn. auto.
    + injection E as <-. eexists. split; [reflexivity|]. cbn. auto.
    + injection E as <-. exists Idle. split; [reflexivity|]. cbn. split; [lia|]. split; [auto|]. right. split; [reflexivity|]. exists c, st, o. auto.
  - rewrite EP in E. destruct p; try discriminate; injection E as <-; (eexists; split; [reflexivity|]; cbn; split; [lia|auto]).
  - rewrite EP in E. destruct p; try discriminate; injection E as <-; (eexists; split; [reflexivity|]; cbn; split; [lia|auto]).
  - rewrite EP in E. destruct p; try discriminate; injection E as <-; (eexists; split; [reflexivity|]; cbn; split; [lia|auto]).
Qed.

(** A thread inside a request moves only by its own actions. *)
Lemma other_step lb i s s' p : ~ own i lb -> exec tt lb s = Some s' -> nth_error (ths s) i = Some p -> p <> Idle -> nth_error (ths s') i = Some p.
Proof.
  intros O E EP NI.
  assert (NX : forall j q, j <> i -> nth_error (set_nth (ths s) j q) i = Some p) by (intros j q NE; rewrite nth_set_neq by exact NE; exact EP).
  destruct lb as [j r|j|j|j|j| |st|a k|l|g]; cbn [exec own] in *.
  - destruct (nth_error (ths s) j) as [[]|] eqn:EJ; try discriminate. assert (NE : j <> i) by (intros ->; congruence).
    destruct (rq_kind r) as [|[t|]| | |]; injection E as <-; cbn; auto.
  - unfold thread_step in E. destruct (nth_error (ths s) j) as [q|] eqn:EJ; [|discriminate]. assert (NE : j <> i) by congruence.
    destruct q as [|c|c|c|c|c|c|c st o|c st o|c|c|c|c st o|c st o]; try discriminate;
      repeat match goal with
        | H : match ?x with _ => _ end = Some _ |- _ => destruct x eqn:?; try discriminate
        end; injection E as <-; try (cbn; auto; fail).
    all: repeat match goal with |- context [match ?x with _ => _ end] => destruct x end; cbn; auto.
  - destruct (nth_error (ths s) j) as [[]|] eqn:EJ; try discriminate; injection E as <-; cbn; apply NX; congruence.
  - destruct (nth_error (ths s) j) as [[]|] eqn:EJ; try discriminate; injection E as <-; cbn; apply NX; congruence.
  - destruct (nth_error (ths s) j) as [[]|] eqn:EJ; try discriminate; injection E as <-; cbn; apply NX; congruence.
  - destruct (reader_frame tt s s' E) as (T & _). rewrite T. exact EP.
  - destruct (rd s); try discriminate. injection E as <-. exact EP.
  - destruct (rd s); try discriminate. destruct a; injection E as <-; exact EP.
  - injection E as <-. exact EP.
  - injection E as <-. exact EP.
Qed.

Lemma own_dec i lb : {own i lb} + {~ own i lb}.
Proof. destruct lb; cbn; try (right; tauto); apply Nat.eq_dec. Qed.

(** An action is possible for whoever holds the lock. *)
Lemma holder_enabled s i p : nth_error (ths s) i = Some p -> in_flight p -> shaped p -> exists lb s', own i lb /\ exec tt lb s = Some s'.
Proof.
  intros E F SH. destruct p as [|c|c|c|c|c|c|c st o|c st o|c|c|c|c st o|c st o]; try contradiction.
  all: try (exists (LTimeout i); cbn; rewrite E; eexists; split; [reflexivity|]; reflexivity).
  all: exists (LThread i); cbn; unfold thread_step; rewrite E; try (eexists; split; [reflexivity|]; reflexivity).
  - destruct (rq_cmd (c_req c)); eexists; (split; [reflexivity|]); reflexivity.
  - cbn in SH. destruct (rq_cmd (c_req c)); [|congruence]. destruct (send_check _ _ _); eexists; (split; [reflexivity|]); reflexivity.
  - cbn in SH. destruct (data_of _) as [d|]; [|congruence]. destruct (d_data d); eexists; (split; [reflexivity|]); reflexivity.
Qed.

Lemma run_shaped ok n lbs s : run tt ok (init n) lbs s -> forall i p, nth_error (ths s) i = Some p -> shaped p.
Proof.
  intro R. remember (init n) as s0 eqn:E0. induction R as [|s1 lbs s2 lb s3 R IH OK E]; intros i p EP.
  - subst. apply nth_repeat in EP. subst. exact I.
  - specialize (IH E0). destruct (nth_error (ths s2) i) as [q|] eqn:EQ.
    + destruct (own_dec i lb) as [O|O].
      * destruct (own_step lb i s2 s3 q O E EQ) as (p' & T & _ & SH & _). rewrite T, (nth_set_eq _ _ _ _ EQ) in EP. injection EP as <-. apply SH. eapply IH; exact EQ.
      * destruct q as [|c|c|c|c|c|c|c st o|c st o|c|c|c|c st o|c st o] eqn:QE; try (rewrite (other_step lb i s2 s3 q O E) in EP; [|congruence|congruence]; injection EP as <-; subst q; eapply IH; exact EQ).
        (* Idle: only a call can move it *)
        destruct lb as [j r|j|j|j|j| |st|a k|l|g]; cbn [exec own] in *.
        -- destruct (nth_error (ths s2) j) as [[]|] eqn:EJ; try discriminate.
           destruct (Nat.eq_dec j i) as [->|NE].
           ++ destruct (rq_kind r) as [|[t|]| | |]; injection E as <-; cbn in EP; rewrite ?(nth_set_eq _ _ _ _ EQ) in EP; try (injection EP as <-; exact I); rewrite EQ in EP; injection EP as <-; exact I.
           ++ destruct (rq_kind r) as [|[t|]| | |]; injection E as <-; cbn in EP; rewrite ?nth_set_neq in EP by exact NE; rewrite EQ in EP; injection EP as <-; exact I.
        -- assert (X : exists q', ths s3 = set_nth (ths s2) j q').
           { destruct (nth_error (ths s2) j) as [q'|] eqn:EJ; [destruct (own_step (LThread j) j s2 s3 q' eq_refl E EJ) as (p' & T & _); eauto|]. unfold thread_step in E. rewrite EJ in E. discriminate. }
           destruct X as (q' & T). rewrite T, nth_set_neq, EQ in EP by exact O. injection EP as <-. exact I.
        -- destruct (nth_error (ths s2) j) as [[]|] eqn:EJ; try discriminate; injection E as <-; cbn in EP; rewrite nth_set_neq, EQ in EP by exact O; injection EP as <-; exact I.
        -- destruct (nth_error (ths s2) j) as [[]|] eqn:EJ; try discriminate; injection E as <-; cbn in EP; rewrite nth_set_neq, EQ in EP by exact O; injection EP as <-; exact I.
        -- destruct (nth_error (ths s2) j) as [[]|] eqn:EJ; try discriminate; injection E as <-; cbn in EP; rewrite nth_set_neq, EQ in EP by exact O; injection EP as <-; exact I.
        -- destruct (reader_frame tt s2 s3 E) as (T & _). rewrite T, EQ in EP. injection EP as <-. exact I.
        -- destruct (rd s2); try discriminate. injection E as <-. cbn in EP. rewrite EQ in EP. injection EP as <-. exact I.
        -- destruct (rd s2); try discriminate. destruct a; injection E as <-; cbn in EP; rewrite EQ in EP; injection EP as <-; exact I.
        -- injection E as <-. cbn in EP. rewrite EQ in EP. injection EP as <-. exact I.
        -- injection E as <-. cbn in EP. rewrite EQ in EP. injection EP as <-. exact I.
    + (* no such thread *)
      exfalso. assert (LEN : length (ths s3) = length (ths s2)).
      { destruct lb as [j r|j|j|j|j| |st|a k|l|g].
        - cbn [exec] in E. destruct (nth_error (ths s2) j) as [[]|]; try discriminate. destruct (rq_kind r) as [|[t|]| | |]; injection E as <-; cbn; try apply set_nth_len; reflexivity.
        - destruct (nth_error (ths s2) j) as [q'|] eqn:EJ; [destruct (own_step (LThread j) j s2 s3 q' eq_refl E EJ) as (p' & T & _); rewrite T; apply set_nth_len|]. cbn in E. unfold thread_step in E. rewrite EJ in E. discriminate.
        - cbn [exec] in E. destruct (nth_error (ths s2) j) as [[]|] eqn:EJ; try discriminate; injection E as <-; cbn; apply set_nth_len.
        - cbn [exec] in E. destruct (nth_error (ths s2) j) as [[]|] eqn:EJ; try discriminate; injection E as <-; cbn; apply set_nth_len.
        - cbn [exec] in E. destruct (nth_error (ths s2) j) as [[]|] eqn:EJ; try discriminate; injection E as <-; cbn; apply set_nth_len.
        - destruct (reader_frame tt s2 s3 E) as (T & _). rewrite T. reflexivity.
        - cbn [exec] in E. destruct (rd s2); try discriminate. injection E as <-. reflexivity.
        - cbn [exec] in E. destruct (rd s2); try discriminate. destruct a; injection E as <-; reflexivity.
        - cbn [exec] in E. injection E as <-. reflexivity.
        - cbn [exec] in E. injection E as <-. reflexivity. }
      apply nth_error_None in EQ. assert (nth_error (ths s3) i <> None) by congruence. apply nth_error_Some in H. lia.
Qed.

(** ** Infinite executions *)
Variable st : nat -> state.
Variable act : nat -> label.
Variable n : nat.
Hypothesis exec_ok : execution tt n st act.

Lemma exec_run k : exists lbs, run tt anything (init n) lbs (st k).
Proof.
  destruct exec_ok as [E0 ES]. induction k as [|k (lbs & R)]; [exists []; rewrite E0; constructor|]. exists (lbs ++ [act k]). econstructor; [exact R|exact I|apply ES].
Qed.

Lemma holder_returns (FT : scheduled st act) : forall r k i p, rank p = r -> nth_error (ths (st k)) i = Some p -> in_flight p ->
  exists k' c st' o, (k <= k')%nat /\ call_in p = Some c /\ log (st (S k')) = Returned c st' o :: log (st k') /\ nth_error (ths (st (S k'))) i = Some Idle /\ mtx (st (S k')) = None.
Proof.
  intro r. induction r as [r IH] using lt_wf_ind. intros k i p RK EP HP.
  destruct (FT k i p EP HP) as (k1 & L1 & O1).
  (* first own action at or after k *)
  assert (FIRST : exists k2, (k <= k2)%nat /\ own i (act k2) /\ nth_error (ths (st k2)) i = Some p).
  { assert (G : forall d, (exists k2, k <= k2 < k + d /\ own i (act k2) /\ nth_error (ths (st k2)) i = Some p)%nat \/ nth_error (ths (st (k + d))) i = Some p).
    { induction d as [|d [D|D]]; [right; rewrite Nat.add_0_r; exact EP|left; destruct D as (k2 & X & Y); exists k2; split; [lia|exact Y]|].
      destruct (own_dec i (act (k + d))) as [O|O]; [left; exists (k + d)%nat; split; [lia|auto]|]. right. rewrite Nat.add_succ_r.
      apply (other_step (act (k + d)) i (st (k + d)) _ p O); [apply exec_ok|exact D|destruct p; cbn in HP; try contradiction; discriminate]. }
    destruct (G (k1 - k)%nat) as [(k2 & X & Y)|X]; [exists k2; split; [lia|exact Y]|]. replace (k + (k1 - k))%nat with k1 in X by lia. exists k1. auto. }
  destruct FIRST as (k2 & L2 & O2 & E2). pose proof (proj2 exec_ok k2) as EX.
  destruct (own_step (act k2) i (st k2) (st (S k2)) p O2 EX E2) as (p' & T & RK' & _ & [CI|(-> & c & st' & o & CI & LG)]).
  - assert (HP' : in_flight p').
    { destruct p; cbn in HP; try contradiction; destruct p'; cbn in CI, RK'; try discriminate; try exact I; cbn in RK'; lia. }
    assert (E3 : nth_error (ths (st (S k2))) i = Some p') by (rewrite T; eapply nth_set_eq; exact E2).
    destruct (IH (rank p') ltac:(lia) (S k2) i p' eq_refl E3 HP') as (k' & c & st' & o & L' & C' & X). exists k', c, st', o. split; [lia|]. split; [congruence|exact X].
  - exists k2, c, st', o. split; [exact L2|]. split; [exact CI|]. split; [exact LG|]. split; [rewrite T; eapply nth_set_eq; exact E2|].
    (* the lock: it was this thread's *)
    destruct (act k2) as [j r0|j|j|j|j| | | | |]; try contradiction; cbn in O2; subst j; cbn [exec] in EX.
    + unfold thread_step in EX. rewrite E2 in EX. destruct p; try discriminate; try contradiction; repeat match goal with H : match ?x with _ => _ end = Some _ |- _ => destruct x eqn:?; try discriminate end.
      all: injection EX as EX; rewrite <- EX in LG |- *; try reflexivity; exfalso.
      all: repeat match type of LG with context [match ?x with _ => _ end] => destruct x end; cbn in LG; apply (f_equal (@length entry)) in LG; cbn in LG; lia.
    + rewrite E2 in EX. destruct p; try discriminate; injection EX as EX; rewrite <- EX in LG; cbn in LG; apply (f_equal (@length entry)) in LG; cbn in LG; lia.
    + rewrite E2 in EX. destruct p; try discriminate; injection EX as EX; rewrite <- EX in LG; cbn in LG; apply (f_equal (@length entry)) in LG; cbn in LG; lia.
    + rewrite E2 in EX. destruct p; try discriminate; injection EX as EX; rewrite <- EX in LG; cbn in LG; apply (f_equal (@length entry)) in LG; cbn in LG; lia.
Qed.

Lemma mutex_recurs (FT : scheduled st act) : forall m, exists m', (m <= m')%nat /\ mtx (st m') = None.
Proof.
  intro m. destruct (mtx (st m)) as [i|] eqn:M; [|exists m; auto]. destruct (exec_run m) as (lbs & R). pose proof (run_inv tt _ _ _ _ R) as V.
  destruct (inv_held _ V i M) as (p & E & H & _). assert (F : in_flight p) by (destruct p; try discriminate; exact I).
  destruct (holder_returns FT _ m i p eq_refl E F) as (k' & c & s' & o & L & _ & _ & _ & MN). exists (S k'). split; [lia|exact MN].
Qed.

Lemma call_returns (FT : scheduled st act) (FL : lock_is_fair st act) k i p c : nth_error (ths (st k)) i = Some p -> call_in p = Some c ->
  exists k' s' o, (k <= k')%nat /\ log (st (S k')) = Returned c s' o :: log (st k') /\ nth_error (ths (st (S k'))) i = Some Idle.
Proof.
  intros EP CI. destruct p as [|c'|c'|c'|c'|c'|c'|c' s' o|c' s' o|c'|c'|c'|c' s' o|c' s' o] eqn:PE; try discriminate.
  2-13: rewrite <- PE in *; assert (F : in_flight p) by (rewrite PE; exact I); destruct (holder_returns FT _ k i p eq_refl EP F) as (k' & c1 & s1 & o1 & L & C1 & X1 & X2 & _); exists k', s1, o1; split; [exact L|]; split; [congruence|exact X2].
  injection CI as ->. destruct (FL k i c EP (mutex_recurs FT)) as (k1 & L1 & A1).
  (* first own action *)
  assert (FIRST : exists k2, (k <= k2)%nat /\ own i (act k2) /\ nth_error (ths (st k2)) i = Some (Called c)).
  { assert (G : forall d, (exists k2, k <= k2 < k + d /\ own i (act k2) /\ nth_error (ths (st k2)) i = Some (Called c))%nat \/ nth_error (ths (st (k + d))) i = Some (Called c)).
    { induction d as [|d [D|D]]; [right; rewrite Nat.add_0_r; exact EP|left; destruct D as (k2 & X & Y); exists k2; split; [lia|exact Y]|].
      destruct (own_dec i (act (k + d))) as [O|O]; [left; exists (k + d)%nat; split; [lia|auto]|]. right. rewrite Nat.add_succ_r.
      apply (other_step (act (k + d)) i (st (k + d)) _ _ O); [apply exec_ok|exact D|discriminate]. }
    destruct (G (k1 - k)%nat) as [(k2 & X & Y)|X]; [exists k2; split; [lia|exact Y]|]. replace (k + (k1 - k))%nat with k1 in X by lia. exists k1. rewrite A1. cbn. auto. }
  destruct FIRST as (k2 & L2 & O2 & E2). pose proof (proj2 exec_ok k2) as EX.
  destruct (own_step (act k2) i (st k2) (st (S k2)) _ O2 EX E2) as (p' & T & RK' & _ & [CI|(-> & c' & s' & o & CI & LG)]).
  - assert (E3 : nth_error (ths (st (S k2))) i = Some p') by (rewrite T; eapply nth_set_eq; exact E2).
    assert (F : in_flight p') by (destruct p'; cbn in CI, RK'; try discriminate; try exact I; lia).
    destruct (holder_returns FT _ (S k2) i p' eq_refl E3 F) as (k' & c1 & s1 & o1 & L & C1 & X1 & X2 & _). exists k', s1, o1. split; [lia|]. cbn in CI. split; [congruence|exact X2].
  - exists k2, s', o. cbn in CI. injection CI as <-. split; [exact L2|]. split; [exact LG|]. rewrite T. eapply nth_set_eq; exact E2.
Qed.
End Live.

(** Consequences of the invariant; runs; bisimulation of restarts; progress. *)
From Coq Require Import List NArith Bool Arith Lia.
From Verif Require Import Bytes AtCore Status Pktio PktHandler Lifecycle SpecLifecycle LifecycleInv.
Import ListNotations.

Lemma exec_all_app static a b s : exec_all static (a ++ b) s = match exec_all static a s with Some s1 => exec_all static b s1 | None => None end.
Proof. revert s. induction a as [|x a IH]; intro s; [reflexivity|]. cbn [app exec_all]. destruct (exec static x s); [apply IH|reflexivity]. Qed.
Lemma reach_exec_all static ls s s' : reach static s -> exec_all static ls s = Some s' -> reach static s'.
Proof.
  revert s. induction ls as [|lb t IH]; intros s R E; cbn in E; [injection E as <-; exact R|].
  destruct (exec static lb s) as [s1|] eqn:X; [|discriminate]. eapply IH; [|exact E]. econstructor; eassumption.
Qed.

Lemma cons_neq {A} (x : A) l : l <> x :: l.
Proof. intro E. apply (f_equal (@length A)) in E. cbn in E. lia. Qed.

(** The steps that return from a call. *)
Inductive ret_case (s s' : state) : result -> Prop :=
| rc_params p e : main s = MParams p -> e <> C_SUCCESS -> s' = upd_results (RetInit e) s -> ret_case s s' (RetInit e)
| rc_alloc p e : main s = MAlloc p -> e <> C_SUCCESS -> s' = upd_results (RetInit e) s -> ret_case s s' (RetInit e)
| rc_fail e : main s = MFail 0 e -> s' = upd_results (RetInit e) (free_context s) -> ret_case s s' (RetInit e)
| rc_mod : main s = MMod3 -> s' = upd_results (RetInit C_SUCCESS) s -> ret_case s s' (RetInit C_SUCCESS)
| rc_clean re : main s = MC8 re -> s' = finish re (free_context s) -> ret_case s s' (match re with EInit e => RetInit e | ECleanup => RetCleanup C_SUCCESS end)
| rc_null : main s = MIdle -> s' = upd_results (RetCleanup C_INVALID_HANDLE) s -> ret_case s s' (RetCleanup C_INVALID_HANDLE).

Lemma main_ret b e s s' r : main_step b e s = Some s' -> results s' = r :: results s -> ret_case s s' r.
Proof.
  unfold main_step. destruct (main s) eqn:M; intros E R.
  - discriminate.
  - destruct (check_cases p) as [Ck | [Ck | Ck]]; rewrite Ck in E; injection E as <-; [exfalso; exact (cons_neq _ _ R)|..];
      (injection R as <-; eapply rc_params; eauto; discriminate).
  - destruct (slot s); [injection E as <-; injection R as <-; eapply rc_alloc; eauto; discriminate|].
    destruct b; injection E as <-; [exfalso; exact (cons_neq _ _ R)|injection R as <-; eapply rc_alloc; eauto; discriminate].
  - destruct b; injection E as <-; exfalso; exact (cons_neq _ _ R).
  - destruct b; injection E as <-; exfalso; exact (cons_neq _ _ R).
  - destruct b; injection E as <-; exfalso; exact (cons_neq _ _ R).
  - destruct b; injection E as <-; exfalso; exact (cons_neq _ _ R).
  - destruct (started (cx s) || aborted (cx s)); [|discriminate].
    destruct (aborted (cx s)); injection E as <-; exfalso; exact (cons_neq _ _ R).
  - injection E as <-; exfalso; exact (cons_neq _ _ R).
  - destruct (queue_p (cx s)); injection E as <-; exfalso; exact (cons_neq _ _ R).
  - destruct k; injection E as <-; [injection R as <-; now apply rc_fail|exfalso; exact (cons_neq _ _ R)].
  - injection E as <-; exfalso; exact (cons_neq _ _ R).
  - destruct e; injection E as <-; exfalso; exact (cons_neq _ _ R).
  - destruct e; injection E as <-; exfalso; exact (cons_neq _ _ R).
  - destruct e; injection E as <-; first [injection R as <-; now apply rc_mod|exfalso; exact (cons_neq _ _ R)].
  - injection E as <-; exfalso; exact (cons_neq _ _ R).
  - injection E as <-; exfalso; exact (cons_neq _ _ R).
  - destruct (up (cx s)); [destruct (event_p (cx s))|]; injection E as <-; exfalso; exact (cons_neq _ _ R).
  - destruct (aborted (cx s)); injection E as <-; exfalso; exact (cons_neq _ _ R).
  - injection E as <-; exfalso; exact (cons_neq _ _ R).
  - destruct (queue_p (cx s)); injection E as <-; exfalso; exact (cons_neq _ _ R).
  - injection E as <-. cbn in R. exfalso.
    match type of R with context [fold_right ?f ?a ?l] => pose proof (fold_sock_same l a) as F end.
    destruct F as (_ & _ & _ & _ & _ & _ & _ & F & _). rewrite F in R. exact (cons_neq _ _ R).
  - injection E as <-; exfalso; exact (cons_neq _ _ R).
  - injection E as <-. cbn in R. injection R as <-. now apply rc_clean.
Qed.

Lemma reader_results b s s' : reader_step b s = Some s' -> results s' = results s /\ main s' = main s /\ slot s' = slot s /\ old s' = old s /\ uaf s' = uaf s /\ handle s' = handle s /\ gen s' = gen s.
Proof.
  unfold reader_step. destruct (cur s) as [[]|]; intro E; try discriminate; try (destruct b); try (destruct (abort (cx s)));
    try discriminate; injection E as <-; repeat split.
Qed.
Lemma old_results static k s s' : old_step static k s = Some s' -> results s' = results s /\ main s' = main s /\ slot s' = slot s /\ cur s' = cur s /\ tr s' = tr s /\ handle s' = handle s /\ gen s' = gen s.
Proof.
  unfold old_step. destruct (nth_error (old s) k) as [[]|]; intro E; try discriminate; destruct static; injection E as <-; repeat split.
Qed.

Lemma ret_cases static s s' r lb : exec static lb s = Some s' -> results s' = r :: results s -> ret_case s s' r.
Proof.
  intros E R. destruct lb; cbn [exec] in E.
  - destruct (main s) eqn:M; try discriminate. injection E as <-. exfalso; exact (cons_neq _ _ R).
  - destruct (main s) eqn:M; try discriminate. destruct null.
    + injection E as <-. injection R as <-. now apply rc_null.
    + destruct (slot s); [|discriminate]. injection E as <-. exfalso; exact (cons_neq _ _ R).
  - eapply main_ret; eassumption.
  - apply reader_results in E. destruct E as [E _]. rewrite E in R. exfalso; exact (cons_neq _ _ R).
  - apply old_results in E. destruct E as [E _]. rewrite E in R. exfalso; exact (cons_neq _ _ R).
  - destruct (main s) eqn:M; try discriminate. destruct (_ && _); [|discriminate].
    destruct (api_status s); try discriminate. injection E as <-. exfalso; exact (cons_neq _ _ R).
  - destruct (main s) eqn:M; try discriminate. destruct (_ && _); [|discriminate].
    injection E as <-. exfalso; exact (cons_neq _ _ R).
Qed.

(** ** Was a context there at the call *)
Definition at_call_ok (s : state) : Prop :=
  match main s with
  | MIdle => True
  | MParams _ | MAlloc _ => at_call s = slot s
  | MModClean ECleanup | MC1 ECleanup | MC2 ECleanup | MC3 ECleanup | MC4 ECleanup | MC5 ECleanup | MC6 ECleanup | MC7 _ ECleanup | MC8 ECleanup => True
  | _ => at_call s = false
  end.
Lemma at_call_step static lb s s' : exec static lb s = Some s' -> at_call_ok s -> at_call_ok s'.
Proof.
  intros E A. destruct lb; cbn [exec] in E.
  - destruct (main s) eqn:M; try discriminate. injection E as <-. reflexivity.
  - destruct (main s) eqn:M; try discriminate. destruct null; [injection E as <-; exact I|].
    destruct (slot s); [|discriminate]. injection E as <-. exact I.
  - unfold main_step, at_call_ok in *. destruct (main s) eqn:M; try discriminate.
    + destruct (check_cases p) as [Ck | [Ck | Ck]]; rewrite Ck in E; injection E as <-; [exact A|exact I..].
    + destruct (slot s); [injection E as <-; exact I|]. destruct b; injection E as <-; [exact A|exact I].
    + destruct b; injection E as <-; [|exact A]. cbn. destruct (Nat.eqb k 3); exact A.
    + destruct b; injection E as <-; exact A.
    + destruct b; injection E as <-; exact A.
    + destruct b; injection E as <-; exact A.
    + destruct (started (cx s) || aborted (cx s)); [|discriminate]. destruct (aborted (cx s)); injection E as <-; exact A.
    + injection E as <-; exact A.
    + destruct (queue_p (cx s)); injection E as <-; exact A.
    + destruct k; injection E as <-; [exact I|exact A].
    + injection E as <-; exact A.
    + destruct e; injection E as <-; exact A.
    + destruct e; injection E as <-; exact A.
    + destruct e; injection E as <-; first [exact I|exact A].
    + injection E as <-; exact A.
    + injection E as <-. cbn. destruct (opened (cx s)); exact A.
    + destruct (up (cx s)); [destruct (event_p (cx s))|]; injection E as <-; exact A.
    + destruct (aborted (cx s)); injection E as <-; cbn; rewrite ?M; exact A.
    + injection E as <-; exact A.
    + destruct (queue_p (cx s)); injection E as <-; exact A.
    + injection E as <-. cbn. match goal with |- context [fold_right ?f ?a ?l] => pose proof (fold_sock_same l a) as F end.
      destruct F as (_ & _ & _ & _ & _ & _ & _ & _ & _ & ->). exact A.
    + injection E as <-. cbn. destruct (Nat.eqb k 3); exact A.
    + injection E as <-. destruct r; exact I.
  - unfold at_call_ok in *. unfold reader_step in E. destruct (cur s) as [[]|]; try discriminate; try (destruct b); try (destruct (abort (cx s)));
    try discriminate; injection E as <-; exact A.
  - unfold at_call_ok in *. unfold old_step in E. destruct (nth_error (old s) k) as [[]|]; try discriminate; destruct static; injection E as <-; exact A.
  - unfold at_call_ok. destruct (main s) eqn:M; try discriminate. destruct (_ && _); [|discriminate]. destruct (api_status s); try discriminate. injection E as <-. cbn. rewrite M. exact I.
  - unfold at_call_ok. destruct (main s) eqn:M; try discriminate. destruct (_ && _); [|discriminate]. injection E as <-. cbn. rewrite M. exact I.
Qed.
Lemma at_call_reach static s : reach static s -> at_call_ok s.
Proof. induction 1 as [|s lb s' R IH E]; [exact I|eapply at_call_step; eassumption]. Qed.

(** ** Restart *)
Record view (s t : state) : Prop := {
  v_slot : slot s = slot t; v_main : main s = main t; v_cur : cur s = cur t;
  v_cx : slot s = true -> cx s = cx t }.
Lemma view_sym s t : view s t -> view t s.
Proof. intros [A B C D]. split; auto. intro H. symmetry. apply D. congruence. Qed.

Definition delta (s s' t t' : state) : Prop :=
  exists dr dt, results s' = dr ++ results s /\ results t' = dr ++ results t /\ tr s' = dt ++ tr s /\ tr t' = dt ++ tr t.

Ltac same := solve [exists [], []; repeat split].
Ltac onetr := solve [exists []; eexists [_]; repeat split].
Ltac oneres := solve [eexists [_], []; repeat split].
Ltac onboth := solve [eexists [_], [_]; repeat split].
Ltac vw := match goal with |- exists t', Some ?x = Some t' /\ _ => exists x; split; [reflexivity|split; [split; cbn; auto|first [same|onetr|oneres|onboth]]] end.

Lemma sim_main b e s t s' : Inv false s -> Inv false t -> view s t -> main_step b e s = Some s' ->
  exists t', main_step b e t = Some t' /\ view s' t' /\ delta s s' t t'.
Proof.
  intros Is It [Vs Vm Vc Vx] E.
  destruct s as [sl c g h m cu ol u tx ac rs]. destruct t as [sl2 c2 g2 h2 m2 cu2 ol2 u2 tx2 ac2 rs2].
  cbn in Vs, Vm, Vc, Vx. subst sl2 m2 cu2.
  destruct sl.
  - specialize (Vx eq_refl). subst c2. unfold main_step in *. cbn [main slot cx cur] in *.
    destruct m.
    + discriminate.
    + destruct (check_cases p) as [Ck | [Ck | Ck]]; rewrite Ck in *; injection E as <-; vw.
    + injection E as <-; vw.
    + destruct b; injection E as <-; vw.
    + destruct b; injection E as <-; vw.
    + destruct b; injection E as <-; vw.
    + destruct b; injection E as <-; vw.
    + destruct (started c || aborted c); [|discriminate]. destruct (aborted c); injection E as <-; vw.
    + injection E as <-; vw.
    + destruct (queue_p c); injection E as <-; vw.
    + destruct k; injection E as <-; vw.
    + injection E as <-; vw.
    + destruct e; injection E as <-; vw.
    + destruct e; injection E as <-; vw.
    + destruct e; injection E as <-; vw.
    + injection E as <-; vw.
    + injection E as <-; vw.
    + destruct (up c); [destruct (event_p c)|]; injection E as <-; vw.
    + destruct (aborted c); injection E as <-; vw.
    + injection E as <-; vw.
    + destruct (queue_p c); injection E as <-; vw.
    + injection E as <-. eexists. split; [reflexivity|].
      match goal with |- view (upd_main _ (upd_cx _ (fold_right _ ?a ?l))) _ /\ _ => pose proof (fold_sock_same l a) as F1; pose proof (fold_sock_tr l a) as T1 end.
      match goal with |- view _ (upd_main _ (upd_cx _ (fold_right _ ?a ?l))) /\ _ => pose proof (fold_sock_same l a) as F2; pose proof (fold_sock_tr l a) as T2 end.
      destruct F1 as (A1 & A2 & A3 & A4 & A5 & A6 & A7 & A8 & A9 & A10). destruct F2 as (B1 & B2 & B3 & B4 & B5 & B6 & B7 & B8 & B9 & B10).
      split; [split; cbn; [now rewrite A1, B1|reflexivity|now rewrite A3, B3|reflexivity]|].
      exists [], (map (fun k => OpDestroy (RSocket k)) (socks c)). cbn. rewrite A8, B8, T1, T2. repeat split.
    + injection E as <-; vw.
    + injection E as <-. destruct r; vw.
  - destruct Is as [_ P _ _ _]. unfold main_step in *. cbn [main slot cx cur] in *.
    destruct m; unfold phase, is_open in P; cbn in P; try (exfalso; decompose [and] P; discriminate).
    + destruct (check_cases p) as [Ck | [Ck | Ck]]; rewrite Ck in *; injection E as <-; vw.
    + destruct b; injection E as <-; vw.
Qed.

Lemma sim_reader b s t s' : Inv false s -> view s t -> reader_step b s = Some s' ->
  exists t', reader_step b t = Some t' /\ view s' t' /\ delta s s' t t'.
Proof.
  intros Is [Vs Vm Vc Vx] E.
  destruct s as [sl c g h m cu ol u tx ac rs]. destruct t as [sl2 c2 g2 h2 m2 cu2 ol2 u2 tx2 ac2 rs2].
  cbn in Vs, Vm, Vc, Vx. subst sl2 m2 cu2. destruct sl.
  - specialize (Vx eq_refl). subst c2. unfold reader_step in *. cbn [main slot cx cur] in *.
    destruct cu as [[]|]; try discriminate; try (destruct b); try (destruct (abort c)); try discriminate; injection E as <-; vw.
  - exfalso. destruct Is as [_ P _ _ _]. unfold phase, is_open in P. cbn in P.
    destruct m; cbn in P; try (decompose [and] P; discriminate); subst cu; discriminate.
Qed.

Lemma sim_step lb s t s' : Inv false s -> Inv false t -> view s t -> late_reader lb = false -> exec false lb s = Some s' ->
  exists t', exec false lb t = Some t' /\ view s' t' /\ delta s s' t t'.
Proof.
  intros Is It V L E. destruct lb; cbn [exec] in *; try discriminate.
  - destruct V as [Vs Vm Vc Vx]. rewrite <- Vm. destruct (main s) eqn:M; try discriminate. injection E as <-.
    eexists. split; [reflexivity|]. split; [split; cbn; auto|same].
  - destruct V as [Vs Vm Vc Vx]. rewrite <- Vm. destruct (main s) eqn:M; try discriminate. destruct null.
    + injection E as <-. eexists. split; [reflexivity|]. split; [split; cbn; auto|oneres].
    + rewrite <- Vs. destruct (slot s) eqn:S0; [|discriminate]. injection E as <-. eexists. split; [reflexivity|].
      split; [split; cbn; auto; congruence|same].
  - now apply sim_main with (s := s).
  - now apply sim_reader with (s := s).
  - destruct V as [Vs Vm Vc Vx]. rewrite <- Vm. destruct (main s) eqn:M; try discriminate.
    destruct (slot s) eqn:S0.
    + specialize (Vx eq_refl). unfold api_status in *. rewrite <- Vs, <- Vx. rewrite S0 in E.
      destruct (_ && _); [|discriminate]. destruct (CheckLibraryStatus _); try discriminate. injection E as <-.
      eexists. split; [reflexivity|]. split; [split; cbn; congruence|onetr].
    + exfalso. destruct (_ && _); [|discriminate]. unfold api_status in E. rewrite S0 in E. discriminate.
  - destruct V as [Vs Vm Vc Vx]. rewrite <- Vm. destruct (main s) eqn:M; try discriminate.
    destruct (slot s) eqn:S0.
    + specialize (Vx eq_refl). rewrite <- Vs, <- Vx. destruct (existsb (Nat.eqb k) (socks (cx s))); [|discriminate]. injection E as <-.
      eexists. split; [reflexivity|]. split; [split; cbn; congruence|onetr].
    + exfalso. rewrite andb_false_r in E. discriminate.
Qed.

Lemma late_view k s t s' : view s t -> exec false (LOld k) s = Some s' -> view s' t /\ results s' = results s /\ tr s' = tr s.
Proof.
  intros [Vs Vm Vc Vx] E. cbn [exec] in E. unfold old_step in E.
  destruct (nth_error (old s) k) as [[]|]; try discriminate; injection E as <-; (split; [split; cbn; auto|split; reflexivity]).
Qed.

Lemma sim_all ls : forall s t s', reach false s -> reach false t -> view s t -> exec_all false ls s = Some s' ->
  exists t', exec_all false (filter (fun lb => negb (late_reader lb)) ls) t = Some t' /\ view s' t' /\ delta s s' t t'.
Proof.
  induction ls as [|lb ls IH]; intros s t s' Rs Rt V E; cbn [exec_all] in E.
  - injection E as <-. exists t. split; [reflexivity|]. split; [exact V|same].
  - destruct (exec false lb s) as [s1|] eqn:X; [|discriminate].
    assert (R1 : reach false s1) by exact (reach_step _ _ _ _ Rs X).
    destruct (late_reader lb) eqn:L.
    + cbn [filter]. rewrite L. cbn [negb]. destruct lb; try discriminate.
      destruct (late_view _ _ _ _ V X) as (V1 & Er & Et).
      destruct (IH _ _ _ R1 Rt V1 E) as (t' & Xt & V' & dr & dt & D1 & D2 & D3 & D4).
      exists t'. split; [exact Xt|]. split; [exact V'|]. exists dr, dt. rewrite <- Er, <- Et. auto.
    + cbn [filter]. rewrite L. cbn [negb exec_all].
      destruct (sim_step lb s t s1 (inv_reach _ _ Rs) (inv_reach _ _ Rt) V L X) as (t1 & Xt & V1 & dr1 & dt1 & A1 & A2 & A3 & A4).
      rewrite Xt. assert (Rt1 : reach false t1) by exact (reach_step _ _ _ _ Rt Xt).
      destruct (IH _ _ _ R1 Rt1 V1 E) as (t' & Xt' & V' & dr & dt & D1 & D2 & D3 & D4).
      exists t'. split; [exact Xt'|]. split; [exact V'|]. exists (dr ++ dr1), (dt ++ dt1). rewrite <- !app_assoc. repeat split; congruence.
Qed.

Lemma view_api s t : view s t -> api_status s = api_status t.
Proof.
  intros [Vs Vm Vc Vx]. unfold api_status. rewrite <- Vs. destruct (slot s); [|reflexivity]. now rewrite Vx.
Qed.
Lemma view_idle s : reach false s -> main s = MIdle -> slot s = false -> view s init.
Proof.
  intros R M Sl. destruct (inv_reach _ _ R) as [_ P _ _ _]. unfold phase in P. rewrite M, Sl in P.
  split; cbn; auto. congruence.
Qed.

(** ** Every call returns *)
Local Arguments Nat.sub : simpl never.
Local Arguments Nat.mul : simpl never.
Local Arguments Nat.add : simpl never.
Definition mrank (m : mpc) : nat :=
  match m with
  | MIdle => 0 | MParams _ => 60 | MAlloc _ => 59 | MMutex _ k => 54 + (4 - k) | MQueue _ => 54 | MEvent => 53 | MThread => 52 | MWait => 51
  | MOpen => 50 | MMod1 => 49 | MMod2 => 48 | MMod3 => 47 | MModClean _ => 46 | MC1 _ => 45 | MC2 _ => 44 | MC3 _ => 43 | MC4 _ => 42 | MC5 _ => 41
  | MC6 _ => 40 | MC7 k _ => 35 + (4 - k) | MC8 _ => 35 | MEvDel => 20 | MQDel => 19 | MFail k _ => 5 + k
  end.
Definition rrank (c : option rpc) : nat :=
  match c with None => 0 | Some R0 => 8 | Some R1 => 7 | Some R2 => 6 | Some R3 => 5 | Some R4 => 4 | Some RA => 3 | Some RB => 2 | Some RC => 1 | Some REnd => 0 end.
Definition mu (s : state) : nat := 10 * mrank (main s) + rrank (cur s).
(** May the application thread go on (for good)? *)
Definition can_go (s : state) : bool :=
  match main s, cur s with
  | MIdle, _ => false
  | MWait, Some (R2 | RB | RC | REnd) => true
  | MWait, _ => false
  | MC3 _, Some (RB | RC | REnd) => true
  | MC3 _, _ => false
  | _, _ => true
  end.

Lemma main_mu static b e s s' : Inv static s -> main_step b e s = Some s' -> mu s' < mu s \/ s' = s /\ can_go s = false.
Proof.
  intros I E. destruct I as [_ P _ _ _]. unfold main_step, mu, can_go in *.
  destruct (main s) eqn:M; unfold phase in P; rewrite M in P.
  - discriminate.
  - left. destruct (check_cases p) as [Ck | [Ck | Ck]]; rewrite Ck in E; injection E as <-; cbn; lia.
  - left. destruct (slot s); [injection E as <-; cbn; lia|]. destruct b; injection E as <-; cbn; lia.
  - left. destruct P as (K & _ & _ & C0 & _). destruct b; injection E as <-; cbn; rewrite ?C0; cbn; [|lia]. destruct (Nat.eqb_spec k 3); cbn; lia.
  - left. destruct b; injection E as <-; cbn; lia.
  - left. destruct b; injection E as <-; cbn; lia.
  - left. destruct P as (_ & _ & C0 & _). rewrite C0. destruct b; injection E as <-; cbn; rewrite ?C0; cbn; lia.
  - left. destruct (started (cx s) || aborted (cx s)); [|discriminate]. destruct (aborted (cx s)); injection E as <-; cbn; lia.
  - left. injection E as <-; cbn; lia.
  - left. destruct P as (_ & (Q & _) & _). rewrite Q in E. injection E as <-; cbn; lia.
  - left. destruct k; injection E as <-; cbn; lia.
  - left. injection E as <-; cbn; lia.
  - left. destruct e; injection E as <-; cbn; lia.
  - left. destruct e; injection E as <-; cbn; lia.
  - left. destruct e; injection E as <-; cbn; lia.
  - left. injection E as <-; cbn; lia.
  - left. injection E as <-; cbn. destruct (opened (cx s)); cbn; lia.
  - left. destruct (up (cx s)); [destruct (event_p (cx s))|]; injection E as <-; cbn; lia.
  - destruct P as (_ & _ & P & _). unfold close_cur, bits in P. destruct (cur s) as [[]|] eqn:C0; try contradiction; destruct P as (_ & Ab & _); rewrite Ab in E; injection E as <-;
      first [right; split; reflexivity|left; cbn; rewrite ?C0; cbn; lia].
  - left. injection E as <-; cbn; lia.
  - left. destruct P as (_ & (Q & _) & _). rewrite Q in E. injection E as <-; cbn; lia.
  - left. injection E as <-; cbn. match goal with |- context [fold_right ?f ?a ?l] => pose proof (fold_sock_same l a) as F end.
    destruct F as (_ & _ & -> & _). cbn. lia.
  - left. destruct P as (K & _). injection E as <-; cbn. destruct (Nat.eqb_spec k 3); cbn; lia.
  - left. injection E as <-. destruct r; cbn; lia.
Qed.

Lemma reader_mu static b s s' : Inv static s -> reader_step b s = Some s' -> mu s' < mu s.
Proof.
  intros I E. unfold reader_step, mu in *. destruct (cur s) as [[]|]; try discriminate; try (destruct b); try (destruct (abort (cx s)));
    try discriminate; injection E as <-; cbn; try lia; destruct (shcb (cx s)); lia.
Qed.

Lemma main_enabled static s : Inv static s -> can_go s = true -> exists s', main_step true C_SUCCESS s = Some s'.
Proof.
  intros I G. destruct I as [_ P _ _ _]. unfold can_go in G. unfold main_step. unfold phase in P.
  destruct (main s) eqn:M; try discriminate; try (eexists; reflexivity).
  - destruct (check_arguments p); eexists; reflexivity.
  - destruct (slot s); eexists; reflexivity.
  - destruct P as (_ & _ & P & _). unfold wait_cur, bits in P. destruct (cur s) as [[]|]; try discriminate; destruct P as (St & Ab & _); rewrite St, Ab; eexists; reflexivity.
  - destruct k; eexists; reflexivity.
  - destruct (up (cx s)); [destruct (event_p (cx s))|]; eexists; reflexivity.
Qed.
Lemma reader_enabled static s : Inv static s -> can_go s = false -> main s <> MIdle -> exists s', reader_step true s = Some s'.
Proof.
  intros I G Ni. destruct I as [_ P _ _ _]. unfold can_go in G. unfold reader_step. unfold phase in P.
  destruct (main s) eqn:M; try discriminate; try congruence.
  - destruct P as (_ & _ & P & _). unfold wait_cur, bits in P. destruct (cur s) as [[]|]; try discriminate; try contradiction; eexists; reflexivity.
  - destruct P as (_ & _ & P & _). unfold close_cur, bits in P. destruct (cur s) as [[]|]; try discriminate; try contradiction;
      destruct P as (St & Ab & A); rewrite ?A; eexists; reflexivity.
Qed.

Lemma mu_step static lb s s' : Inv static s -> main s <> MIdle -> exec static lb s = Some s' ->
  mu s' < mu s \/ (main s' = main s /\ cur s' = cur s /\ (app_thread lb -> can_go s = false) /\ ~ reader_thread lb).
Proof.
  intros I Ni E. destruct lb; cbn [exec] in E; try (destruct (main s); try discriminate; congruence).
  - destruct (main_mu _ _ _ _ _ I E) as [L | [-> G]]; [now left|right]. repeat split; auto.
  - left. eapply reader_mu; eassumption.
  - right. apply old_results in E. cbn. tauto.
Qed.

Section Fair.
Variable static : bool.
Variables (st : nat -> state) (lab : nat -> label).
Hypothesis X : execution static st lab.
Hypothesis Fm : fair_for static app_thread st lab.
Hypothesis Fr : fair_for static reader_thread st lab.

Lemma ex_inv i : Inv static (st i).
Proof.
  destruct X as [R S]. induction i; [apply inv_reach, R|]. eapply inv_step; [exact IHi|apply S].
Qed.
Lemma walk d i : (exists j, i <= j /\ main (st j) = MIdle) \/ (exists j, i <= j /\ mu (st j) < mu (st i)) \/
  (main (st i) <> MIdle /\ (forall k, i <= k <= i + d -> main (st k) = main (st i) /\ cur (st k) = cur (st i))).
Proof.
  induction d as [|d IH].
  - assert (D : main (st i) = MIdle \/ main (st i) <> MIdle) by (destruct (main (st i)); auto; right; discriminate).
    destruct D as [D | D]; [left; exists i; auto|]. right. right. split; [exact D|]. intros k K. replace k with i by lia. auto.
  - destruct IH as [A | [A | [Ni A]]]; [now left|right; now left|].
    destruct (A (i + d) ltac:(lia)) as [Am Ac].
    assert (Ni' : main (st (i + d)) <> MIdle) by congruence.
    destruct X as [_ S]. destruct (mu_step static _ _ _ (ex_inv (i + d)) Ni' (S (i + d))) as [L | (Em & Ec & _)].
    + right. left. exists (Datatypes.S (i + d)). split; [lia|]. unfold mu in *. rewrite Am, Ac in L. exact L.
    + right. right. split; [exact Ni|]. intros k K. destruct (Nat.eq_dec k (Datatypes.S (i + d))) as [-> |].
      * rewrite Em, Ec. auto.
      * apply A. lia.
Qed.
Lemma decrease i : (exists j, i <= j /\ main (st j) = MIdle) \/ (exists j, i <= j /\ mu (st j) < mu (st i)).
Proof.
  pose proof X as [_ S].
  destruct (can_go (st i)) eqn:G.
  - destruct (Fm i) as (j & Lj & D).
    destruct (walk (j - i) i) as [A | [A | [Ni A]]]; [now left|now right|].
    destruct (A j ltac:(lia)) as [Am Ac].
    assert (Gj : can_go (st j) = true) by (unfold can_go in *; rewrite Am, Ac; exact G).
    destruct D as [T | D].
    + destruct (mu_step static _ _ _ (ex_inv j) ltac:(congruence) (S j)) as [L | (_ & _ & C & _)].
      * right. exists (Datatypes.S j). split; [lia|]. unfold mu in *. rewrite Am, Ac in L. exact L.
      * rewrite (C T) in Gj. discriminate.
    + exfalso. destruct (main_enabled static _ (ex_inv j) Gj) as [s' E]. specialize (D (LMain true C_SUCCESS) Logic.I). cbn [exec] in D. congruence.
  - destruct (Fr i) as (j & Lj & D).
    destruct (walk (j - i) i) as [A | [A | [Ni A]]]; [now left|now right|].
    destruct (A j ltac:(lia)) as [Am Ac].
    assert (Gj : can_go (st j) = false) by (unfold can_go in *; rewrite Am, Ac; exact G).
    destruct D as [T | D].
    + destruct (mu_step static _ _ _ (ex_inv j) ltac:(congruence) (S j)) as [L | (_ & _ & _ & C)].
      * right. exists (Datatypes.S j). split; [lia|]. unfold mu in *. rewrite Am, Ac in L. exact L.
      * contradiction.
    + exfalso. destruct (reader_enabled static _ (ex_inv j) Gj ltac:(congruence)) as [s' E]. specialize (D (LReader true) Logic.I). cbn [exec] in D. congruence.
Qed.
Lemma returns_eventually i : exists j, i <= j /\ main (st j) = MIdle.
Proof.
  remember (mu (st i)) as n eqn:E. assert (L : mu (st i) <= n) by lia. clear E. revert i L.
  induction n as [|n IH]; intros i L.
  - destruct (decrease i) as [A | (j & _ & B)]; [exact A|lia].
  - destruct (decrease i) as [A | (j & Lj & B)]; [exact A|].
    destruct (IH j ltac:(lia)) as (k & Lk & K). exists k. split; [lia|exact K].
Qed.
End Fair.

(** ** Runs of one call *)
(** While no platform or module call fails, initialisation of a free slot stays on the path to success. *)
Definition on_path (rs : list result) (p : params) (s : state) : Prop :=
  match main s with
  | MParams q | MAlloc q => q = p /\ slot s = false /\ results s = rs
  | MMutex _ _ | MQueue _ | MEvent | MThread | MOpen | MMod1 | MMod2 | MMod3 => results s = rs
  | MWait => results s = rs /\ match cur s with Some (R0 | R1 | R2) => True | _ => False end
  | _ => False
  end.
Lemma path_step static p rs lb s s' : Inv static s -> check_arguments p = C_SUCCESS -> nothing_fails lb ->
  on_path rs p s -> exec static lb s = Some s' -> on_path rs p s' \/ results s' = RetInit C_SUCCESS :: rs /\ main s' = MIdle.
Proof.
  intros I Ck N O E. pose proof (i_phase _ _ I) as P. destruct lb; cbn [exec nothing_fails] in *.
  - unfold on_path in O. destruct (main s); try discriminate; contradiction.
  - unfold on_path in O. destruct (main s); try discriminate; contradiction.
  - destruct N as [-> ->]. unfold main_step, on_path in *. unfold phase in P. destruct (main s) eqn:M; try contradiction; try discriminate.
    + destruct O as (-> & Sl & Rs). rewrite Ck in E. injection E as <-. left. cbn. auto.
    + destruct O as (-> & Sl & Rs). rewrite Sl in E. injection E as <-. left. exact Rs.
    + injection E as <-. left. cbn. destruct (Nat.eqb k 3); exact O.
    + injection E as <-. left. exact O.
    + injection E as <-. left. exact O.
    + injection E as <-. left. cbn. auto.
    + destruct O as [O Oc]. destruct P as (_ & _ & P & _). unfold wait_cur, bits in P. destruct (cur s) as [[]|]; try contradiction; destruct P as (St & Ab & _); rewrite St, Ab in E; cbn in E; try discriminate.
      injection E as <-. left. exact O.
    + injection E as <-. left. exact O.
    + injection E as <-. left. exact O.
    + injection E as <-. left. exact O.
    + injection E as <-. right. cbn. split; [now rewrite O|reflexivity].
  - subst b. destruct (reader_results _ _ _ E) as (Er & Em & Es & _). left. unfold on_path, phase in *. rewrite Em, Es, Er.
    destruct (main s) eqn:M; try exact O. destruct O as [O Oc]. split; [exact O|].
    unfold reader_step in E. destruct P as (_ & _ & P & _). unfold wait_cur, bits in P. destruct (cur s) as [[]|]; try contradiction.
    + injection E as <-. exact Logic.I.
    + injection E as <-. exact Logic.I.
    + destruct P as (_ & _ & A). rewrite A in E. discriminate.
  - destruct (old_results _ _ _ _ E) as (Er & Em & Es & Ec & _). left. unfold on_path in *. rewrite Em, Er, Es, Ec. exact O.
  - unfold on_path in O. destruct (main s); try discriminate; contradiction.
  - unfold on_path in O. destruct (main s); try discriminate; contradiction.
Qed.

(** With a context already there, initialisation only refuses. *)
Definition refusing (ts : list op) (rs : list result) (hd : option nat) (s : state) : Prop :=
  match main s with MParams _ | MAlloc _ => slot s = true /\ tr s = ts /\ results s = rs /\ handle s = hd | _ => False end.
Lemma refuse_step static ts rs hd lb s s' : Inv static s -> refusing ts rs hd s -> exec static lb s = Some s' ->
  refusing ts rs hd s' \/ (exists e, e <> C_SUCCESS /\ results s' = RetInit e :: rs) /\ main s' = MIdle /\ slot s' = true /\ tr s' = ts /\ handle s' = hd.
Proof.
  intros I O E. pose proof (i_phase _ _ I) as P. destruct lb; cbn [exec] in *; unfold refusing in *;
    try (destruct (main s); try discriminate; contradiction).
  - unfold main_step in E. destruct (main s) eqn:M; try contradiction; destruct O as (Sl & Ts & Rs & Hd).
    + destruct (check_cases p) as [Ck | [Ck | Ck]]; rewrite Ck in E; injection E as <-; cbn; rewrite ?Rs; auto;
        right; (split; [eexists; split; [|reflexivity]; discriminate|auto]).
    + rewrite Sl in E. injection E as <-. cbn. rewrite Rs. right; (split; [eexists; split; [|reflexivity]; discriminate|auto]).
  - exfalso. unfold phase in P. unfold reader_step in E. destruct (main s) eqn:M; try contradiction; destruct O as (Sl & _); rewrite Sl in P;
      destruct P as (_ & _ & (Cu & (_ & _ & Ab) & _) & _); rewrite Cu, Ab in E; discriminate.
  - destruct (old_results _ _ _ _ E) as (Er & Em & Es & Ec & Et & Eh & _). left. rewrite Em, Er, Es, Et, Eh. exact O.
Qed.

(** ** The handle *)
Definition keeps_handle (hd : option nat) (rs : list result) (s : state) : Prop :=
  match main s with
  | MParams _ | MAlloc _ | MMutex _ _ | MQueue _ | MEvent | MThread | MWait | MEvDel | MQDel | MFail _ _ | MOpen => handle s = hd /\ results s = rs
  | MMod1 | MMod2 | MMod3 => handle s = Some (gen s) /\ slot s = true /\ results s = rs
  | _ => False
  end.
Lemma handle_step static hd rs lb s s' : Inv static s -> module_succeeds lb -> keeps_handle hd rs s -> exec static lb s = Some s' ->
  keeps_handle hd rs s' \/ (exists e, results s' = RetInit e :: rs /\ main s' = MIdle /\
     (e = C_SUCCESS -> handle s' = Some (gen s') /\ slot s' = true) /\ (e <> C_SUCCESS -> handle s' = hd)).
Proof.
  intros I N O E. pose proof (i_phase _ _ I) as P. destruct lb; cbn [exec module_succeeds] in *; unfold keeps_handle in *;
    try (destruct (main s); try discriminate; contradiction).
  - subst e. unfold main_step in E. unfold phase in P. destruct (main s) eqn:M; try contradiction.
    + destruct O as [Oh Or]. destruct (check_cases p) as [Ck | [Ck | Ck]]; rewrite Ck in E; injection E as <-; cbn; rewrite ?Or; auto;
        right; (eexists; split; [reflexivity|split; [reflexivity|split; [discriminate|auto]]]).
    + destruct O as [Oh Or]. destruct (slot s); [|destruct b]; injection E as <-; cbn; rewrite ?Or; auto;
        right; (eexists; split; [reflexivity|split; [reflexivity|split; [discriminate|auto]]]).
    + destruct b; injection E as <-; left; cbn; [destruct (Nat.eqb k 3)|]; exact O.
    + destruct b; injection E as <-; left; exact O.
    + destruct b; injection E as <-; left; exact O.
    + destruct b; injection E as <-; left; exact O.
    + destruct (started (cx s) || aborted (cx s)); [|discriminate]. destruct (aborted (cx s)); injection E as <-; left; exact O.
    + injection E as <-; left; exact O.
    + destruct (queue_p (cx s)); injection E as <-; left; exact O.
    + destruct O as [Oh Or]. destruct P as (_ & _ & _ & _ & _ & Ne). destruct k; injection E as <-; [|left; cbn; auto]. right. cbn. rewrite Or.
      eexists; split; [reflexivity|split; [reflexivity|split; [contradiction|auto]]].
    + destruct O as [Oh Or]. destruct P as (Sl & _). injection E as <-. left. cbn. auto.
    + injection E as <-; left; exact O.
    + injection E as <-; left; exact O.
    + destruct O as (Oh & Os & Or). injection E as <-. right. cbn. rewrite Or. eexists; split; [reflexivity|split; [reflexivity|split; [auto|congruence]]].
  - destruct (reader_results _ _ _ E) as (Er & Em & Es & _ & _ & Eh & Eg). left. rewrite Em, Es, Er, Eh, Eg. exact O.
  - destruct (old_results _ _ _ _ E) as (Er & Em & Es & Ec & Et & Eh & Eg). left. rewrite Em, Er, Es, Eh, Eg. exact O.
Qed.

(** ** Readers of released contexts *)
Definition all_ended (l : list rpc) : Prop := Forall (fun r => r = REnd) l.
Lemma set_nth_ended l k : all_ended l -> nth_error l k = Some RB \/ nth_error l k = Some RC -> False.
Proof.
  intros F [H | H]; apply nth_error_In in H; unfold all_ended in F; rewrite Forall_forall in F; specialize (F _ H); discriminate.
Qed.
Lemma main_old static b e s s' : Inv static s -> main_step b e s = Some s' -> uaf s' = uaf s /\
  (old s' = old s \/ slot s = true /\ slot s' = false /\ old s' = match cur s with Some r => r :: old s | None => old s end).
Proof.
  intros I E. pose proof (i_phase _ _ I) as P. unfold main_step in E. unfold phase in P. destruct (main s) eqn:M; try discriminate.
  - destruct (check_cases p) as [Ck | [Ck | Ck]]; rewrite Ck in E; injection E as <-; auto.
  - destruct (slot s); [|destruct b]; injection E as <-; auto.
  - destruct b; injection E as <-; auto.
  - destruct b; injection E as <-; auto.
  - destruct b; injection E as <-; auto.
  - destruct b; injection E as <-; auto.
  - destruct (started (cx s) || aborted (cx s)); [|discriminate]. destruct (aborted (cx s)); injection E as <-; auto.
  - injection E as <-; auto.
  - destruct (queue_p (cx s)); injection E as <-; auto.
  - destruct P as (_ & Sl & _). destruct k; injection E as <-; cbn; auto.
  - injection E as <-; auto.
  - destruct e; injection E as <-; auto.
  - destruct e; injection E as <-; auto.
  - destruct e; injection E as <-; auto.
  - injection E as <-; auto.
  - injection E as <-; auto.
  - destruct (up (cx s)); [destruct (event_p (cx s))|]; injection E as <-; auto.
  - destruct (aborted (cx s)); injection E as <-; auto.
  - injection E as <-; auto.
  - destruct (queue_p (cx s)); injection E as <-; auto.
  - injection E as <-. cbn. match goal with |- context [fold_right ?f ?a ?l] => pose proof (fold_sock_same l a) as F end. tauto.
  - injection E as <-; auto.
  - destruct P as (Sl & _). injection E as <-. destruct r; cbn; auto.
Qed.

(** ** Arguments *)
Lemma usable_checked p : usable_arguments p <-> check_arguments p = C_SUCCESS.
Proof.
  unfold usable_arguments, check_arguments, checkInitParameter. split.
  - intros (H & (i & I & A & B & C & D) & (t & T & U & E & F & G)). rewrite H, I, T, A, B, C, D, E, F, G. cbn. now destruct (ct_urcs t).
  - destruct (p_handle p); [|discriminate]. cbn. destruct (p_intf p) as [i|]; [|discriminate]. destruct (p_tok p) as [t|]; [|discriminate].
    intro X. split; [reflexivity|]. split; [exists i|exists t]; (split; [reflexivity|]);
      destruct (ci_open i), (ci_close i), (ci_send i), (ci_recv i); try discriminate; cbn in X; auto;
      destruct (ct_urcs t), (ct_error t), (ct_success t), (ct_wo_prefix t); try discriminate; repeat split; discriminate.
Qed.
Lemma unusable_code p : ~ usable_arguments p -> check_arguments p = if p_handle p then C_BAD_PARAMETER else C_INVALID_HANDLE.
Proof.
  intro N. assert (Ne : check_arguments p <> C_SUCCESS) by (intro X; apply N, usable_checked, X). clear N.
  destruct (check_cases p) as [Ck | [Ck | Ck]]; [now rewrite Ck in Ne| |]; rewrite Ck; unfold check_arguments, checkInitParameter in Ck;
    destruct (p_handle p); cbn in Ck; try reflexivity; try discriminate.
  destruct (p_intf p); [|discriminate]. destruct (p_tok p); [|discriminate]. cbn in Ck.
  destruct (_ || _); [discriminate|]. destruct (_ || _); discriminate.
Qed.

Definition refused (s0 : state) (p : params) (s : state) : Prop :=
  tr s = tr s0 /\ handle s = handle s0 /\ slot s = slot s0 /\ opened (cx s) = opened (cx s0) /\
  (main s = MParams p /\ results s = results s0 \/
   main s = MIdle /\ results s = RetInit (if p_handle p then C_BAD_PARAMETER else C_INVALID_HANDLE) :: results s0).
Lemma refused_step static s0 p lb s s' : ~ usable_arguments p -> Inv static s -> ~ makes_a_call lb -> refused s0 p s ->
  exec static lb s = Some s' -> refused s0 p s'.
Proof.
  intros N I C (T & H & S & O & M) E. pose proof (i_phase _ _ I) as P. destruct lb; cbn [exec makes_a_call] in *; try (exfalso; tauto).
  - destruct M as [[M R] | [M R]]; unfold main_step in E; rewrite M in E; [|discriminate].
    rewrite (unusable_code p N) in E.
    assert (s' = upd_results (RetInit (if p_handle p then C_BAD_PARAMETER else C_INVALID_HANDLE)) s) as -> by (destruct (p_handle p); congruence).
    unfold refused. cbn. rewrite R. auto 10.
  - exfalso. assert (X : if slot s then is_open static s else cur s = None) by (unfold phase in P; destruct M as [[M _] | [M _]]; rewrite M in P; tauto).
    unfold reader_step in E. destruct (slot s); [|now rewrite X in E]. destruct X as (_ & _ & (Cu & (_ & _ & Ab) & _) & _).
    now rewrite Cu, Ab in E.
  - unfold old_step in E. destruct (nth_error (old s) k) as [[]|]; try discriminate; destruct static; injection E as <-; unfold refused; cbn; auto 10.
Qed.
Lemma unusable_refused static s p ls s' : reach static s -> main s = MIdle -> ~ usable_arguments p ->
  exec_all static (LInit p :: ls) s = Some s' -> Forall (fun lb => ~ makes_a_call lb) ls ->
  (results s' = results s \/ results s' = RetInit (if p_handle p then C_BAD_PARAMETER else C_INVALID_HANDLE) :: results s) /\
  tr s' = tr s /\ handle s' = handle s /\ slot s' = slot s /\ opened (cx s') = opened (cx s).
Proof.
  intros R M N E F. cbn [exec_all] in E. destruct (exec static (LInit p) s) as [s1|] eqn:E1; [|discriminate].
  assert (Q : refused s p s1). { cbn in E1. rewrite M in E1. injection E1 as <-. unfold refused. cbn. auto 10. }
  assert (R1 : reach static s1) by exact (reach_step _ _ _ _ R E1). clear E1.
  assert (G : refused s p s').
  { revert s1 Q R1 E. induction F as [|lb ls C F IH]; intros s1 Q R1 E; cbn [exec_all] in E; [injection E as <-; exact Q|].
    destruct (exec static lb s1) as [s2|] eqn:E2; [|discriminate].
    apply (IH s2); [eapply refused_step; eauto; apply inv_reach, R1|exact (reach_step _ _ _ _ R1 E2)|exact E]. }
  destruct G as (T & H & S & O & [[_ G] | [_ G]]); rewrite G; auto 10.
Qed.

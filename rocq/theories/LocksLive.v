(** Progress and termination for Locks.v. *)
From Coq Require Import List Bool Arith Lia.
From Verif Require Import Locks SpecLocks LocksProofs LocksInv.
Import ListNotations.

Definition can_step (s : sys) : Prop := exists t a s', istep s t a s'.

Lemma run_ok rd s t p : thread_ok true rd s t p -> (forall o, p <> Ret o) -> (forall l k, p = Do (Acq l) k -> owner s l = None) ->
  exists a s' p', pstep s t p a s' p'.
Proof.
  intros (b & O & _) NR F. destruct p as [o|a k|p q|p q|p q]; cbn [ok] in O.
  - exfalso. apply (NR o). reflexivity.
  - destruct a; try contradiction; try (do 3 eexists; constructor; fail).
    do 3 eexists. constructor. apply (F l k). reflexivity.
  - do 3 eexists. apply PSLeft.
  - destruct (comm s) eqn:E; do 3 eexists; [apply PSComm|apply PSNoComm]; assumption.
  - contradiction.
Qed.
Definition is_ret (p : prog) : {o | p = Ret o} + {forall o, p <> Ret o}.
Proof. destruct p; [left; eexists; reflexivity|right; discriminate..]. Defined.
Lemma held_owner s t l : held s t l = true <-> owner s l = Some t.
Proof. unfold held. destruct (owner s l); split; intros H; try discriminate; [apply tid_eqb_eq in H; congruence|inversion H; apply tid_eqb_refl]. Qed.

Lemma wait_start s p q : inv true s -> life s = LOpening (WaitStart p q) -> krok s KStart -> can_step s.
Proof.
  intros I L (K1 & K2 & K3). unfold can_step. destruct (reader s) eqn:R; try contradiction.
  - do 3 eexists. apply IComm. assumption.
  - do 3 eexists. apply IStarted. assumption.
  - do 3 eexists. apply IFail. assumption.
  - do 3 eexists. eapply IOpening; [eassumption|]. apply PSStartOk; tauto.
  - do 3 eexists. eapply IOpening; [eassumption|]. apply PSStartOk; tauto.
  - do 3 eexists. eapply IOpening; [eassumption|]. apply PSStartBad; tauto.
Qed.

(** The holder of a mutex that no held mutex outranks can step. *)
Lemma holder_steps s l t : inv true s -> owner s l = Some t -> (forall l', rank l < rank l' -> owner s l' = None) -> can_step s.
Proof.
  intros I O F. assert (H : held s t l = true) by (apply held_owner; assumption). unfold can_step.
  assert (FA : forall rd p, thread_ok true rd s t p -> forall l0 k, p = Do (Acq l0) k -> owner s l0 = None).
  { intros rd p (b & Ok & _) l0 k ->. destruct Ok as [A _]. apply F. apply (A eq_refl). assumption. }
  assert (NR : forall rd p, thread_ok true rd s t p -> forall o, p <> Ret o).
  { intros rd p (b & Ok & _) o ->. simpl in Ok. rewrite Ok in H. discriminate. }
  destruct t as [i| |].
  - destruct (nth_error (apps s) i) as [p|] eqn:E; [|exfalso; pose proof (i_noapp true s I i E l); congruence].
    pose proof (i_apps true s I i p E) as T.
    destruct (run_ok _ _ _ _ T (NR _ _ T) (FA _ _ T)) as (a & s' & p' & P). do 3 eexists. eapply IApp; eassumption.
  - destruct (i_life true s I) as (al & r & K & AL & L).
    assert (G : forall (f : prog -> life_phase) op p, (f = LOpening \/ f = LClosing) -> (op = true -> f = LOpening) -> life s = f p -> lok op al (queue s) r (held s TLife) p -> can_step s).
    { intros f op p Hf Hop E Lk.
      assert (ST : forall a s' p', pstep s TLife p a s' p' -> can_step s).
      { intros a s' p' P. unfold can_step. destruct Hf; subst f; do 3 eexists; [eapply IOpening|eapply IClosing]; eassumption. }
      destruct p as [o|a k|p q|p q|p q]; cbn [lok] in Lk.
      - destruct Lk as [Lk _]. rewrite Lk in H. discriminate.
      - destruct a; try contradiction; try (eapply ST; constructor; fail).
        + destruct Lk as [A _]. eapply ST. apply PSAcq. destruct al; [|apply F; apply A; exact H].
          destruct (AL eq_refl) as [-> Ap]. destruct (owner s l0) as [t|] eqn:Eo; [|reflexivity]. exfalso. apply held_owner in Eo.
          destruct t as [i| |].
          * destruct (nth_error (apps s) i) as [p|] eqn:En; [|rewrite (i_noapp true s I i En l0) in Eo; discriminate].
            destruct (ret_set _ _ _ Ap En) as [o ->]. destruct (i_apps true s I i _ En) as (b & Ok & _). simpl in Ok. rewrite Ok in Eo. discriminate.
          * congruence.
          * destruct K as [K _]. pose proof (i_reader true s I) as R. rewrite K in R. rewrite (R l0) in Eo. discriminate.
        + destruct Lk as (_ & _ & X & _). rewrite X in H. discriminate.
      - eapply ST. apply PSLeft.
      - contradiction.
      - destruct Lk as (_ & -> & _). destruct op.
        + rewrite (Hop eq_refl) in E. eapply wait_start; eassumption.
        + destruct Hf; subst f; [eapply wait_start; eassumption|].
          destruct K as (K1 & K2 & K3). unfold can_step. destruct (reader s) eqn:R; try contradiction.
          * do 3 eexists. apply IComm. assumption.
          * do 3 eexists. apply IStarted. assumption.
          * do 3 eexists. apply IFail. assumption.
          * eapply ST. apply PSStartOk; tauto.
          * eapply ST. apply PSStartOk; tauto.
          * eapply ST. apply PSStartBad; tauto. }
    destruct (life s) as [|p| |p] eqn:E.
    + destruct L as (_ & _ & _ & L). rewrite (L l) in H. discriminate.
    + apply (G LOpening true p); auto.
    + destruct L as (_ & _ & _ & L). rewrite (L l) in H. discriminate.
    + apply (G LClosing false p); auto; [discriminate|exact (proj2 L)].
  - pose proof (i_reader true s I) as R. destruct (reader s) as [| | | | |p| | |] eqn:E; try (rewrite (R l) in H; discriminate).
    destruct (run_ok _ _ _ _ R (NR _ _ R) (FA _ _ R)) as (a & s' & p' & P). do 3 eexists. eapply IBusy; eassumption.
Qed.

Lemma free_or_steps s : inv true s -> can_step s \/ forall l, owner s l = None.
Proof.
  intros I.
  destruct (owner s RespL) eqn:E3; [left; eapply holder_steps; [exact I|exact E3|]; intros l; destruct l; simpl; lia|].
  destruct (owner s RequestL) eqn:E2; [left; eapply holder_steps; [exact I|exact E2|]; intros l; destruct l; simpl; intros; try lia; assumption|].
  destruct (owner s StatusL) eqn:E1; [left; eapply holder_steps; [exact I|exact E1|]; intros l; destruct l; simpl; intros; try lia; assumption|].
  destruct (owner s DataL) eqn:E0; [left; eapply holder_steps; [exact I|exact E0|]; intros l; destruct l; simpl; intros; try lia; assumption|].
  right. intros l. destruct l; assumption.
Qed.

Lemma reader_steps s : inv true s -> (forall l, owner s l = None) -> reader_active s -> can_step s.
Proof.
  intros I F A. pose proof (i_reader true s I) as R. unfold reader_active in A. unfold can_step. destruct (reader s) as [| | | | |p| | |] eqn:E; try contradiction.
  - do 3 eexists. apply IComm. assumption.
  - do 3 eexists. apply IStarted. assumption.
  - do 3 eexists. apply IFail. assumption.
  - destruct (is_ret p) as [[o ->]|NR]; [do 3 eexists; eapply IBusyDone; eassumption|].
    destruct (run_ok _ _ _ _ R NR (fun l _ _ => F l)) as (a & s' & p' & P). do 3 eexists. eapply IBusy; eassumption.
  - do 3 eexists. apply IClose. assumption.
  - do 3 eexists. apply IGone. assumption.
Qed.

Lemma progress s : inv true s -> can_step s \/ settled s.
Proof.
  intros I. destruct (free_or_steps s I) as [|F]; [left; assumption|].
  (* reader *)
  assert (RD : reader_active s \/ ~ reader_active s) by (unfold reader_active; destruct (reader s); tauto).
  destruct RD as [RD|RD]; [left; apply reader_steps; assumption|].
  (* life *)
  destruct (i_life true s I) as (al & r & K & AL & L).
  assert (LF : can_step s \/ ~ starting_or_stopping s).
  { assert (G : forall (f : prog -> life_phase) op p, (f = LOpening \/ f = LClosing) -> (op = true -> f = LOpening) -> life s = f p -> lok op al (queue s) r (held s TLife) p -> can_step s).
    { intros f op p Hf Hop E Lk.
      assert (ST : forall a s' p', pstep s TLife p a s' p' -> can_step s).
      { intros a s' p' P. unfold can_step. destruct Hf; subst f; do 3 eexists; [eapply IOpening|eapply IClosing]; eassumption. }
      destruct p as [o|a k|p q|p q|p q]; cbn [lok] in Lk.
      - unfold can_step. destruct Hf; subst f; do 3 eexists; [eapply IOpened|eapply IClosed]; eassumption.
      - destruct a; try contradiction; try (eapply ST; constructor; fail).
        + eapply ST. apply PSAcq. apply F.
        + destruct Lk as (_ & -> & _). destruct K as (K1 & K2). unfold reader_active in RD. destruct (reader s) eqn:R; try contradiction; try (exfalso; apply RD; exact Logic.I).
          * unfold can_step. do 3 eexists. apply IAbort; tauto.
          * eapply ST. apply PSWaitAborted; tauto.
      - eapply ST. apply PSLeft.
      - contradiction.
      - destruct Lk as (_ & -> & _). destruct K as (K1 & K2 & K3). unfold reader_active in RD. destruct (reader s) eqn:R; try contradiction; try (exfalso; apply RD; exact Logic.I).
        + eapply ST. apply PSStartOk; tauto.
        + eapply ST. apply PSStartBad; tauto. }
    destruct (life s) as [|p| |p] eqn:E.
    - right. intros (p & [X|X]); congruence.
    - left. apply (G LOpening true p); auto.
    - right. intros (p & [X|X]); congruence.
    - left. apply (G LClosing false p); auto; [discriminate|exact (proj2 L)]. }
  destruct LF as [LF|LF]; [left; assumption|].
  (* applications *)
  assert (AP : can_step s \/ forall i p, nth_error (apps s) i = Some p -> exists o, p = Ret o).
  { assert (D : Forall (fun p => exists o, p = Ret o) (apps s) \/ exists p, In p (apps s) /\ forall o, p <> Ret o).
    { generalize (apps s). intros l; induction l as [|p l IH]; [left; constructor|].
      destruct (is_ret p) as [[o E]|NR]; [|right; exists p; split; [left; reflexivity|assumption]].
      destruct IH as [IH|(q & Q1 & Q2)]; [left; constructor; [exists o; exact E|assumption]|right; exists q; split; [right; assumption|assumption]]. }
    destruct D as [D|(p & IN & NR)]; [right; intros i p N; eapply ret_set; eassumption|left].
    apply In_nth_error in IN. destruct IN as [i N].
    destruct (run_ok _ _ _ _ (i_apps true s I i p N) NR (fun l _ _ => F l)) as (a & s' & p' & P). unfold can_step. do 3 eexists. eapply IApp; eassumption. }
  destruct AP as [AP|AP]; [left; assumption|right].
  split; [|split; assumption]. intros i (p & N & NR). destruct (AP i p N) as [o ->]. apply (NR o). reflexivity.
Qed.

(** ** Termination *)
Fixpoint size (p : prog) : nat :=
  match p with
  | Ret _ => 0
  | Do Spawn k => 7 + size k
  | Do _ k => 1 + size k
  | Branch p q | IfComm p q | WaitStart p q => 1 + Nat.max (size p) (size q)
  end.
Definition rweight (r : reader_phase) : nat :=
  match r with RNone | RDone => 0 | RStart => 6 | RStarted => 5 | RFail => 1 | RIdle => 3 | RBusy p => 4 + size p | RExit1 => 2 | RExit2 => 1 end.
Definition lweight (l : life_phase) : nat := match l with LClosed | LOpen => 0 | LOpening p | LClosing p => 1 + size p end.
Definition sum (l : list prog) : nat := fold_right (fun p n => size p + n) 0 l.
Definition work (s : sys) : nat := sum (apps s) + rweight (reader s) + lweight (life s).

Lemma size_do a k : size (Do a k) = (match a with Spawn => 7 | _ => 1 end) + size k.
Proof. destruct a; reflexivity. Qed.
Lemma pstep_size s t p a s' p' : pstep s t p a s' p' ->
  apps s' = apps s /\ life s' = life s /\ size p' < size p /\ size p' + rweight (reader s') < size p + rweight (reader s).
Proof. destruct 1; rewrite ?size_do; cbn [size]; repeat split; simpl; try lia. Qed.
Lemma sum_set l i p p' : nth_error l i = Some p -> sum (set_nth i p' l) + size p = sum l + size p'.
Proof. revert i; induction l as [|x l IH]; intros [|i] H; simpl in *; try discriminate; [inversion H; subst; lia|]. specialize (IH _ H). unfold sum in *. lia. Qed.
Lemma istep_work s t a s' : istep s t a s' -> work s' < work s.
Proof.
  intros H. unfold work. destruct H as [i p a s' p' H P|p a s' p' H P|o H|p a s' p' H P|o H|H|H|H|H|p a s' p' H P|o H|H H0|H|H]; simpl; rewrite ?H; try (destruct o); simpl; try lia.
  - destruct (pstep_size _ _ _ _ _ _ P) as (A & B & C & D). rewrite A, B. pose proof (sum_set _ _ _ p' H). lia.
  - destruct (pstep_size _ _ _ _ _ _ P) as (A & B & C & D). rewrite A. lia.
  - destruct (pstep_size _ _ _ _ _ _ P) as (A & B & C & D). rewrite A. lia.
  - destruct (pstep_size _ _ _ _ _ _ P) as (A & B & C & D). rewrite A, B. lia.
Qed.
Lemma runs_bound n s s' : runs n s s' -> n <= work s.
Proof. intros R. cut (n + work s' <= work s); [lia|]. induction R; [lia|]. apply istep_work in H. lia. Qed.
Lemma reach_runs cb k n s s' : reach cb k s -> runs n s s' -> reach cb k s'.
Proof. intros R U. revert R. induction U; intros R; [assumption|]. apply IHU. eapply RI; eassumption. Qed.
Lemma settles s : inv true s -> exists n s', runs n s s' /\ settled s'.
Proof.
  remember (work s) as w. revert s Heqw. induction w as [w IH] using lt_wf_ind. intros s -> I.
  destruct (progress s I) as [(t & a & s1 & St)|Q]; [|exists 0, s; split; [constructor|assumption]].
  destruct (IH (work s1) (istep_work _ _ _ _ St) s1 eq_refl (inv_istep _ _ _ _ _ I St)) as (n & s' & R & Q).
  exists (S n), s'. split; [econstructor; eassumption|assumption].
Qed.

(** ** The queue and the comm interface *)
Lemma krok_alive s r : krok s r -> busy (reader s) = true -> queue s = true /\ comm s = true.
Proof. intros K B. destruct r; simpl in K; destruct (reader s); simpl in B; try discriminate; intuition congruence. Qed.
Lemma uses_queue st s t a s' : inv st s -> istep s t a s' -> a = Some Recv \/ a = Some QSend -> queue s = true.
Proof.
  intros I St U. destruct St as [i p a s' p' H P|p a s' p' H P|o H|p a s' p' H P|o H|H|H|H|H|p a s' p' H P|o H|H H0|H|H]; try (destruct U; discriminate).
  - destruct (i_apps st s I i p H) as (b & O & B). destruct U; subst a; inversion P; subst; cbn [ok] in O.
    + destruct O as [-> _]. apply B; reflexivity.
    + destruct O; discriminate.
  - destruct (i_life st s I) as (al & r & K & AL & L). rewrite H in L. destruct U; subst a; inversion P; subst; contradiction.
  - destruct (i_life st s I) as (al & r & K & AL & L). rewrite H in L. destruct L as [_ L]. destruct U; subst a; inversion P; subst; contradiction.
  - destruct (i_life st s I) as (al & r & K & AL & L). apply (krok_alive s r K). rewrite H. reflexivity.
Qed.
Lemma deletes st s t s' : inv st s -> istep s t (Some DelQueue) s' -> t = TLife /\ owner s RequestL = Some TLife /\ comm s = false /\ (reader s = RNone \/ reader s = RDone).
Proof.
  intros I St. inversion St; subst.
  - destruct (i_apps st s I i p H) as (b & O & B). inversion H0; subst. contradiction.
  - destruct (i_life st s I) as (al & r & K & AL & L). rewrite H in L. inversion H0; subst. cbn [lok] in L. destruct L as (L1 & L2 & _).
    split; [reflexivity|]. split; [apply held_owner; exact L1|]. destruct L2; subst r; simpl in K; tauto.
  - destruct (i_life st s I) as (al & r & K & AL & L). rewrite H in L. destruct L as [_ L]. inversion H0; subst. cbn [lok] in L. destruct L as (L1 & L2 & _).
    split; [reflexivity|]. split; [apply held_owner; exact L1|]. destruct L2; subst r; simpl in K; tauto.
  - pose proof (i_reader st s I) as R. rewrite H in R. destruct R as (b & O & B). inversion H0; subst. contradiction.
Qed.
Lemma opening_quiet cb n s p : reach cb n s -> life s = LOpening p -> Forall (fun p => exists ok, p = Ret ok) (apps s).
Proof.
  intros R. revert p. induction R as [|s t a s' R IH St|s s' R IH X]; intros q E.
  - discriminate.
  - destruct St as [i p a s' p' H P|p a s' p' H P|o H|p a s' p' H P|o H|H|H|H|H|p a s' p' H P|o H|H H0|H|H]; simpl in *; try discriminate; try (destruct o; discriminate); try (eapply IH; eassumption).
    + destruct (pstep_size _ _ _ _ _ _ P) as (A & B & _). rewrite B in E. pose proof (IH _ E) as F. destruct (ret_set _ _ _ F H) as [o ->]. inversion P.
    + destruct (pstep_size _ _ _ _ _ _ P) as (A & B & _). rewrite A. eapply IH; eassumption.
    + destruct (pstep_size _ _ _ _ _ _ P) as (A & B & _). rewrite A. rewrite B in E. eapply IH; eassumption.
  - destruct X; simpl in *; try (eapply IH; eassumption); try discriminate.
    + destruct H0 as [X|[p X]]; congruence.
    + assumption.
Qed.
Lemma sends cb n s t s' : reach cb n s -> istep s t (Some Send) s' ->
  owner s RequestL = Some t /\ life s <> LClosed /\ (comm s = true \/ exists p, life s = LClosing p).
Proof.
  intros R St. pose proof (inv_reach_any cb n s R) as I.
  assert (G : owner s RequestL = Some t /\ queue s = true /\ (comm s = true \/ (exists i, t = TApp i) /\ forall p, life s <> LOpening p)).
  { inversion St; subst.
    - destruct (i_apps false s I i p H) as (b & O & B). inversion H0; subst. destruct O as [-> _]. destruct (B eq_refl) as [B1 B2]. apply held_owner in B1.
      split; [exact B1|]. split; [exact B2|]. right. split; [exists i; reflexivity|]. intros q E.
      pose proof (opening_quiet _ _ _ _ R E) as F. destruct (ret_set _ _ _ F H); discriminate.
    - destruct (i_life false s I) as (al & r & K & AL & L). rewrite H in L. inversion H0; subst. contradiction.
    - destruct (i_life false s I) as (al & r & K & AL & L). rewrite H in L. destruct L as [_ L]. inversion H0; subst. contradiction.
    - pose proof (i_reader false s I) as Rd. rewrite H in Rd. destruct Rd as (b & O & B). destruct (i_life false s I) as (al & r & K & AL & L). pose proof (krok_alive s r K) as KA. inversion H0; subst. destruct O as [-> _]. destruct (B eq_refl) as [B1 B2]. apply held_owner in B1.
      split; [exact B1|]. split; [exact B2|]. left. apply KA. rewrite H. reflexivity. }
  destruct G as (G1 & G2 & G3). destruct (i_life false s I) as (al & r & K & AL & L).
  assert (NC : life s <> LClosed) by (intros E; rewrite E in L; destruct L as (_ & L & _); congruence).
  split; [exact G1|]. split; [exact NC|]. destruct G3 as [G3|[_ G3]]; [left; exact G3|].
  destruct (life s) as [|p| |p] eqn:E; [congruence|exfalso; eapply G3; reflexivity| |right; eexists; reflexivity].
  destruct L as (_ & _ & -> & _). left. simpl in K. tauto.
Qed.
Lemma queue_life cb n s : reach cb n s -> (life s = LOpen -> queue s = true) /\ (life s = LClosed -> queue s = false /\ comm s = false /\ (reader s = RNone \/ reader s = RDone)).
Proof.
  intros R. destruct (i_life false s (inv_reach_any cb n s R)) as (al & r & K & AL & L). split; intros E; rewrite E in L.
  - tauto.
  - destruct L as (_ & Q & D & _). split; [exact Q|]. destruct D; subst r; simpl in K; tauto.
Qed.

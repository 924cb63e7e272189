(** The invariant of LocksProofs.v is preserved; progress; termination. *)
From Coq Require Import List Bool Arith Lia.
From Verif Require Import Locks SpecLocks LocksProofs.
Import ListNotations.

Lemma nth_set_same {A} (l : list A) i v : i < length l -> nth_error (set_nth i v l) i = Some v.
Proof. revert i; induction l as [|x l IH]; intros [|i] H; simpl in *; try lia; auto. apply IH; lia. Qed.
Lemma nth_set_other {A} (l : list A) i j v : i <> j -> nth_error (set_nth i v l) j = nth_error l j.
Proof. revert i j; induction l as [|x l IH]; intros [|i] [|j] H; simpl; auto; try lia. Qed.
Lemma nth_some_lt {A} (l : list A) i v : nth_error l i = Some v -> i < length l.
Proof. intros H. apply nth_error_Some. congruence. Qed.

(** A step of a thread running API code. *)
Lemma pstep_ok st rd s t p a s' p' : pstep s t p a s' p' -> thread_ok st rd s t p -> (comm s = true -> queue s = true) ->
  started s' = started s /\ aborted s' = aborted s /\ abort s' = abort s /\ comm s' = comm s /\ queue s' = queue s /\
  reader s' = reader s /\ life s' = life s /\ apps s' = apps s /\
  (forall t', t' <> t -> forall l, held s' t' l = held s t' l) /\ thread_ok st rd s' t p'.
Proof.
  intros P (b & O & B) C. unfold thread_ok.
  destruct P; cbn [ok] in O; try contradiction; try (repeat split; auto; fail).
  - (* Acq *) destruct O as [Ab O]; assert (Hf : held s t l = false) by (unfold held; rewrite H; reflexivity); specialize (O Hf). do 8 (split; [reflexivity|]). split.
    + intros t' N l'. unfold held; simpl. destruct (lock_eqb l l') eqn:E; [|reflexivity]. apply lock_eqb_eq in E. subst. rewrite H. apply tid_eqb_neq; assumption.
    + exists b. split.
      * eapply ok_ext; [|exact O]. intros x. unfold upd, held; simpl. destruct (lock_eqb l x); [symmetry; apply tid_eqb_refl|reflexivity].
      * intros Hb. destruct (B Hb) as [B1 B2]. split; [|assumption]. unfold held in *; simpl. destruct (lock_eqb l RequestL) eqn:E; [apply tid_eqb_refl|assumption].
  - (* Rel *) destruct O as [Hl O]. do 8 (split; [reflexivity|]). split.
    + intros t' N l'. unfold held; simpl. destruct (lock_eqb l l') eqn:E; [|reflexivity]. apply lock_eqb_eq in E. subst.
      unfold held in Hl. destruct (owner s l') as [t2|]; [|discriminate]. apply tid_eqb_eq in Hl. subst. symmetry. apply tid_eqb_neq; assumption.
    + eexists. split.
      * eapply ok_ext; [|exact O]. intros x. unfold upd, held; simpl. destruct (lock_eqb l x); reflexivity.
      * destruct (lock_eqb l RequestL) eqn:E; intros Hb; [discriminate|]. destruct (B Hb) as [B1 B2]. split; [|assumption]. unfold held in *; simpl. rewrite E. assumption.
  - do 8 (split; [reflexivity|]). split; [reflexivity|]. exists b. split; assumption.
  - do 8 (split; [reflexivity|]). split; [reflexivity|]. exists b. destruct O; split; assumption.
  - do 8 (split; [reflexivity|]). split; [reflexivity|]. exists b. destruct O; split; assumption.
  - do 8 (split; [reflexivity|]). split; [reflexivity|]. exists b. destruct O; split; assumption.
  - do 8 (split; [reflexivity|]). split; [reflexivity|]. exists b. destruct O; split; assumption.
  - do 8 (split; [reflexivity|]). split; [reflexivity|]. exists b. destruct O; split; assumption.
  - do 8 (split; [reflexivity|]). split; [reflexivity|]. exists true. destruct O as (R & O1 & O2); split; auto.
  - do 8 (split; [reflexivity|]). split; [reflexivity|]. exists b. destruct O as (R & O1 & O2); split; auto.
Qed.

Lemma krok_comm s r : krok s r -> comm s = true -> queue s = true.
Proof. destruct r; simpl; intros K C; try tauto; exfalso; intuition congruence. Qed.
Lemma inv_comm st s : inv st s -> comm s = true -> queue s = true.
Proof. intros I. destruct (i_life st s I) as (al & r & K & _). eapply krok_comm; exact K. Qed.

Lemma thread_ext st rd s s' t p : (forall l, held s' t l = held s t l) -> queue s' = queue s -> thread_ok st rd s t p -> thread_ok st rd s' t p.
Proof. intros E Q (b & O & B). exists b. split; [eapply ok_ext; [|exact O]; intros; symmetry; apply E|]. rewrite E, Q. exact B. Qed.
Lemma idle_ext s s' t : (forall l, held s' t l = held s t l) -> idle s t -> idle s' t.
Proof. intros E I l. rewrite E. apply I. Qed.
Lemma krok_ext s s' r : started s' = started s -> aborted s' = aborted s -> abort s' = abort s -> comm s' = comm s -> queue s' = queue s ->
  reader s' = reader s -> krok s r -> krok s' r.
Proof. intros A B C D E F. unfold krok. rewrite A, B, C, D, E, F. auto. Qed.

Definition busy (p : reader_phase) : bool := match p with RBusy _ => true | _ => false end.
Lemma krok_busy s s' r p p' : started s' = started s -> aborted s' = aborted s -> abort s' = abort s -> comm s' = comm s -> queue s' = queue s ->
  reader s = RBusy p -> reader s' = RBusy p' -> krok s r -> krok s' r.
Proof. intros A B C D E F G. unfold krok. rewrite A, B, C, D, E, F, G. destruct r; auto; intros X; exfalso; intuition congruence. Qed.

Lemma ret_set l i p : Forall (fun p => exists ok, p = Ret ok) l -> nth_error l i = Some p -> exists ok, p = Ret ok.
Proof. intros F H. rewrite Forall_forall in F. apply F. eapply nth_error_In; exact H. Qed.
Lemma pstep_ret s t o a s' p' : ~ pstep s t (Ret o) a s' p'.
Proof. intros H. inversion H. Qed.

Lemma inv_app st s i p a s' p' : inv st s -> nth_error (apps s) i = Some p -> pstep s (TApp i) p a s' p' -> inv st (set_apps (set_nth i p' (apps s')) s').
Proof.
  intros I N P. pose proof (i_apps st s I i p N) as T.
  destruct (pstep_ok st false s (TApp i) p a s' p' P T (inv_comm st s I)) as (E1 & E2 & E3 & E4 & E5 & E6 & E7 & E8 & F & T').
  constructor; simpl.
  - intros j q H. rewrite E8 in H. destruct (Nat.eq_dec i j) as [->|D].
    + rewrite nth_set_same in H by (eapply nth_some_lt; exact N). inversion H; subst. eapply thread_ext; [| |exact T']; reflexivity.
    + rewrite nth_set_other in H by assumption. eapply thread_ext; [| |exact (i_apps st s I j q H)]; [|exact E5].
      intros l. change (held s' (TApp j) l = held s (TApp j) l). apply F. congruence.
  - intros j H. rewrite E8 in H. assert (D : i <> j) by (intros ->; rewrite nth_set_same in H by (eapply nth_some_lt; exact N); discriminate).
    rewrite nth_set_other in H by assumption. eapply idle_ext; [|exact (i_noapp st s I j H)]. intros l. apply (F (TApp j)). congruence.
  - rewrite E6. pose proof (i_reader st s I) as R. destruct (reader s); try (eapply idle_ext; [|exact R]; intros l; apply (F TReader); discriminate).
    eapply thread_ext; [| |exact R]; [|exact E5]. intros l. apply (F TReader). discriminate.
  - destruct (i_life st s I) as (al & r & K & AL & L).
    destruct al; [destruct (AL eq_refl) as [_ A]; destruct (ret_set _ _ _ A N) as [o ->]; exfalso; eapply pstep_ret; exact P|].
    exists false, r. split; [eapply krok_ext; [..|exact K]; assumption|]. split; [discriminate|].
    assert (FL : forall l, held s' TLife l = held s TLife l) by (intros l; apply (F TLife); discriminate).
    simpl. rewrite E7. destruct (life s); simpl.
    + destruct L as (L1 & L2 & L3 & L4). rewrite E5. repeat split; try assumption. eapply idle_ext; [|exact L4]; exact FL.
    + rewrite E5. eapply lok_ext; [|exact L]. intros x; symmetry; apply FL.
    + destruct L as (L1 & L2 & L3 & L4). rewrite E5. repeat split; try assumption. eapply idle_ext; [|exact L4]; exact FL.
    + destruct L as [L1 L2]. split; [assumption|]. rewrite E5. eapply lok_ext; [|exact L2]. intros x; symmetry; apply FL.
Qed.

Lemma inv_busy st s p a s' p' : inv st s -> reader s = RBusy p -> pstep s TReader p a s' p' -> inv st (set_reader (RBusy p') s').
Proof.
  intros I N P. pose proof (i_reader st s I) as T. rewrite N in T.
  destruct (pstep_ok st true s TReader p a s' p' P T (inv_comm st s I)) as (E1 & E2 & E3 & E4 & E5 & E6 & E7 & E8 & F & T').
  constructor; simpl.
  - intros j q H. rewrite E8 in H. eapply thread_ext; [| |exact (i_apps st s I j q H)]; [|exact E5]. intros l. apply (F (TApp j)). discriminate.
  - intros j H. rewrite E8 in H. eapply idle_ext; [|exact (i_noapp st s I j H)]. intros l. apply (F (TApp j)). discriminate.
  - eapply thread_ext; [| |exact T']; reflexivity.
  - destruct (i_life st s I) as (al & r & K & AL & L). exists al, r.
    split; [eapply (krok_busy s); [..|exact K]; try eassumption; reflexivity|]. split; [intros X; simpl; rewrite E8; apply AL; exact X|].
    assert (FL : forall l, held s' TLife l = held s TLife l) by (intros l; apply (F TLife); discriminate).
    simpl. rewrite E7. destruct (life s); simpl.
    + destruct L as (L1 & L2 & L3 & L4). rewrite E5. repeat split; try assumption. eapply idle_ext; [|exact L4]; exact FL.
    + rewrite E5. eapply lok_ext; [|exact L]. intros x; symmetry; apply FL.
    + destruct L as (L1 & L2 & L3 & L4). rewrite E5. repeat split; try assumption. eapply idle_ext; [|exact L4]; exact FL.
    + destruct L as [L1 L2]. split; [assumption|]. rewrite E5. eapply lok_ext; [|exact L2]. intros x; symmetry; apply FL.
Qed.

(** A step of the thread doing initialisation or clean-up. *)
Lemma pstep_life op al r s p a s' p' : pstep s TLife p a s' p' -> lok op al (queue s) r (held s TLife) p -> krok s r -> (al = true -> r = KNone) ->
  life s' = life s /\ apps s' = apps s /\ (reader s' = reader s \/ (reader s = RNone /\ reader s' = RStart)) /\
  (forall t', t' <> TLife -> forall l, held s' t' l = held s t' l) /\
  (queue s' = queue s \/ queue s' = true \/ held s TLife RequestL = true) /\
  exists al' r', krok s' r' /\ (al' = true -> al = true /\ r' = r) /\ lok op al' (queue s') r' (held s' TLife) p'.
Proof.
  intros P L K AL. destruct P; cbn [lok] in L; try contradiction.
  - (* Acq *) destruct L as [Ab L]. do 2 (split; [reflexivity|]). split; [left; reflexivity|]. split; [|split; [left; reflexivity|]].
    + intros t' N l'. unfold held; simpl. destruct (lock_eqb l l') eqn:E; [|reflexivity]. apply lock_eqb_eq in E. subst. rewrite H. apply tid_eqb_neq; assumption.
    + exists al, r. split; [exact K|]. split; [auto|]. eapply lok_ext; [|exact L]. intros x. unfold upd, held; simpl. destruct (lock_eqb l x); reflexivity.
  - (* Rel *) destruct L as [Hl L]. do 2 (split; [reflexivity|]). split; [left; reflexivity|]. split; [|split; [left; reflexivity|]].
    + intros t' N l'. unfold held; simpl. destruct (lock_eqb l l') eqn:E; [|reflexivity]. apply lock_eqb_eq in E. subst.
      unfold held in Hl. destruct (owner s l') as [t2|]; [|discriminate]. apply tid_eqb_eq in Hl. subst. symmetry. apply tid_eqb_neq; assumption.
    + exists al, r. split; [exact K|]. split; [auto|]. eapply lok_ext; [|exact L]. intros x. unfold upd, held; simpl. destruct (lock_eqb l x); reflexivity.
  - do 2 (split; [reflexivity|]). split; [left; reflexivity|]. split; [reflexivity|]. split; [left; reflexivity|]. exists al, r. auto.
  - (* MkQueue *) destruct L as [-> L]. do 2 (split; [reflexivity|]). split; [left; reflexivity|]. split; [reflexivity|]. split; [right; left; reflexivity|].
    exists true, r. split; [|split; [auto|exact L]]. rewrite (AL eq_refl) in *. exact K.
  - (* DelQueue *) destruct L as (R & D & L). do 2 (split; [reflexivity|]). split; [left; reflexivity|]. split; [reflexivity|]. split; [right; right; exact R|].
    exists al, r. split; [|split; [auto|exact L]]. destruct D; subst r; exact K.
  - (* Spawn *) destruct L as (-> & Q & -> & L). destruct K as (K1 & K2 & K3 & K4 & K5). do 2 (split; [reflexivity|]). split; [right; split; [exact K1|reflexivity]|]. split; [reflexivity|]. split; [left; reflexivity|].
    exists false, KStart. split; [|split; [discriminate|exact L]]. simpl. auto.
  - (* SetAbort *) destruct L as (-> & -> & Q & L). destruct K as (K1 & K2 & K3 & K4 & K5). do 2 (split; [reflexivity|]). split; [left; reflexivity|]. split; [reflexivity|]. split; [left; reflexivity|].
    exists false, KAbort. split; [|split; [discriminate|exact L]]. simpl. split; [assumption|]. destruct (reader s); try contradiction; auto.
  - (* WaitAborted *) destruct L as (-> & -> & Q & L). destruct K as (K1 & K2). do 2 (split; [reflexivity|]). split; [left; reflexivity|]. split; [reflexivity|]. split; [left; reflexivity|].
    exists false, KGone. split; [|split; [discriminate|exact L]]. simpl. destruct (reader s); try contradiction; try (destruct K2; congruence); try (destruct K2 as (_ & K2 & _); congruence). destruct K2; auto.
  - destruct L as [L1 L2]. do 2 (split; [reflexivity|]). split; [left; reflexivity|]. split; [reflexivity|]. split; [left; reflexivity|]. exists al, r. auto.
  - destruct L as [L1 L2]. do 2 (split; [reflexivity|]). split; [left; reflexivity|]. split; [reflexivity|]. split; [left; reflexivity|]. exists al, r. auto.
  - (* started *) destruct L as (-> & -> & Q & HS & L1 & L2). destruct K as (K1 & K2 & K3). do 2 (split; [reflexivity|]). split; [left; reflexivity|]. split; [reflexivity|]. split; [left; reflexivity|].
    exists false, KUp. split; [|split; [discriminate|exact L1]]. simpl. rewrite K2. destruct (reader s); try contradiction; try (destruct K3 as (K3 & K4 & K5); try congruence; auto).
  - (* aborted *) destruct L as (-> & -> & Q & HS & L1 & L2). destruct K as (K1 & K2 & K3). do 2 (split; [reflexivity|]). split; [left; reflexivity|]. split; [reflexivity|]. split; [left; reflexivity|].
    exists false, KGone. split; [|split; [discriminate|exact L2]]. simpl. destruct (reader s); try contradiction; try (destruct K3 as (K3 & K4 & K5); try congruence; auto).
Qed.

Lemma thread_ok_queue st rd s s' t p : t <> TLife -> (forall l, held s' t l = held s t l) ->
  (queue s' = queue s \/ queue s' = true \/ held s TLife RequestL = true) -> thread_ok st rd s t p -> thread_ok st rd s' t p.
Proof.
  intros N E Q (b & O & B). exists b. split; [eapply ok_ext; [|exact O]; intros; symmetry; apply E|].
  intros Hb. destruct (B Hb) as [B1 B2]. rewrite E. split; [assumption|]. destruct Q as [Q|[Q|Q]]; [congruence|assumption|].
  exfalso. unfold held in B1, Q. destruct (owner s RequestL); [|discriminate]. apply tid_eqb_eq in B1, Q. congruence.
Qed.

Lemma inv_life st s s' p p' (f : prog -> life_phase) op a : inv st s -> life s = f p -> (f = LOpening /\ op = true \/ f = LClosing /\ op = false) ->
  pstep s TLife p a s' p' -> inv st (set_life (f p') s').
Proof.
  intros I Lf Hf P. destruct (i_life st s I) as (al & r & K & AL & L).
  assert (L' : lok op al (queue s) r (held s TLife) p) by (rewrite Lf in L; destruct Hf as [[-> ->]|[-> ->]]; [exact L|exact (proj2 L)]).
  assert (C : op = false -> al = false) by (intros ->; rewrite Lf in L; destruct Hf as [[-> ?]|[-> _]]; [discriminate|exact (proj1 L)]).
  destruct (pstep_life op al r s p a s' p' P L' K (fun H => proj1 (AL H))) as (E1 & E2 & E3 & F & Q & al' & r' & K' & A' & L2).
  constructor; simpl.
  - intros j q H. rewrite E2 in H. eapply thread_ok_queue; [..|exact (i_apps st s I j q H)]; [discriminate|apply (F (TApp j)); discriminate|exact Q].
  - intros j H. rewrite E2 in H. eapply idle_ext; [|exact (i_noapp st s I j H)]. apply (F (TApp j)); discriminate.
  - pose proof (i_reader st s I) as R.
    destruct E3 as [E3|[E3 E4]].
    + rewrite E3. destruct (reader s); try (eapply idle_ext; [|exact R]; apply (F TReader); discriminate).
      eapply thread_ok_queue; [..|exact R]; [discriminate|apply (F TReader); discriminate|exact Q].
    + rewrite E4. rewrite E3 in R. eapply idle_ext; [|exact R]; apply (F TReader); discriminate.
  - exists al', r'. split; [exact K'|]. split.
    + intros H. destruct (A' H) as [-> ->]. simpl. rewrite E2. apply AL; reflexivity.
    + simpl. destruct Hf as [[-> ->]|[-> ->]]; [exact L2|]. split; [|exact L2]. destruct al'; [|reflexivity]. destruct (A' eq_refl) as [X _]. rewrite (C eq_refl) in X. discriminate.
Qed.

Lemma idle_none s t : idle s t -> forall x, none x = held s t x.
Proof. intros H x. rewrite H. reflexivity. Qed.

(** A step of the reader outside the processing of received data. *)
Lemma inv_reader st s s' : inv st s -> owner s' = owner s -> queue s' = queue s -> life s' = life s -> apps s' = apps s ->
  match reader s' with RBusy p => thread_ok st true s' TReader p | _ => idle s TReader end ->
  (forall r, krok s r -> krok s' r) -> inv st s'.
Proof.
  intros I E1 E2 E3 E4 R K.
  assert (H : forall t l, held s' t l = held s t l) by (intros; unfold held; rewrite E1; reflexivity).
  constructor.
  - intros j q X. rewrite E4 in X. eapply thread_ext; [| |exact (i_apps st s I j q X)]; auto.
  - intros j X. rewrite E4 in X. eapply idle_ext; [|exact (i_noapp st s I j X)]; auto.
  - destruct (reader s'); try (eapply idle_ext; [|exact R]; auto). exact R.
  - destruct (i_life st s I) as (al & r & K1 & AL & L). exists al, r. split; [apply K; exact K1|]. split; [rewrite E4; exact AL|].
    rewrite E3, E2. destruct (life s); try (eapply lok_ext; [|exact L]; intros; symmetry; apply H).
    + destruct L as (? & ? & ? & L). repeat split; try assumption. eapply idle_ext; [|exact L]; auto.
    + destruct L as (? & ? & ? & L). repeat split; try assumption. eapply idle_ext; [|exact L]; auto.
    + destruct L as (? & L). split; [assumption|]. eapply lok_ext; [|exact L]; intros; symmetry; apply H.
Qed.

Ltac kk H := let r := fresh "r" in let K := fresh "K" in intros r K; destruct r; simpl in *; rewrite H in *; intuition congruence.

Lemma inv_istep st s t a s' : inv st s -> istep s t a s' -> inv st s'.
Proof.
  intros I H. pose proof (i_reader st s I) as R. destruct H as [i p a s' p' H H0|p a s' p' H H0|o H|p a s' p' H H0|o H|H|H|H|H|p a s' p' H H0|o H|H H0|H|H].
  - eapply inv_app; eassumption.
  - eapply (inv_life st s s' p p' LOpening true); eauto.
  - (* opened *) destruct (i_life st s I) as (al & r & K & AL & L). rewrite H in L. destruct L as [L1 L2].
    destruct o; (split; [exact (i_apps st s I)|exact (i_noapp st s I)|exact (i_reader st s I)|]).
    + exists false, r. split; [exact K|]. split; [discriminate|]. destruct L2 as (A & B & C). simpl. auto.
    + exists false, r. split; [exact K|]. split; [discriminate|]. destruct L2 as (A & B). simpl. auto.
  - eapply (inv_life st s s' p p' LClosing false); eauto.
  - destruct (i_life st s I) as (al & r & K & AL & L). rewrite H in L. destruct L as (L0 & L1 & L2 & L3).
    split; [exact (i_apps st s I)|exact (i_noapp st s I)|exact (i_reader st s I)|]. exists false, r. split; [exact K|]. split; [discriminate|]. simpl. auto.
  - (* comm opened *) apply (inv_reader st s); auto; [rewrite H in R; exact R|]. kk H.
  - apply (inv_reader st s); auto; [rewrite H in R; exact R|]. kk H.
  - apply (inv_reader st s); auto; [rewrite H in R; exact R|]. kk H.
  - apply (inv_reader st s); auto; [rewrite H in R; exact R|]. kk H.
  - eapply inv_busy; eassumption.
  - (* busy done *) rewrite H in R. destruct R as (b & O & _). simpl in O. apply (inv_reader st s); auto.
    kk H.
  - (* abort seen *) apply (inv_reader st s); auto; [rewrite H in R; exact R|]. kk H.
  - apply (inv_reader st s); auto; [rewrite H in R; exact R|]. kk H.
  - apply (inv_reader st s); auto; [rewrite H in R; exact R|]. kk H.
Qed.

Lemma inv_xstep st (cb : list piece -> Prop) s s' : (st = true -> forall e, cb e -> callbacks_ok e) -> inv st s -> xstep cb s s' -> inv st s'.
Proof.
  intros CB I H. pose proof (i_reader st s I) as R. destruct H.
  - (* call *)
    pose proof (i_apps st s I i _ H) as (b & O & _). simpl in O.
    assert (T : thread_ok st false s (TApp i) (call_prog c (Ret true))).
    { exists false. split; [|discriminate]. eapply ok_ext; [apply idle_none; exact O|]. apply ok_call; [apply ab_none|intros; apply ab_none|]. simpl. reflexivity. }
    split; simpl; [| |exact R|].
    + intros j q X. destruct (Nat.eq_dec i j) as [->|D].
      * rewrite nth_set_same in X by (eapply nth_some_lt; exact H). inversion X; subst. exact T.
      * rewrite nth_set_other in X by assumption. exact (i_apps st s I j q X).
    + intros j X. assert (D : i <> j) by (intros ->; rewrite nth_set_same in X by (eapply nth_some_lt; exact H); discriminate).
      rewrite nth_set_other in X by assumption. exact (i_noapp st s I j X).
    + destruct (i_life st s I) as (al & r & K & AL & L). exists false, r. split; [exact K|]. split; [discriminate|].
      simpl. destruct H0 as [E|[p E]]; rewrite E in *.
      * destruct L as (L1 & L2 & L3 & L4). auto.
      * destruct L as [-> L]. split; [reflexivity|exact L].
  - (* data *) rewrite H in R. apply (inv_reader st s); auto; simpl.
    + exists false. split; [|discriminate]. eapply ok_ext; [apply idle_none; exact R|]. apply ok_event; intros Hs; apply (CB Hs); assumption.
    + kk H.
  - rewrite H in R. destruct R as (b & O & _). simpl in O. apply (inv_reader st s); auto; simpl.
    + exists false. split; [|discriminate]. eapply ok_ext; [apply idle_none; exact O|]. apply ok_event; intros Hs; apply (CB Hs); assumption.
    + kk H.
  - (* open *) destruct (i_life st s I) as (al & r & K & AL & L). rewrite H in L. destruct L as (L1 & L2 & L3 & L4).
    assert (RI : idle s TReader). { destruct L3; subst r; simpl in K; [destruct K as [K _]; rewrite K in R; exact R|]. destruct K as [[K|K] _]; rewrite K in R; exact R. }
    split; [exact (i_apps st s I)|exact (i_noapp st s I)|exact RI|].
    exists true, KNone. split; [|split; [intros _; split; [reflexivity|exact H0]|]].
    + simpl. repeat split; auto. destruct L3; subst r; simpl in K; tauto.
    + change (lok true true (queue s) KNone (held s TLife) open_prog). rewrite L2. eapply lok_ext; [|exact lok_open]. apply idle_none. exact L4.
  - (* close *) destruct (i_life st s I) as (al & r & K & AL & L). rewrite H in L. destruct L as (L1 & L2 & L3 & L4). subst.
    split; [exact (i_apps st s I)|exact (i_noapp st s I)|exact R|].
    exists false, KUp. split; [exact K|]. split; [discriminate|]. change (false = false /\ lok false false (queue s) KUp (held s TLife) close_prog). split; [reflexivity|]. rewrite L2. eapply lok_ext; [|exact lok_close]. apply idle_none. exact L4.
Qed.

Lemma inv_init st n : inv st (sys0 n).
Proof.
  constructor; simpl.
  - intros i p H. apply nth_error_In in H. apply repeat_spec in H. subst. exists false. split; [simpl; reflexivity|discriminate].
  - intros i H l. reflexivity.
  - intros l. reflexivity.
  - exists false, KNone. simpl. repeat split; auto. discriminate.
Qed.
Lemma inv_reach_gen st (cb : list piece -> Prop) n s : (st = true -> forall e, cb e -> callbacks_ok e) -> reach cb n s -> inv st s.
Proof. intros CB. induction 1; [apply inv_init|eapply inv_istep; eassumption|eapply inv_xstep; eassumption]. Qed.
Lemma inv_reach n s : reach callbacks_ok n s -> inv true s.
Proof. apply inv_reach_gen. auto. Qed.
Lemma inv_reach_any cb n s : reach cb n s -> inv false s.
Proof. apply inv_reach_gen. discriminate. Qed.

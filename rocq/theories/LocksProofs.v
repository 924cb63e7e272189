(** Invariant of Locks.v: lock order, phases of the reader against the phase of the library, lifetime of the queue. *)
From Coq Require Import List Bool Arith Lia.
From Verif Require Import Locks SpecLocks.
Import ListNotations.

Definition tid_eqb (a b : tid) : bool :=
  match a, b with TApp i, TApp j => Nat.eqb i j | TLife, TLife | TReader, TReader => true | _, _ => false end.
Lemma tid_eqb_eq a b : tid_eqb a b = true <-> a = b.
Proof. destruct a, b; simpl; split; intros H; try discriminate; try reflexivity.
  - apply Nat.eqb_eq in H; congruence. - inversion H; apply Nat.eqb_refl. Qed.
Lemma tid_eqb_refl a : tid_eqb a a = true. Proof. now apply tid_eqb_eq. Qed.
Lemma tid_eqb_neq a b : a <> b -> tid_eqb a b = false.
Proof. intros H. destruct (tid_eqb a b) eqn:E; [|reflexivity]. apply tid_eqb_eq in E. contradiction. Qed.

Definition held (s : sys) (t : tid) (l : lock) : bool := match owner s l with Some t' => tid_eqb t t' | None => false end.
Definition rank (l : lock) : nat := match l with DataL => 0 | StatusL => 1 | RequestL => 2 | RespL => 3 end.
Definition above (h : lock -> bool) (l : lock) : Prop := forall l', h l' = true -> rank l' < rank l.
Definition upd (h : lock -> bool) (l : lock) (v : bool) : lock -> bool := fun l' => if lock_eqb l l' then v else h l'.

(** [st]: the lock order is obeyed; without it nothing is claimed about a thread taking a mutex it already holds. *)
Fixpoint ok (st rd : bool) (h : lock -> bool) (b : bool) (p : prog) : Prop :=
  match p with
  | Ret _ => forall l, h l = false
  | Do a k =>
      match a with
      | Acq l => (st = true -> above h l) /\ (h l = false -> ok st rd (upd h l true) b k)
      | Rel l => h l = true /\ ok st rd (upd h l false) (if lock_eqb l RequestL then false else b) k
      | Step => ok st rd h b k
      | Send | Recv => b = true /\ ok st rd h b k
      | QSend => rd = true /\ ok st rd h b k
      | _ => False
      end
  | Branch p q => ok st rd h b p /\ ok st rd h b q
  | IfComm p q => h RequestL = true /\ ok st rd h true p /\ ok st rd h b q
  | WaitStart _ _ => False
  end.

Inductive kr := KNone | KStart | KUp | KAbort | KGone.
Fixpoint lok (op al kq : bool) (r : kr) (h : lock -> bool) (p : prog) : Prop :=
  match p with
  | Ret ok => (forall l, h l = false) /\
      (if op then if ok then al = false /\ kq = true /\ r = KUp else kq = false /\ (r = KNone \/ r = KGone) else kq = false /\ r = KGone)
  | Do a k =>
      match a with
      | Acq l => (if al then h l = false else above h l) /\ lok op al kq r (upd h l true) k
      | Rel l => h l = true /\ lok op al kq r (upd h l false) k
      | MkQueue => al = true /\ lok op al true r h k
      | DelQueue => h RequestL = true /\ (r = KNone \/ r = KGone) /\ lok op al false r h k
      | Spawn => al = true /\ kq = true /\ r = KNone /\ lok op false kq KStart h k
      | SetAbort => al = false /\ r = KUp /\ kq = true /\ lok op al kq KAbort h k
      | WaitAborted => al = false /\ r = KAbort /\ (forall l, h l = false) /\ lok op al kq KGone h k
      | Step => lok op al kq r h k
      | _ => False
      end
  | Branch p q => lok op al kq r h p /\ lok op al kq r h q
  | IfComm _ _ => False
  | WaitStart p q => al = false /\ r = KStart /\ kq = true /\ (forall l, h l = true -> l = StatusL) /\
      lok op al kq KUp h p /\ lok op al kq KGone h q
  end.

Lemma lock_eqb_eq a b : lock_eqb a b = true <-> a = b.
Proof. destruct a, b; simpl; split; congruence. Qed.
Lemma lock_eqb_refl a : lock_eqb a a = true. Proof. now apply lock_eqb_eq. Qed.

Lemma above_ext h h' l : (forall x, h x = h' x) -> above h l -> above h' l.
Proof. intros E A x Hx. apply A. rewrite E. exact Hx. Qed.
Lemma upd_ext h h' l v : (forall x, h x = h' x) -> forall x, upd h l v x = upd h' l v x.
Proof. intros E x. unfold upd. destruct (lock_eqb l x); auto. Qed.
Lemma ok_ext st rd p : forall h h' b, (forall x, h x = h' x) -> ok st rd h b p -> ok st rd h' b p.
Proof.
  induction p as [o|a k IH|p IHp q IHq|p IHp q IHq|p IHp q IHq]; simpl; intros h h' b E H.
  - intros l. rewrite <- E. apply H.
  - destruct a; try contradiction; try (destruct H as [H1 H2]; split; [try (rewrite <- E; assumption); try assumption|]; eapply IH; [|eassumption]; try apply upd_ext; assumption).
    + destruct H as [H1 H2]. split; [intros Hs; eapply above_ext; [exact E|auto]|]. intros F. eapply IH; [apply upd_ext; exact E|]. apply H2. rewrite E. exact F.
    + eapply IH; eassumption.
  - destruct H; split; [eapply IHp|eapply IHq]; eassumption.
  - destruct H as (A & B & C). rewrite <- E. split; [assumption|]. split; [eapply IHp|eapply IHq]; eassumption.
  - contradiction.
Qed.
Lemma lok_ext op p : forall al kq r h h', (forall x, h x = h' x) -> lok op al kq r h p -> lok op al kq r h' p.
Proof.
  induction p as [o|a k IH|p IHp q IHq|p IHp q IHq|p IHp q IHq]; simpl; intros al kq r h h' E H.
  - destruct H as [H1 H2]. split; [|exact H2]. intros l. rewrite <- E. apply H1.
  - destruct a; try contradiction.
    + destruct H as [H1 H2]. split; [destruct al; [rewrite <- E; assumption|eapply above_ext; eassumption]|]. eapply IH; [|eassumption]; apply upd_ext; assumption.
    + destruct H as [H1 H2]. split; [rewrite <- E; assumption|]. eapply IH; [|eassumption]; apply upd_ext; assumption.
    + eapply IH; eassumption.
    + destruct H; split; [assumption|]. eapply IH; eassumption.
    + destruct H as (A & B & C). split; [rewrite <- E; assumption|]. split; [assumption|]. eapply IH; eassumption.
    + destruct H as (A & B & C & D). repeat split; try assumption. eapply IH; eassumption.
    + destruct H as (A & B & C & D). repeat split; try assumption. eapply IH; eassumption.
    + destruct H as (A & B & C & D). repeat split; try assumption; [intros l; rewrite <- E; apply C|]. eapply IH; eassumption.
  - destruct H; split; [eapply IHp|eapply IHq]; eassumption.
  - contradiction.
  - destruct H as (A & B & C & D & F & G). repeat split; try assumption; [intros l; rewrite <- E; apply D|eapply IHp; eassumption|eapply IHq; eassumption].
Qed.

(** The phase of the reader thread against what the thread doing initialisation and clean-up knows. *)
Definition krok (s : sys) (r : kr) : Prop :=
  match r with
  | KNone => reader s = RNone /\ comm s = false /\ started s = false /\ aborted s = false /\ abort s = false
  | KStart => queue s = true /\ abort s = false /\
      match reader s with
      | RStart | RFail => started s = false /\ aborted s = false /\ comm s = false
      | RStarted => started s = false /\ aborted s = false /\ comm s = true
      | RIdle | RBusy _ => started s = true /\ aborted s = false /\ comm s = true
      | RDone => started s = false /\ aborted s = true /\ comm s = false
      | _ => False
      end
  | KUp => queue s = true /\ abort s = false /\ aborted s = false /\ comm s = true /\ match reader s with RIdle | RBusy _ => True | _ => False end
  | KAbort => queue s = true /\
      match reader s with
      | RIdle | RBusy _ => abort s = true /\ aborted s = false /\ comm s = true
      | RExit1 => aborted s = false /\ comm s = true
      | RExit2 => aborted s = false /\ comm s = false
      | RDone => aborted s = true /\ comm s = false
      | _ => False
      end
  | KGone => (reader s = RNone \/ reader s = RDone) /\ comm s = false
  end.

Definition thread_ok (st rd : bool) (s : sys) (t : tid) (p : prog) : Prop :=
  exists b, ok st rd (held s t) b p /\ (b = true -> held s t RequestL = true /\ queue s = true).
Definition idle (s : sys) (t : tid) : Prop := forall l, held s t l = false.
Definition life_ok (s : sys) : Prop := exists al r,
  krok s r /\ (al = true -> r = KNone /\ Forall (fun p => exists ok, p = Ret ok) (apps s)) /\
  match life s with
  | LOpening p => lok true al (queue s) r (held s TLife) p
  | LClosing p => al = false /\ lok false al (queue s) r (held s TLife) p
  | LOpen => al = false /\ queue s = true /\ r = KUp /\ idle s TLife
  | LClosed => al = false /\ queue s = false /\ (r = KNone \/ r = KGone) /\ idle s TLife
  end.
Record inv (st : bool) (s : sys) : Prop := {
  i_apps : forall i p, nth_error (apps s) i = Some p -> thread_ok st false s (TApp i) p;
  i_noapp : forall i, nth_error (apps s) i = None -> idle s (TApp i);
  i_reader : match reader s with RBusy p => thread_ok st true s TReader p | _ => idle s TReader end;
  i_life : life_ok s }.

(** ** The programs of the calls obey the lock order. *)
Definition none : lock -> bool := fun _ => false.
Lemma above_none l : above none l. Proof. intros l' H; discriminate. Qed.
Lemma above_notheld h l : above h l -> h l = false.
Proof. intros A. destruct (h l) eqn:E; [|reflexivity]. apply A in E. lia. Qed.
Definition ab (st : bool) (h : lock -> bool) (l : lock) : Prop := st = true -> above h l.
Lemma ab_none st l : ab st none l. Proof. intros _. apply above_none. Qed.

Lemma ok_pair st rd h b l k : ab st h l -> l <> RequestL -> ok st rd h b k -> ok st rd h b (pair l k).
Proof.
  intros A N K. cbn [pair ok]. split; [assumption|]. intros F. unfold upd at 1. rewrite lock_eqb_refl. split; [reflexivity|].
  assert (E : lock_eqb l RequestL = false) by (destruct l; try reflexivity; contradiction). rewrite E.
  eapply ok_ext; [|exact K]. intros x. unfold upd. destruct (lock_eqb l x) eqn:Ex; [|reflexivity]. apply lock_eqb_eq in Ex. subst. assumption.
Qed.
Lemma ok_send_at st rd h b ok' bad : ab st h RespL -> h RequestL = true ->
  ok st rd h true ok' -> ok st rd h true bad -> ok st rd h b bad -> ok st rd h b (send_at ok' bad).
Proof.
  intros A R O B1 B2. unfold send_at. cbn [ok]. split; [assumption|]. split; [|assumption].
  split; [assumption|]. apply ok_pair; [assumption|discriminate|]. cbn [ok]. repeat split; assumption.
Qed.
Lemma ok_request_raw st rd h b k1 k2 : ab st h RespL -> h RequestL = true ->
  ok st rd h true k1 -> ok st rd h true k2 -> ok st rd h b k2 -> ok st rd h b (request_raw k1 k2).
Proof.
  intros A R K1 K2 K3. unfold request_raw. cbn [ok]. split; [assumption|]. apply ok_pair; [assumption|discriminate|].
  apply ok_send_at; try assumption.
  - cbn [ok]. split; [reflexivity|]. apply ok_pair; [assumption|discriminate|]. cbn [ok]. split; assumption.
  - apply ok_pair; [assumption|discriminate|assumption].
  - apply ok_pair; [assumption|discriminate|assumption].
Qed.
Lemma ok_send_data st rd h b all short : h RequestL = true ->
  ok st rd h true all -> ok st rd h true short -> ok st rd h b all -> ok st rd h b short -> ok st rd h b (send_data all short).
Proof. intros R A S1 A2 S2. unfold send_data. cbn [ok]. repeat split; assumption. Qed.
Lemma ok_data_send_raw st rd h k : ab st h RespL -> h RequestL = true -> ok st rd h true k -> ok st rd h true (data_send_raw k).
Proof.
  intros A R K. unfold data_send_raw. cbn [ok]. split; [assumption|]. apply ok_pair; [assumption|discriminate|].
  assert (W : ok st rd h true (Do Recv (pair RespL k))) by (cbn [ok]; split; [reflexivity|]; apply ok_pair; [assumption|discriminate|assumption]).
  assert (W2 : ok st rd h true (Branch (Do Recv (pair RespL k)) (send_data (Do Recv (pair RespL k)) k))).
  { cbn [ok]. split; [exact W|]. apply ok_send_data; assumption. }
  apply ok_send_data; assumption.
Qed.
Lemma ab_up st h l l' : ab st h l -> rank l < rank l' -> ab st h l'.
Proof. intros A L Hs x Hx. specialize (A Hs x Hx). lia. Qed.
Lemma ab_upd st h l l' : ab st h l -> rank l < rank l' -> ab st (upd h l true) l'.
Proof. intros A L Hs x. unfold upd. destruct (lock_eqb l x) eqn:E; intros Hx; [apply lock_eqb_eq in E; subst; assumption|]. specialize (A Hs x Hx). lia. Qed.
Lemma ok_request st rd h b r k1 k2 : ab st h RequestL -> ok st rd h false k1 -> ok st rd h false k2 -> ok st rd h b (request r k1 k2).
Proof.
  intros A K1 K2. unfold request. cbn [ok]. split; [assumption|]. intros F.
  set (h' := upd h RequestL true).
  assert (A' : ab st h' RespL) by (apply ab_upd; [assumption|simpl; lia]).
  assert (R : h' RequestL = true) by reflexivity.
  assert (E : forall k c, ok st rd h false k -> ok st rd h' c (Do (Rel RequestL) k)).
  { intros k c K. cbn [ok]. split; [exact R|]. simpl. eapply ok_ext; [|exact K]. intros x. unfold h', upd. destruct x; simpl; try reflexivity. exact F. }
  assert (EP : forall k c, ok st rd h false k -> ok st rd h' c (pair RespL (Do (Rel RequestL) k))).
  { intros k c K. apply ok_pair; [assumption|discriminate|]. apply E; assumption. }
  destruct r.
  - apply ok_request_raw; try assumption; apply E; assumption.
  - apply ok_pair; [assumption|discriminate|]. apply ok_request_raw; try assumption; apply EP; assumption.
  - apply ok_pair; [assumption|discriminate|]. apply ok_request_raw; try assumption; try (apply EP; assumption).
    apply ok_pair; [assumption|discriminate|]. cbn [ok]. apply ok_data_send_raw; try assumption. apply E. cbn [ok]. split; assumption.
Qed.
Lemma ok_requests st rd h rs : forall k, ab st h RequestL -> ok st rd h false k -> ok st rd h false (requests rs k).
Proof.
  induction rs as [|r rs IH]; intros k A K; [exact K|]. cbn [requests ok]. split; [assumption|]. apply ok_request; auto.
Qed.
Lemma ok_check st rd h b k1 k2 : ab st h StatusL -> ok st rd h b k1 -> ok st rd h b k2 -> ok st rd h b (check_status k1 k2).
Proof. intros A K1 K2. unfold check_status. apply ok_pair; [assumption|discriminate|]. cbn [ok]. split; [assumption|]. apply ok_pair; [assumption|discriminate|]. cbn [ok]. split; assumption. Qed.
Lemma ok_call st rd h c k : ab st h StatusL -> (uses_data c = true -> ab st h DataL) -> ok st rd h false k -> ok st rd h false (call_prog c k).
Proof.
  intros A D K. assert (Rq : ab st h RequestL) by (eapply ab_up; [exact A|simpl; lia]). assert (Rs : ab st h RespL) by (eapply ab_up; [exact A|simpl; lia]).
  destruct c; unfold call_prog.
  - apply ok_check; [assumption| |assumption]. apply ok_requests; assumption.
  - apply ok_check; [assumption| |assumption]. specialize (D eq_refl).
    unfold service_status. cbn [ok]. split; [assumption|].
    assert (C : ok st rd h false (request RPlain k k)) by (apply ok_request; assumption).
    assert (St : ok st rd h false (pair DataL (request RPlain k k))) by (apply ok_pair; [assumption|discriminate|assumption]).
    assert (Ep : ok st rd h false (pair DataL (Branch (Branch (pair DataL (request RPlain k k)) (request RPlain k k)) (request RPlain (pair DataL (request RPlain k k)) (request RPlain k k))))).
    { apply ok_pair; [assumption|discriminate|]. cbn [ok]. split; [split; assumption|]. apply ok_request; assumption. }
    apply ok_request; [assumption| |assumption]. apply ok_request; assumption.
  - apply ok_check; [assumption| |assumption]. cbn [ok]. split; [assumption|]. apply ok_pair; [apply D; reflexivity|discriminate|assumption].
  - apply ok_check; [assumption| |assumption]. apply ok_pair; [assumption|discriminate|assumption].
  - apply ok_pair; [assumption|discriminate|assumption].
Qed.
Lemma ok_calls st rd h cs k : (cs = [] \/ ab st h StatusL) -> (forall c, In c cs -> uses_data c = true -> ab st h DataL) -> ok st rd h false k -> ok st rd h false (calls cs k).
Proof.
  induction cs as [|c cs IH]; intros A D K; [exact K|]. destruct A as [A|A]; [discriminate|]. simpl. apply ok_call; [assumption|apply D; left; reflexivity|].
  apply IH; [right; assumption| |assumption]. intros c' I. apply D. right; assumption.
Qed.

Lemma ok_event st e : (st = true -> callbacks_ok e) -> ok st true none false (event_prog e).
Proof.
  unfold event_prog. induction e as [|p e IH]; intros F; [simpl; reflexivity|].
  change (ok st true none false (piece_prog p (event_prog e))). fold (event_prog e) in IH.
  assert (P : st = true -> piece_ok p) by (intros Hs; specialize (F Hs); inversion F; assumption).
  assert (IH' : ok st true none false (event_prog e)) by (apply IH; intros Hs; specialize (F Hs); inversion F; assumption).
  clear IH F. destruct p; cbn [piece_prog]; cbn [piece_ok] in P.
  - apply ok_pair; [apply ab_none|discriminate|assumption].
  - cbn [ok]. split; [intros _; apply above_none|]. intros _. apply ok_calls.
    + destruct st; [left; apply P; reflexivity|right; intros X; discriminate].
    + intros c I _ Hs. rewrite (P Hs) in I. contradiction.
    + cbn [ok]. split; [reflexivity|]. simpl. eapply ok_ext; [|exact IH']. intros x; destruct x; reflexivity.
  - cbn [ok]. split; [intros _; apply above_none|]. intros _. apply ok_calls.
    + right. intros _ l. destruct l; simpl; intros E; try discriminate; lia.
    + intros c I U Hs. specialize (P Hs). rewrite Forall_forall in P. rewrite (P c I) in U. discriminate.
    + cbn [ok]. split; [reflexivity|]. simpl. eapply ok_ext; [|exact IH']. intros x; destruct x; reflexivity.
  - cbn [ok]. apply ok_calls; [right; apply ab_none|intros; apply ab_none|assumption].
  - cbn [ok]. split; [reflexivity|assumption].
Qed.

Lemma lok_open : lok true true false KNone none open_prog.
Proof.
  unfold open_prog, pair. cbn. repeat split; auto; try (intros l; destruct l; reflexivity); try (intros l; destruct l; cbn; intros; (reflexivity || discriminate)).
  - intros l; destruct l; simpl; intros; (lia || discriminate).
Qed.
Lemma lok_close : lok false false true KUp none close_prog.
Proof. unfold close_prog, pair. cbn. repeat split; auto; try (intros l; destruct l; simpl; intros; (lia || discriminate || reflexivity)). Qed.

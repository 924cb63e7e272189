(** Invariants of the request system that hold in every run. *)
From Coq Require Import List NArith ZArith Bool Arith Lia.
From Verif Require Import Bytes AtCore Status SpecAt Pktio SpecPktio SpecStream Request SpecRequest.
Import ListNotations.

Lemma nth_set_eq {A} (l : list A) i x y : nth_error l i = Some y -> nth_error (set_nth l i x) i = Some x.
Proof. revert i; induction l as [|a l IH]; intros [|i] E; try discriminate; cbn in *; [reflexivity|apply IH; exact E]. Qed.
Lemma nth_set_neq {A} (l : list A) i j x : i <> j -> nth_error (set_nth l i x) j = nth_error l j.
Proof. revert i j; induction l as [|a l IH]; intros [|i] [|j] H; try reflexivity; [contradiction|]. cbn. apply IH. congruence. Qed.
Lemma set_nth_len {A} (l : list A) i x : length (set_nth l i x) = length l.
Proof. revert i; induction l as [|a l IH]; intros [|i]; cbn; auto. Qed.

Definition holding (p : tpc) : bool := match p with Idle | Called _ => false | _ => true end.

Definition hooks (s : state) : option (list str) * option nat * option nat := (extra s, dcb s, scb s).
Definition no_hooks : option (list str) * option nat * option nat := (None, None, None).
Definition hooks_of (k : kind) : option (list str) * option nat * option nat := (hook_extra k, hook_dcb k, hook_scb k).
Definition cb_of (c : call) : option nat := if rq_cb (c_req c) then Some (c_id c) else None.
Definition stale (s : state) : Prop := exists c o, In (Returned c PKT_SEND_ERROR o) (log s).
Definition quiet_type (s : state) : Prop := typ s = T_NO_COMMAND \/ typ s = T_NO_RESULT /\ stale s.

(** What the holder of the request mutex can rely on. *)
Definition local (p : tpc) (s : state) : Prop :=
  match p with
  | Idle | Called _ => False
  | Hook c => hooks s = no_hooks /\ cb s = None /\ quiet_type s
  | Setup c => hooks s = hooks_of (rq_kind (c_req c)) /\ cb s = None /\ quiet_type s
  | SendA c => hooks s = hooks_of (rq_kind (c_req c)) /\ cb s = cb_of c /\ quiet_type s
  | SendB c | Wait c => hooks s = hooks_of (rq_kind (c_req c)) /\ cb s = cb_of c /\ (typ s = rq_type (c_req c) \/ typ s = T_NO_COMMAND)
  | Reset c st o => hooks s = hooks_of (rq_kind (c_req c)) /\ cb s = cb_of c
  | Unhook c st o => hooks s = hooks_of (rq_kind (c_req c)) /\ cb s = None /\ (typ s = T_NO_COMMAND \/ st = PKT_BAD_REQUEST /\ quiet_type s)
  | Data1 c => hooks s = no_hooks /\ cb s = None /\ typ s = T_NO_COMMAND
  | Data2 c | DataWait c | DataReset c _ _ => hooks s = no_hooks /\ cb s = None /\ (typ s = T_NO_RESULT \/ typ s = T_NO_COMMAND)
  | Release c st o => hooks s = no_hooks /\ cb s = None /\
      (typ s = T_NO_COMMAND \/ typ s = T_NO_RESULT /\ st = PKT_SEND_ERROR \/ st = PKT_BAD_REQUEST /\ quiet_type s)
  end.
Definition free (s : state) : Prop := hooks s = no_hooks /\ cb s = None /\ quiet_type s.

Record Inv (s : state) : Prop := {
  inv_excl : forall i p, nth_error (ths s) i = Some p -> holding p = true -> mtx s = Some i;
  inv_held : forall i, mtx s = Some i -> exists p, nth_error (ths s) i = Some p /\ holding p = true /\ local p s;
  inv_free : mtx s = None -> free s }.

Lemma quiet_mono s s' : typ s' = typ s -> log s' = log s -> quiet_type s -> quiet_type s'.
Proof. intros T L [Q|[Q (id & o & I)]]; [left; congruence|right; split; [congruence|exists id, o; rewrite L; exact I]]. Qed.

(** Thread [i], holding the mutex, moves on. *)
Lemma inv_move s s' i p p' : Inv s -> nth_error (ths s) i = Some p -> holding p = true ->
  ths s' = set_nth (ths s) i p' -> mtx s' = mtx s -> holding p' = true -> local p' s' -> Inv s'.
Proof.
  intros V E HP T M HP' L. destruct V as [X H F]. assert (MI := X _ _ E HP). split.
  - intros j q EJ HJ. rewrite T in EJ. destruct (Nat.eq_dec i j) as [->|N]; [congruence|]. rewrite nth_set_neq in EJ by exact N. rewrite M. eauto.
  - intros j MJ. rewrite M, MI in MJ. injection MJ as <-. exists p'. split; [rewrite T; eapply nth_set_eq; exact E|]. auto.
  - intro MN. congruence.
Qed.
(** Threads and mutex unchanged. *)
Lemma inv_same s s' : Inv s -> ths s' = ths s -> mtx s' = mtx s -> (forall p, local p s -> local p s') -> (free s -> free s') -> Inv s'.
Proof.
  intros [X H F] T M L FR. split.
  - intros i p E HP. rewrite T in E. rewrite M. eauto.
  - intros i MI. rewrite M in MI. destruct (H i MI) as (p & E & HP & LP). exists p. rewrite T. auto.
  - intro MN. rewrite M in MN. auto.
Qed.
Lemma inv_held_at s i p : Inv s -> nth_error (ths s) i = Some p -> holding p = true -> mtx s = Some i /\ local p s.
Proof.
  intros V E HP. assert (M := inv_excl s V i p E HP). split; [exact M|]. destruct (inv_held s V i M) as (q & EQ & _ & L). congruence.
Qed.

(** Reader and modem actions: only [typ] may become NO_COMMAND. *)
Lemma local_reader s s' : hooks s' = hooks s -> cb s' = cb s -> (typ s' = typ s \/ typ s' = T_NO_COMMAND) -> (forall e, In e (log s) -> In e (log s')) ->
  forall p, local p s -> local p s'.
Proof.
  intros H C T LG p L. assert (Q : quiet_type s -> quiet_type s').
  { intros [Q|[Q (id & o & I)]]; [left; destruct T; congruence|]. destruct T as [T|T]; [right|left; exact T]. split; [congruence|exists id, o; auto]. }
  destruct p; cbn [local] in *; rewrite ?H, ?C.
  all: try exact L.
  all: try (destruct L as (L1 & L2 & L3); split; [exact L1|]; split; [exact L2|]; auto).
  all: try (destruct T as [->|T]; [exact L3|auto]).
  all: destruct T as [T|T]; [|left; exact T].
  all: rewrite T; destruct L3 as [L3|L3]; [left; exact L3|right].
  all: try (destruct L3 as [L3|L3]; [left; exact L3|right]).
  all: destruct L3; split; auto.
Qed.
Lemma free_reader s s' : hooks s' = hooks s -> cb s' = cb s -> (typ s' = typ s \/ typ s' = T_NO_COMMAND) -> (forall e, In e (log s) -> In e (log s')) ->
  free s -> free s'.
Proof.
  intros H C T LG (L1 & L2 & L3). split; [congruence|]. split; [congruence|].
  destruct L3 as [Q|[Q (id & o & I)]]; [left; destruct T; congruence|]. destruct T as [T|T]; [right|left; exact T]. split; [congruence|exists id, o; auto].
Qed.

Section Inv.
Variable tt : token_table.

Lemma reader_frame s s' : reader_step tt s = Some s' ->
  ths s' = ths s /\ mtx s' = mtx s /\ hooks s' = hooks s /\ cb s' = cb s /\ (typ s' = typ s \/ typ s' = T_NO_COMMAND) /\ (forall e, In e (log s) -> In e (log s')).
Proof.
  unfold reader_step, reader_process. intro E.
  assert (R : forall x, Some x = Some s' -> x = s') by congruence.
  destruct (rd s) as [|l|l u|l mt|l t|l|ok ls l|ok ls l|ls l|id ls l|st l ok c|] eqn:RD; try discriminate.
  all: repeat match goal with
       | H : match ?x with _ => _ end = Some _ |- _ => destruct x eqn:?; try discriminate
       end.
  all: apply R in E; subst s'; cbn; auto 10.
Qed.

Lemma thread_inv s i s' : Inv s -> thread_step i s = Some s' -> Inv s'.
Proof.
  intros V E. unfold thread_step in E. destruct (nth_error (ths s) i) as [p|] eqn:EP; [|discriminate].
  destruct p as [|c|c|c|c|c|c|c st o|c st o|c|c|c|c st o|c st o]; try discriminate.
  - (* Called *)
    destruct (mtx s) eqn:M; [discriminate|]. injection E as <-. destruct (inv_free s V M) as (F1 & F2 & F3). split.
    + intros j q EJ HJ. cbn in EJ |- *. destruct (Nat.eq_dec i j) as [->|N]; [reflexivity|]. rewrite nth_set_neq in EJ by exact N.
      pose proof (inv_excl s V j q EJ HJ). congruence.
    + intros j MJ. cbn in MJ. injection MJ as <-. exists (Hook c). split; [cbn; eapply nth_set_eq; exact EP|]. split; [reflexivity|]. cbn. auto.
    + intro MN. discriminate.
  - (* Hook *)
    injection E as <-. destruct (inv_held_at s i _ V EP eq_refl) as (M & L). cbn [local] in L. destruct L as (L1 & L2 & L3). unfold hooks, no_hooks in L1. injection L1 as L1a L1b L1c.
    eapply (inv_move s _ i _ (Setup c) V EP eq_refl); [destruct (rq_kind (c_req c)); reflexivity|destruct (rq_kind (c_req c)); reflexivity|reflexivity|].
    cbn [local]. split; [unfold hooks, hooks_of; destruct (rq_kind (c_req c)); cbn; congruence|].
    split; [destruct (rq_kind (c_req c)); exact L2|]. eapply quiet_mono; [| |exact L3]; destruct (rq_kind (c_req c)); reflexivity.
  - (* Setup *)
    destruct (inv_held_at s i _ V EP eq_refl) as (M & L1 & L2 & L3). destruct (rq_cmd (c_req c)) eqn:RC; injection E as <-.
    + eapply (inv_move s _ i _ (SendA c) V EP eq_refl); [reflexivity|reflexivity|reflexivity|]. cbn [local]. split; [exact L1|]. split; [reflexivity|]. eapply quiet_mono; [| |exact L3]; reflexivity.
    + eapply (inv_move s _ i _ _ V EP eq_refl); [reflexivity|reflexivity|reflexivity|]. cbn [local]. split; [exact L1|]. split; [exact L2|]. right. split; [reflexivity|].
      eapply quiet_mono; [| |exact L3]; reflexivity.
  - (* SendA *)
    destruct (inv_held_at s i _ V EP eq_refl) as (M & L1 & L2 & L3). destruct (rq_cmd (c_req c)) eqn:RC; [|discriminate].
    destruct (send_check _ _ _) as [st|e] eqn:SC; injection E as <-.
    + eapply (inv_move s _ i _ _ V EP eq_refl); [reflexivity|reflexivity|reflexivity|]. cbn [local]. split; [exact L1|exact L2].
    + eapply (inv_move s _ i _ (SendB c) V EP eq_refl); [destruct e; reflexivity|destruct e; reflexivity|reflexivity|]. cbn [local].
      split; [destruct e; exact L1|]. split; [destruct e; exact L2|]. left. destruct e; reflexivity.
  - (* SendB *)
    injection E as <-. destruct (inv_held_at s i _ V EP eq_refl) as (M & L1 & L2 & L3).
    eapply (inv_move s _ i _ (Wait c) V EP eq_refl); [reflexivity|reflexivity|reflexivity|]. cbn [local]. split; [exact L1|]. split; [exact L2|exact L3].
  - (* Wait *)
    destruct (queue s) as [q|] eqn:Q; [|discriminate]. injection E as <-. destruct (inv_held_at s i _ V EP eq_refl) as (M & L1 & L2 & L3).
    eapply (inv_move s _ i _ _ V EP eq_refl); [reflexivity|reflexivity|reflexivity|]. cbn [local]. split; [exact L1|exact L2].
  - (* Reset *)
    injection E as <-. destruct (inv_held_at s i _ V EP eq_refl) as (M & L1 & L2).
    eapply (inv_move s _ i _ _ V EP eq_refl); [reflexivity|reflexivity|reflexivity|]. cbn [local]. split; [exact L1|]. split; [reflexivity|]. left. reflexivity.
  - (* Unhook *)
    injection E as <-. destruct (inv_held_at s i _ V EP eq_refl) as (M & L1 & L2 & L3). unfold hooks, hooks_of in L1. injection L1 as L1a L1b L1c.
    eapply (inv_move s _ i _ (after_command c st o) V EP eq_refl).
    + destruct (rq_kind (c_req c)); reflexivity.
    + destruct (rq_kind (c_req c)); reflexivity.
    + unfold after_command. destruct (data_of _), st; reflexivity.
    + match goal with |- local _ ?s' => set (s1 := s') end.
      assert (H1 : hooks s1 = no_hooks) by (unfold s1, hooks, no_hooks; destruct (rq_kind (c_req c)); cbn in *; congruence).
      assert (H2 : cb s1 = None) by (unfold s1; destruct (rq_kind (c_req c)); exact L2).
      assert (H3 : typ s1 = typ s) by (unfold s1; destruct (rq_kind (c_req c)); reflexivity).
      assert (H4 : log s1 = log s) by (unfold s1; destruct (rq_kind (c_req c)); reflexivity).
      assert (REL : local (Release c st o) s1).
      { cbn [local]. split; [exact H1|]. split; [exact H2|]. destruct L3 as [L3|[L3 Q]]; [left; congruence|right; right; split; [exact L3|eapply quiet_mono; eassumption]]. }
      unfold after_command. destruct (data_of (rq_kind (c_req c))); [|exact REL]. destruct st; try exact REL.
      cbn [local]. split; [exact H1|]. split; [exact H2|]. destruct L3 as [L3|[L3 _]]; congruence.
  - (* Data1 *)
    destruct (inv_held_at s i _ V EP eq_refl) as (M & L1 & L2 & L3). destruct (data_of _) as [d|]; [|discriminate]. destruct (d_data d); injection E as <-.
    + eapply (inv_move s _ i _ _ V EP eq_refl); [reflexivity|reflexivity|reflexivity|]. cbn [local]. split; [exact L1|]. split; [exact L2|]. left. reflexivity.
    + eapply (inv_move s _ i _ _ V EP eq_refl); [reflexivity|reflexivity|reflexivity|]. cbn [local]. split; [exact L1|]. split; [exact L2|]. left. exact L3.
  - (* Data2 *)
    injection E as <-. destruct (inv_held_at s i _ V EP eq_refl) as (M & L1 & L2 & L3).
    eapply (inv_move s _ i _ _ V EP eq_refl); [reflexivity|reflexivity|reflexivity|]. cbn [local]. auto.
  - (* DataWait *)
    destruct (queue s) as [q|] eqn:Q; [|discriminate]. injection E as <-. destruct (inv_held_at s i _ V EP eq_refl) as (M & L1 & L2 & L3).
    eapply (inv_move s _ i _ _ V EP eq_refl); [reflexivity|reflexivity|reflexivity|]. cbn [local]. auto.
  - (* DataReset *)
    injection E as <-. destruct (inv_held_at s i _ V EP eq_refl) as (M & L1 & L2 & L3).
    eapply (inv_move s _ i _ _ V EP eq_refl); [reflexivity|reflexivity|reflexivity|]. cbn [local]. split; [exact L1|]. split; [exact L2|]. left. reflexivity.
  - (* Release *)
    injection E as <-. destruct (inv_held_at s i _ V EP eq_refl) as (M & L1 & L2 & L3). split.
    + intros j q EJ HJ. cbn in EJ. destruct (Nat.eq_dec i j) as [->|N].
      * rewrite (nth_set_eq _ _ _ _ EP) in EJ. injection EJ as <-. discriminate.
      * rewrite nth_set_neq in EJ by exact N. pose proof (inv_excl s V j q EJ HJ). congruence.
    + intros j MJ. discriminate.
    + intros _. split; [exact L1|]. split; [exact L2|]. unfold quiet_type, stale. cbn. destruct L3 as [L3|[[L3 ->]|[_ [L3|[L3 (id & o' & I)]]]]].
      * left. exact L3.
      * right. split; [exact L3|]. exists c, o. left. reflexivity.
      * left. exact L3.
      * right. split; [exact L3|]. exists id, o'. right. exact I.
Qed.

Lemma exec_inv lb s s' : Inv s -> exec tt lb s = Some s' -> Inv s'.
Proof.
  intros V E. destruct lb as [i r|i|i|i|i| |st|a k|l|g]; cbn [exec] in E.
  - destruct (nth_error (ths s) i) as [[]|] eqn:EP; try discriminate.
    assert (X : forall c, Inv (goto i (Called c) (set_next (S (next s)) s))).
    { intro c. split.
      - intros j q EJ HJ. cbn in EJ |- *. destruct (Nat.eq_dec i j) as [->|N]; [rewrite (nth_set_eq _ _ _ _ EP) in EJ; injection EJ as <-; discriminate|].
        rewrite nth_set_neq in EJ by exact N. exact (inv_excl s V j q EJ HJ).
      - intros j MJ. cbn in MJ. destruct (inv_held s V j MJ) as (q & EQ & HQ & L). exists q. split; [|split; [exact HQ|]].
        + cbn. rewrite nth_set_neq; [exact EQ|]. intros ->. rewrite EP in EQ. injection EQ as <-. discriminate.
        + revert L. apply local_reader; try reflexivity; [left; reflexivity|auto].
      - intro MN. cbn in MN. pose proof (inv_free s V MN) as F. revert F. apply free_reader; try reflexivity; [left; reflexivity|auto]. }
    destruct (rq_kind r) as [|[t|]| | |]; injection E as <-; try apply X.
    apply (inv_same s); [exact V|reflexivity|reflexivity| |].
    + apply local_reader; [reflexivity|reflexivity|left; reflexivity|cbn; auto].
    + apply free_reader; [reflexivity|reflexivity|left; reflexivity|cbn; auto].
  - exact (thread_inv s i s' V E).
  - destruct (nth_error (ths s) i) as [[]|] eqn:EP; try discriminate; injection E as <-.
    + destruct (inv_held_at s i _ V EP eq_refl) as (M & L1 & L2 & L3).
      eapply (inv_move s _ i _ _ V EP eq_refl); [reflexivity|reflexivity|reflexivity|]. cbn [local]. auto.
    + destruct (inv_held_at s i _ V EP eq_refl) as (M & L1 & L2 & L3).
      eapply (inv_move s _ i _ _ V EP eq_refl); [reflexivity|reflexivity|reflexivity|]. cbn [local]. auto.
  - destruct (nth_error (ths s) i) as [[]|] eqn:EP; try discriminate; injection E as <-.
    destruct (inv_held_at s i _ V EP eq_refl) as (M & L1 & L2 & L3).
    eapply (inv_move s _ i _ _ V EP eq_refl); [reflexivity|reflexivity|reflexivity|]. cbn [local]. auto.
  - destruct (nth_error (ths s) i) as [[]|] eqn:EP; try discriminate; injection E as <-.
    destruct (inv_held_at s i _ V EP eq_refl) as (M & L1 & L2 & L3).
    eapply (inv_move s _ i _ _ V EP eq_refl); [reflexivity|reflexivity|reflexivity|]. cbn [local]. split; [exact L1|]. split; [exact L2|]. destruct L3; auto.
  - destruct (reader_frame s s' E) as (T & M & H & C & TY & LG). apply (inv_same s); auto; [apply local_reader|apply free_reader]; auto.
  - destruct (rd s); try discriminate. injection E as <-.
    apply (inv_same s); [exact V|reflexivity|reflexivity| |]; [apply local_reader|apply free_reader]; try reflexivity; cbn; auto.
  - destruct (rd s); try discriminate. destruct a; injection E as <-;
      (apply (inv_same s); [exact V|reflexivity|reflexivity| |]; [apply local_reader|apply free_reader]; try reflexivity; cbn; auto).
  - injection E as <-. apply (inv_same s); [exact V|reflexivity|reflexivity| |]; [apply local_reader|apply free_reader]; try reflexivity; cbn; auto.
  - injection E as <-. apply (inv_same s); [exact V|reflexivity|reflexivity| |]; [apply local_reader|apply free_reader]; try reflexivity; cbn; auto.
Qed.

Lemma nth_repeat {A} (x : A) n i y : nth_error (repeat x n) i = Some y -> y = x.
Proof. revert i; induction n as [|n IH]; intros [|i] E; try discriminate; cbn in E; [congruence|eauto]. Qed.
Lemma init_inv n : Inv (init n).
Proof.
  split.
  - intros i p E HP. apply nth_repeat in E. subst p. discriminate.
  - discriminate.
  - intros _. repeat split. left. reflexivity.
Qed.
Lemma run_inv ok n lbs s : run tt ok (init n) lbs s -> Inv s.
Proof.
  intro R. remember (init n) as s0 eqn:E0. induction R as [|s1 lbs s2 lb s3 R IH OK E]; [subst; apply init_inv|]. apply (exec_inv lb s2 s3); auto.
Qed.
End Inv.

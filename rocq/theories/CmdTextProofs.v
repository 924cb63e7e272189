(** Proofs about CmdText.v. *)
From Coq Require Import List Arith Bool Lia.
From Verif Require Import CmdText.
Import ListNotations.

Lemma set_nth_length l i x : length (set_nth l i x) = length l.
Proof. revert i. induction l as [|y l IH]; intros [|i]; cbn; auto. Qed.
Lemma set_nth_same l i x : i < length l -> nth_error (set_nth l i x) i = Some x.
Proof. revert i. induction l as [|y l IH]; intros [|i] H; cbn in *; try lia; auto. apply IH. lia. Qed.
Lemma set_nth_other l i j x : i <> j -> nth_error (set_nth l i x) j = nth_error l j.
Proof. revert i j. induction l as [|y l IH]; intros [|i] [|j] H; cbn; auto; try lia. Qed.
Lemma set_nth_get l i j x p : nth_error (set_nth l i x) j = Some p -> j = i /\ p = x \/ j <> i /\ nth_error l j = Some p.
Proof.
  intro H. destruct (Nat.eq_dec i j) as [->|Ne].
  - assert (L : j < length l) by (rewrite <- (set_nth_length l j x); apply nth_error_Some; congruence).
    rewrite set_nth_same in H by exact L. injection H as <-. auto.
  - rewrite set_nth_other in H by exact Ne. right. split; [lia|exact H].
Qed.
Lemma alive_at s i p id : nth_error (apps s) i = Some p -> in_call id p = true -> alive s id = true.
Proof. intros H E. apply existsb_exists. exists p. split; [exact (nth_error_In _ _ H)|exact E]. Qed.

Definition in_request (p : apc) : bool := match p with Begin _ | Within _ | Leaving _ => true | _ => false end.
Definition has_lock (d : dpc) : bool := match d with Test b | Load b | Print b _ => b | Unlock => true | Away => false end.

Record Inv (s : state) : Prop := {
  i_req : forall i p, nth_error (apps s) i = Some p -> in_request p = true -> reqL s = Some i;
  i_cmd : forall id, cmd s = Some id -> exists i, nth_error (apps s) i = Some (Within id);
  i_resp : respL s = has_lock (rdr s);
  i_load : rdr s = Load true -> cmd s <> None;
  i_print : forall v, rdr s = Print true v -> v = cmd s /\ cmd s <> None;
  i_log : forall p, In p (prints s) -> pr_locked p = true -> pr_ptr p <> None /\ pr_alive p = true }.

Lemma text_inv_init n : Inv (init n).
Proof.
  split; cbn; try discriminate; try reflexivity; try tauto.
  intros i p H. apply nth_error_In, repeat_spec in H. subst. discriminate.
Qed.

Lemma cmd_keep s i p q : Inv s -> nth_error (apps s) i = Some p -> (forall id, p <> Within id) ->
  forall id, cmd s = Some id -> exists j, nth_error (set_nth (apps s) i q) j = Some (Within id).
Proof.
  intros I H N id C. destruct (i_cmd s I id C) as [j J]. exists j. rewrite set_nth_other; [exact J|].
  intros ->. rewrite J in H. injection H as <-. exact (N id eq_refl).
Qed.

Lemma text_inv_step l s s' : Inv s -> step l s = Some s' -> Inv s'.
Proof.
  intros I E. pose proof I as [Rq Cm Rs Ld Pr Lg]. destruct l as [i|i|b|]; cbn [step] in E.
  - destruct (nth_error (apps s) i) as [p|] eqn:H; [|discriminate]. destruct p; try discriminate. injection E as <-. split; cbn; auto.
    + intros j p Hj Q. apply set_nth_get in Hj. destruct Hj as [[-> ->] | [Ne Hj]]; [discriminate|eauto].
    + eapply cmd_keep; eauto. discriminate.
  - destruct (nth_error (apps s) i) as [p|] eqn:H; [|discriminate]. destruct p as [|id|id|id|id]; try discriminate.
    + destruct (reqL s) eqn:Q; [discriminate|]. injection E as <-. split; cbn; auto.
      * intros j p Hj X. apply set_nth_get in Hj. destruct Hj as [[-> ->] | [Ne Hj]]; [reflexivity|]. specialize (Rq _ _ Hj X). congruence.
      * eapply cmd_keep; eauto. discriminate.
    + destruct (respL s) eqn:L; [discriminate|]. injection E as <-. split; cbn; auto.
      * intros j p Hj X. apply set_nth_get in Hj. destruct Hj as [[-> ->] | [Ne Hj]]; eauto.
      * intros k Hk. injection Hk as <-. exists i. apply set_nth_same. apply nth_error_Some. congruence.
      * congruence.
      * intros _. discriminate.
      * intros v V. rewrite V in Rs. discriminate.
    + destruct (respL s) eqn:L; [discriminate|]. injection E as <-. split; cbn; auto.
      * intros j p Hj X. apply set_nth_get in Hj. destruct Hj as [[-> ->] | [Ne Hj]]; eauto.
      * discriminate.
      * congruence.
      * intro X. rewrite X in Rs. discriminate.
      * intros v V. rewrite V in Rs. discriminate.
    + injection E as <-. split; cbn; auto.
      * intros j p Hj X. apply set_nth_get in Hj. destruct Hj as [[-> ->] | [Ne Hj]]; [discriminate|].
        specialize (Rq _ _ Hj X) as A. specialize (Rq _ _ H eq_refl) as B. congruence.
      * eapply cmd_keep; eauto. discriminate.
  - destruct (rdr s) eqn:D; try discriminate. destruct b.
    + destruct (respL s) eqn:L; [discriminate|]. injection E as <-. split; cbn; auto; discriminate.
    + injection E as <-. split; cbn; auto; try discriminate.
  - destruct (rdr s) as [|b|b|b v|] eqn:D; try discriminate.
    + destruct (cmd s) eqn:C; injection E as <-; split; cbn; auto; try (rewrite C; discriminate); try discriminate; try congruence;
        try (intros id X; apply Cm; congruence); destruct b; cbn in *; try discriminate; auto; congruence.
    + injection E as <-. split; cbn; auto; try discriminate. intros v V. injection V as -> <-. auto.
    + injection E as <-. split; cbn; auto; try discriminate.
      * destruct b; auto.
      * destruct b; discriminate.
      * destruct b; discriminate.
      * intros p [<- | Hp] Lk; [|auto]. cbn in *. rewrite Lk in *. destruct (Pr v eq_refl) as [-> Nn]. split; [exact Nn|].
        destruct (cmd s) as [id|] eqn:C; [|congruence]. destruct (Cm id eq_refl) as [i Hi].
        eapply alive_at; [exact Hi|]. apply Nat.eqb_refl.
    + injection E as <-. split; cbn; auto; discriminate.
Qed.
Lemma text_inv_reach n s : reach n s -> Inv s.
Proof. induction 1 as [|s l s' R IH E]; [apply text_inv_init|eapply text_inv_step; eassumption]. Qed.

(** A diagnostic during which no request starts or ends. *)
Definition quiet (l : label) : Prop := match l with LApp _ => False | _ => True end.
Definition fine (p : print) : Prop := pr_ptr p <> None /\ pr_alive p = true.
Record Quiet (c0 : option nat) (id0 : nat) (s : state) : Prop := {
  q_cmd : cmd s = c0;
  q_live : c0 = Some id0 -> alive s id0 = true;
  q_load : forall b, rdr s = Load b -> c0 <> None;
  q_print : forall b v, rdr s = Print b v -> v = c0 /\ c0 <> None }.

Lemma alive_call s i id n : nth_error (apps s) i = Some Out -> alive s id = true ->
  existsb (in_call id) (set_nth (apps s) i (Entering n)) = true.
Proof.
  intros H A. apply existsb_exists in A. destruct A as (p & Hp & X). apply In_nth_error in Hp. destruct Hp as [j Hj].
  apply existsb_exists. exists p. split; [|exact X]. apply (nth_error_In _ j). rewrite set_nth_other; [exact Hj|].
  intros ->. rewrite Hj in H. injection H as ->. discriminate.
Qed.
Lemma quiet_step c0 id0 l s s' : quiet l -> (c0 <> None -> c0 = Some id0) -> Quiet c0 id0 s -> step l s = Some s' ->
  Quiet c0 id0 s' /\ exists new, prints s' = new ++ prints s /\ Forall fine new.
Proof.
  intros Ql C0 [Cm Lv Ld Pr] E. destruct l as [i|i|b|]; cbn [step quiet] in *; [|contradiction| |].
  - destruct (nth_error (apps s) i) as [p|] eqn:H; [|discriminate]. destruct p; try discriminate. injection E as <-.
    split; [|exists []; auto]. split; cbn; auto. intro X. unfold alive. cbn. apply alive_call; auto.
  - destruct (rdr s) eqn:D; try discriminate. destruct b; [destruct (respL s); [discriminate|]|]; injection E as <-;
      (split; [|exists []; auto]; split; cbn; auto; discriminate).
  - destruct (rdr s) as [|b|b|b v|] eqn:D; try discriminate.
    + destruct (cmd s) eqn:C; injection E as <-; (split; [|exists []; auto]; split; cbn; auto; try congruence; try (destruct b; discriminate); try discriminate).
    + injection E as <-. split; [|exists []; auto]. split; cbn; auto; try discriminate. intros b' v V. injection V as _ <-.
      split; [exact Cm|]. apply (Ld b eq_refl).
    + destruct (Pr b v eq_refl) as [-> Nn]. injection E as <-. split.
      * split; cbn; auto; destruct b; discriminate.
      * eexists [_]. split; [reflexivity|]. constructor; [|constructor]. unfold fine. cbn. split; [exact Nn|].
        rewrite (C0 Nn). apply Lv, C0, Nn.
    + injection E as <-. split; [|exists []; auto]. split; cbn; auto; discriminate.
Qed.
Lemma quiet_run c0 id0 ls : Forall quiet ls -> (c0 <> None -> c0 = Some id0) -> forall s s', Quiet c0 id0 s -> run ls s = Some s' ->
  exists new, prints s' = new ++ prints s /\ Forall fine new.
Proof.
  intros F C0. induction F as [|l ls Q F IH]; intros s s' I E; cbn [run] in E.
  - injection E as <-. exists []. auto.
  - destruct (step l s) as [s1|] eqn:E1; [|discriminate]. destruct (quiet_step _ _ _ _ _ Q C0 I E1) as (I1 & n1 & P1 & F1).
    destruct (IH _ _ I1 E) as (n2 & P2 & F2). exists (n2 ++ n1). rewrite P2, P1, app_assoc. split; [reflexivity|]. apply Forall_app. auto.
Qed.
Lemma quiet_diagnostic n s b ls s' : reach n s -> rdr s = Away -> Forall quiet ls -> run (LDiag b :: ls) s = Some s' ->
  exists new, prints s' = new ++ prints s /\ Forall fine new.
Proof.
  intros R D F E. pose proof (text_inv_reach n s R) as I.
  apply (quiet_run (cmd s) (match cmd s with Some i => i | None => 0 end) (LDiag b :: ls)) with (s := s); auto.
  - constructor; [exact Logic.I|exact F].
  - destruct (cmd s); congruence.
  - split; auto; try congruence. intro X. destruct (cmd s) as [id|] eqn:C; [|discriminate].
    destruct (i_cmd s I id C) as [i Hi]. eapply alive_at; [exact Hi|]. apply Nat.eqb_refl.
Qed.

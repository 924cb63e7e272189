(** The invariant of the start/stop system. *)
From Coq Require Import List NArith Bool Arith Lia.
From Verif Require Import Bytes AtCore Status Pktio PktHandler Lifecycle SpecLifecycle.
Import ListNotations.

Definition b2n (b : bool) : nat := if b then 1 else 0.

Definition mutex_alive (m : mpc) (sl : bool) (k : nat) : bool :=
  match m with
  | MMutex _ j | MFail j _ => (k <? j)%nat
  | MC7 j _ => (j <=? k)%nat && (k <? 4)%nat
  | MC8 _ => false
  | _ => sl && (k <? 4)%nat
  end.
Definition module_alive (m : mpc) (sl : bool) : bool :=
  match m with
  | MMod2 | MMod3 | MModClean _ => true
  | MIdle | MParams _ | MAlloc _ => sl
  | _ => false
  end.
Definition comm_alive (c : option rpc) : bool := match c with Some (R1 | R2 | R3) => true | _ => false end.
Definition alive (s : state) (r : resource) : bool :=
  match r with
  | RCtx => slot s
  | RMutex k => mutex_alive (main s) (slot s) k
  | RQueue => slot s && queue_p (cx s)
  | REvent => slot s && event_p (cx s)
  | RComm => comm_alive (cur s)
  | RModule => module_alive (main s) (slot s)
  | RSocket k => slot s && existsb (Nat.eqb k) (socks (cx s))
  end.
Definition balanced (s : state) : Prop := forall r, creates r (tr s) = destroys r (tr s) + b2n (alive s r).

Definition post (c : option rpc) : Prop := match c with None | Some (RB | RC | REnd) => True | _ => False end.

Definition resources (q e u o cl : bool) (c : ctx_mem) : Prop :=
  queue_p c = q /\ event_p c = e /\ up c = u /\ opened c = o /\ closing c = cl.
Definition bits (st ab a : bool) (c : ctx_mem) : Prop := started c = st /\ aborted c = ab /\ abort c = a.

Section Config.
Variable static : bool.

Definition running (s : state) : Prop :=
  cur s = Some R2 /\ bits false false false (cx s) /\ shcb (cx s) = true.
Definition is_open (s : state) : Prop :=
  slot s = true /\ resources true true true true false (cx s) /\ running s /\ (static = false -> shutdown (cx s) = false).
Definition not_success (r : ending) : Prop := r <> EInit C_SUCCESS.

Definition wait_cur (s : state) : Prop :=
  match cur s with
  | Some (R0 | R1 | RA) => bits false false false (cx s)
  | Some R2 => bits true false false (cx s)
  | Some (RB | RC | REnd) => bits false true false (cx s)
  | _ => False
  end.
Definition close_cur (s : state) : Prop :=
  match cur s with
  | Some R2 => bits false false true (cx s)
  | Some (R3 | R4 | RA) => bits false false false (cx s)
  | Some (RB | RC | REnd) => bits false true false (cx s)
  | _ => False
  end.

Definition phase (s : state) : Prop :=
  match main s with
  | MIdle | MParams _ | MAlloc _ => if slot s then is_open s else cur s = None
  | MMutex _ k => (k < 4)%nat /\ slot s = true /\ resources false false false false false (cx s) /\ cur s = None /\ socks (cx s) = []
  | MQueue _ => slot s = true /\ resources false false false false false (cx s) /\ cur s = None /\ socks (cx s) = []
  | MEvent => slot s = true /\ resources true false false false false (cx s) /\ cur s = None /\ socks (cx s) = [] /\ shcb (cx s) = true
  | MThread => slot s = true /\ resources true true false false false (cx s) /\ cur s = None /\ socks (cx s) = [] /\ shcb (cx s) = true /\ bits false false false (cx s)
  | MWait => slot s = true /\ resources true true false false false (cx s) /\ wait_cur s /\ socks (cx s) = [] /\ shcb (cx s) = true
  | MEvDel => slot s = true /\ resources true true false false false (cx s) /\ post (cur s) /\ socks (cx s) = []
  | MQDel => slot s = true /\ resources true false false false false (cx s) /\ post (cur s) /\ socks (cx s) = []
  | MFail k e => (k <= 4)%nat /\ slot s = true /\ resources false false false false false (cx s) /\ post (cur s) /\ socks (cx s) = [] /\ e <> C_SUCCESS
  | MOpen => slot s = true /\ resources true true true false false (cx s) /\ running s /\ socks (cx s) = []
  | MMod1 | MMod2 | MMod3 => is_open s /\ socks (cx s) = []
  | MModClean r | MC1 r => is_open s /\ not_success r
  | MC2 r => slot s = true /\ resources true true true true true (cx s) /\ running s /\ not_success r
  | MC3 r => slot s = true /\ resources true true true true true (cx s) /\ close_cur s /\ not_success r
  | MC4 r => slot s = true /\ resources true true true true true (cx s) /\ post (cur s) /\ not_success r
  | MC5 r => slot s = true /\ resources true false false true true (cx s) /\ post (cur s) /\ not_success r
  | MC6 r => slot s = true /\ resources false false false true true (cx s) /\ post (cur s) /\ not_success r
  | MC7 k r => (k < 4)%nat /\ slot s = true /\ resources false false false false false (cx s) /\ post (cur s) /\ not_success r /\ socks (cx s) = []
  | MC8 r => slot s = true /\ resources false false false false false (cx s) /\ post (cur s) /\ not_success r /\ socks (cx s) = []
  end.

Record Inv (s : state) : Prop := {
  i_bal : balanced s;
  i_phase : phase s;
  i_nodup : NoDup (socks (cx s));
  i_old : Forall (fun r => post (Some r)) (old s);
  i_closed : slot s = false -> opened (cx s) = false /\ socks (cx s) = []
}.
End Config.

Lemma creates_cons_c r x l : creates r (OpCreate x :: l) = (if resource_eq_dec r x then 1 else 0) + creates r l. Proof. reflexivity. Qed.

(** Moving the balance from one state to the next. *)
Lemma bal_same s s' : tr s' = tr s -> (forall r, alive s' r = alive s r) -> balanced s -> balanced s'.
Proof. intros T A B r. rewrite T, A. apply B. Qed.
Lemma bal_create x s s' : tr s' = OpCreate x :: tr s -> alive s x = false -> alive s' x = true ->
  (forall r, r <> x -> alive s' r = alive s r) -> balanced s -> balanced s'.
Proof.
  intros T A0 A1 A B r. rewrite T. cbn. specialize (B r). destruct (resource_eq_dec r x) as [-> | Ne].
  - rewrite A1. rewrite A0 in B. cbn in *. lia.
  - rewrite A by assumption. lia.
Qed.
Lemma bal_destroy x s s' : tr s' = OpDestroy x :: tr s -> alive s x = true -> alive s' x = false ->
  (forall r, r <> x -> alive s' r = alive s r) -> balanced s -> balanced s'.
Proof.
  intros T A0 A1 A B r. rewrite T. cbn. specialize (B r). destruct (resource_eq_dec r x) as [-> | Ne].
  - rewrite A1. rewrite A0 in B. cbn in *. lia.
  - rewrite A by assumption. lia.
Qed.

Lemma fold_sock_tr l s : tr (fold_right (fun k => destroy (RSocket k)) s l) = map (fun k => OpDestroy (RSocket k)) l ++ tr s.
Proof. induction l as [|k l IH]; [reflexivity|]. cbn. now rewrite IH. Qed.
Lemma fold_sock_same l s : slot (fold_right (fun k => destroy (RSocket k)) s l) = slot s /\
  cx (fold_right (fun k => destroy (RSocket k)) s l) = cx s /\ cur (fold_right (fun k => destroy (RSocket k)) s l) = cur s /\
  old (fold_right (fun k => destroy (RSocket k)) s l) = old s /\ main (fold_right (fun k => destroy (RSocket k)) s l) = main s /\
  gen (fold_right (fun k => destroy (RSocket k)) s l) = gen s /\ handle (fold_right (fun k => destroy (RSocket k)) s l) = handle s /\
  results (fold_right (fun k => destroy (RSocket k)) s l) = results s /\ uaf (fold_right (fun k => destroy (RSocket k)) s l) = uaf s /\
  at_call (fold_right (fun k => destroy (RSocket k)) s l) = at_call s.
Proof. induction l as [|k l IH]; [repeat split|]. cbn. exact IH. Qed.

Lemma creates_map_destroy r l t : creates r (map (fun k => OpDestroy (RSocket k)) l ++ t) = creates r t.
Proof. induction l as [|k l IH]; [reflexivity|]. cbn. exact IH. Qed.
Lemma destroys_map_sock j l t : NoDup l -> destroys (RSocket j) (map (fun k => OpDestroy (RSocket k)) l ++ t) = b2n (existsb (Nat.eqb j) l) + destroys (RSocket j) t.
Proof.
  induction l as [|k l IH]; [reflexivity|]. intro Nd. inversion Nd as [|? ? Ni Nd']; subst. cbn [map app destroys existsb].
  destruct (resource_eq_dec (RSocket j) (RSocket k)) as [E | Ne].
  - injection E as ->. rewrite Nat.eqb_refl. cbn [orb b2n].
    assert (X : existsb (Nat.eqb k) l = false).
    { destruct (existsb (Nat.eqb k) l) eqn:X; [|reflexivity]. apply existsb_exists in X. destruct X as [y [Iy Ey]].
      apply Nat.eqb_eq in Ey. subst y. contradiction. }
    rewrite IH, X by assumption. cbn. reflexivity.
  - assert (Nat.eqb j k = false) as -> by (apply Nat.eqb_neq; congruence). cbn [orb]. apply IH, Nd'.
Qed.
Lemma destroys_map_other r l t : ~ is_socket r -> destroys r (map (fun k => OpDestroy (RSocket k)) l ++ t) = destroys r t.
Proof.
  intro Ns. induction l as [|k l IH]; [reflexivity|]. cbn [map app destroys].
  destruct (resource_eq_dec r (RSocket k)) as [-> | Ne]; [exfalso; apply Ns; eexists; reflexivity|exact IH].
Qed.

Lemma set_nth_forall (P : rpc -> Prop) l i x : Forall P l -> P x -> Forall P (set_nth l i x).
Proof. intro F. revert i. induction F; intros [|i] Px; cbn; constructor; auto. Qed.
Lemma existsb_filter j k l : existsb (Nat.eqb j) (filter (fun i => negb (Nat.eqb k i)) l) = existsb (Nat.eqb j) l && negb (Nat.eqb j k).
Proof.
  induction l as [|i l IH]; [reflexivity|]. cbn [filter existsb].
  destruct (Nat.eqb k i) eqn:E; cbn [negb existsb].
  - apply Nat.eqb_eq in E. subst i. rewrite IH. destruct (Nat.eqb j k) eqn:E2; cbn; [now rewrite andb_false_r|reflexivity].
  - rewrite IH. destruct (Nat.eqb j i) eqn:E2; cbn; [|reflexivity].
    apply Nat.eqb_eq in E2. subst i. apply Nat.eqb_neq in E.
    assert (Nat.eqb j k = false) as -> by (apply Nat.eqb_neq; congruence). reflexivity.
Qed.

Lemma inv_init static : Inv static init.
Proof. split; cbn; [intros []; reflexivity|reflexivity|constructor|constructor|auto]. Qed.

Local Arguments Nat.ltb : simpl never.
Local Arguments Nat.leb : simpl never.
Local Arguments Nat.eqb : simpl never.

Ltac kn := match goal with
  | |- context [ (?a <? ?b)%nat ] => destruct (Nat.ltb_spec a b)
  | |- context [ (?a <=? ?b)%nat ] => destruct (Nat.leb_spec a b)
  | |- context [ (?a =? ?b)%nat ] => destruct (Nat.eqb_spec a b)
  end.
Ltac fin := try reflexivity; try discriminate; try congruence; try lia; try tauto.
Ltac al := intros; cbn; repeat kn; cbn; fin.
Ltac alr := let r := fresh "r" in intros r; destruct r; al.
Ltac alrn := let r := fresh "r" in let Ne := fresh "Ne" in intros r Ne; destruct r;
  try (exfalso; apply Ne; reflexivity);
  try match type of Ne with RMutex ?a <> RMutex ?b => assert (a <> b) by congruence end; al.
Ltac bal B := first
  [ refine (bal_same _ _ _ _ B); [ reflexivity | solve [ alr ] ]
  | refine (bal_create _ _ _ _ _ _ _ B); [ reflexivity | solve [ al ] | solve [ al ] | solve [ alrn ] ]
  | refine (bal_destroy _ _ _ _ _ _ _ B); [ reflexivity | solve [ al ] | solve [ al ] | solve [ alrn ] ] ].
Ltac bust := repeat match goal with
  | H : _ /\ _ |- _ => destruct H
  | H : ?x = true |- _ => is_var x; subst x
  | H : ?x = false |- _ => is_var x; subst x
  | H : ?x = None |- _ => is_var x; subst x
  | H : ?x = Some _ |- _ => is_var x; subst x
  | H : ?x = [] |- _ => is_var x; subst x
  end.
Ltac unf := unfold phase, is_open, running, resources, bits, not_success, wait_cur, close_cur in *; cbn in *.
Ltac done_ := repeat split; cbn; fin; auto.

Lemma check_cases p : check_arguments p = C_SUCCESS \/ check_arguments p = C_INVALID_HANDLE \/ check_arguments p = C_BAD_PARAMETER.
Proof.
  unfold check_arguments, checkInitParameter. destruct (p_handle p); [|auto]. destruct (p_intf p); [|auto]. destruct (p_tok p); [|auto].
  cbn [negb]. destruct (_ || _); [auto|]. destruct (_ || _); auto.
Qed.

Section Step.
Variable static : bool.

Lemma inv_main b e s s' : Inv static s -> main_step b e s = Some s' -> Inv static s'.
Proof.
  intros [B P Nd O C] E.
  destruct s as [sl c g h m cu ol u t ac rs]. destruct c as [q ev upb sh op sd cl st ab abr sk].
  destruct m; cbn in *; unf.
  - discriminate.
  - destruct (check_cases p) as [Ck | [Ck | Ck]]; rewrite Ck in E; (injection E as <-; split; [bal B|..]; cbn; auto).
  - destruct sl; cbn in E; [injection E as <-; split; [bal B|..]; cbn; auto|].
    bust. destruct b; injection E as <-; (split; [bal B|..]; cbn; auto).
    + done_.
    + constructor.
  - bust. destruct b; injection E as <-.
    + destruct (Nat.eqb_spec k 3) as [-> |]; (split; [bal B|..]; cbn; auto; done_).
    + split; [bal B|..]; cbn; auto; done_.
  - bust. destruct b; injection E as <-; (split; [bal B|..]; cbn; auto; done_).
  - bust. destruct b; injection E as <-; (split; [bal B|..]; cbn; auto; done_).
  - bust. destruct b; injection E as <-; (split; [bal B|..]; cbn; auto; done_).
  - bust. destruct cu as [[]|]; unf; try contradiction; bust; cbn in E; try discriminate; injection E as <-; (split; [bal B|..]; cbn; auto; done_).
  - bust. injection E as <-; (split; [bal B|..]; cbn; auto; done_).
  - bust. injection E as <-; (split; [bal B|..]; cbn; auto; done_).
  - bust. destruct k; injection E as <-.
    + split; cbn; auto; try done_; [|destruct cu; [constructor; auto|auto]].
      refine (bal_destroy _ _ _ _ _ _ _ B); [reflexivity|reflexivity|reflexivity|].
      destruct cu as [[]|]; try contradiction; alrn.
    + split; [bal B|..]; cbn; auto; done_.
  - bust. injection E as <-; (split; [bal B|..]; cbn; auto; done_).
  - bust. destruct e; injection E as <-; (split; [bal B|..]; cbn; auto; done_).
  - bust. destruct e; injection E as <-; (split; [bal B|..]; cbn; auto; done_).
  - bust. destruct e; injection E as <-; (split; [bal B|..]; cbn; auto; done_).
  - bust. injection E as <-; (split; [bal B|..]; cbn; auto; done_).
  - bust. injection E as <-; (split; [bal B|..]; cbn; auto; done_).
  - bust. injection E as <-; (split; [bal B|..]; cbn; auto; done_).
  - bust. destruct cu as [[]|]; unf; try contradiction; bust; cbn in E; injection E as <-; (split; [bal B|..]; cbn; auto; done_).
  - bust. injection E as <-; (split; [bal B|..]; cbn; auto; done_).
  - bust. injection E as <-; (split; [bal B|..]; cbn; auto; done_).
  - bust. injection E as <-.
    match goal with |- Inv _ (upd_main _ (upd_cx _ (fold_right _ ?S0 ?L))) => pose proof (fold_sock_same L S0) as FS; pose proof (fold_sock_tr L S0) as FT; set (F := fold_right _ S0 L) in * end.
    destruct FS as (F1 & F2 & F3 & F4 & F5 & F6 & F7 & F8 & F9 & F10).
    split; cbn; auto.
    + intro rr. specialize (B rr). cbn in B. cbn [upd_main upd_cx tr]. rewrite FT. cbn [tr]. rewrite creates_map_destroy.
      destruct rr; cbn [alive upd_main upd_cx slot cur cx main queue_p event_p socks set_socks set_flags];
        rewrite ?F1, ?F3; cbn [slot cur mutex_alive module_alive] in *;
        try (rewrite destroys_map_other by (intros [k' K']; discriminate); exact B).
      rewrite destroys_map_sock by exact Nd. cbn [existsb andb b2n]. cbn in B. lia.
    + rewrite F1, F3. cbn. done_.
    + constructor.
    + rewrite F4. exact O.
  - bust. injection E as <-. destruct (Nat.eqb_spec k 3) as [-> |]; (split; [bal B|..]; cbn; auto; done_).
  - bust. injection E as <-. split; cbn; auto; try done_.
    + destruct r; (refine (bal_destroy _ _ _ _ _ _ _ B); [reflexivity|reflexivity|reflexivity|]);
      destruct cu as [[]|]; try contradiction; alrn.
    + destruct r; (destruct cu; [constructor; auto|auto]).
Qed.

Lemma inv_reader b s s' : Inv static s -> reader_step b s = Some s' -> Inv static s'.
Proof.
  intros [B P Nd O C] E.
  destruct s as [sl c g h m cu ol u t ac rs]. destruct c as [q ev upb sh op sd cl st ab abr sk].
  destruct cu as [rp|]; [|discriminate].
  destruct m; destruct rp; try (destruct sh); unf; try (destruct sl); unf; bust; try contradiction; try discriminate;
    try (destruct b); try match type of E with context [if ?x then RC else REnd] => is_var x; destruct x end; cbn in *; try discriminate; try congruence; injection E as <-;
    (split; [bal B|..]; cbn; auto; done_).
Qed.

Lemma inv_old k s s' : Inv static s -> old_step static k s = Some s' -> Inv static s'.
Proof.
  intros [B P Nd O C] E.
  destruct s as [sl c g h m cu ol u t ac rs]. destruct c as [q ev upb sh op sd cl st ab abr sk].
  unfold old_step in E. cbn in E.
  destruct (nth_error ol k) as [[]|]; try discriminate; destruct static eqn:St; injection E as <-;
    (split; [bal B| | | |]; cbn; auto;
     try (apply set_nth_forall; [exact O|try destruct sh; exact I]));
    (destruct m; unf; try (destruct sl); cbn in *; bust; unf; try destruct cu as [[]|]; bust; done_).
Qed.

Lemma inv_sock_open k s s' : Inv static s -> exec static (LSockOpen k) s = Some s' -> Inv static s'.
Proof.
  intros [B P Nd O C] E.
  destruct s as [sl c g h m cu ol u t ac rs]. destruct c as [q ev upb sh op sd cl st ab abr sk].
  destruct m; try discriminate. unfold exec in E. cbn [main cx socks] in E.
  destruct (existsb (Nat.eqb k) sk) eqn:X; [discriminate|]. destruct (k <? 12)%nat; [|discriminate].
  cbn [negb andb] in E. destruct sl; [|discriminate].
  destruct (api_status _); try discriminate. injection E as <-. unf. bust.
  split; cbn; auto; try done_.
  - refine (bal_create _ _ _ _ _ _ _ B); [reflexivity|cbn; exact X|cbn; now rewrite Nat.eqb_refl|].
    intros r Ne; destruct r; try reflexivity. cbn. assert (Nat.eqb k0 k = false) as -> by (apply Nat.eqb_neq; congruence). reflexivity.
  - constructor; [|exact Nd]. intro I.
    assert (existsb (Nat.eqb k) sk = true) by (apply existsb_exists; exists k; split; [exact I|apply Nat.eqb_refl]). congruence.
Qed.

Lemma inv_sock_close k s s' : Inv static s -> exec static (LSockClose k) s = Some s' -> Inv static s'.
Proof.
  intros [B P Nd O C] E.
  destruct s as [sl c g h m cu ol u t ac rs]. destruct c as [q ev upb sh op sd cl st ab abr sk].
  destruct m; try discriminate. unfold exec in E. cbn [main cx socks slot] in E.
  destruct (existsb (Nat.eqb k) sk) eqn:X; [|discriminate]. destruct sl; [|discriminate].
  injection E as <-. unf. bust.
  split; cbn; auto; try done_.
  - refine (bal_destroy _ _ _ _ _ _ _ B); [reflexivity|cbn; exact X|cbn; rewrite existsb_filter, Nat.eqb_refl; apply andb_false_r|].
    intros r Ne; destruct r; try reflexivity. cbn. rewrite existsb_filter. assert (Nat.eqb k0 k = false) as -> by (apply Nat.eqb_neq; congruence). apply andb_true_r.
  - apply NoDup_filter, Nd.
Qed.

Theorem inv_step lb s s' : Inv static s -> exec static lb s = Some s' -> Inv static s'.
Proof.
  intros I E. destruct lb.
  - unfold exec in E. destruct I as [B P Nd O C]. destruct s as [sl c g h m cu ol u t ac rs].
    destruct m; try discriminate. cbn in E. injection E as <-. split; cbn; auto.
  - unfold exec in E. destruct I as [B P Nd O C]. destruct s as [sl c g h m cu ol u t ac rs].
    destruct m; try discriminate. cbn in E. destruct null.
    + injection E as <-. split; cbn; auto.
    + destruct sl; [|discriminate]. injection E as <-. unf. split; cbn; auto; try done_.
  - eapply inv_main; eassumption.
  - eapply inv_reader; eassumption.
  - eapply inv_old; eassumption.
  - eapply inv_sock_open; eassumption.
  - eapply inv_sock_close; eassumption.
Qed.

Theorem inv_reach s : reach static s -> Inv static s.
Proof. induction 1; [apply inv_init|eapply inv_step; eassumption]. Qed.
End Step.

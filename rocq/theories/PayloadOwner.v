(** Receiving payloads through the whole request path: whose callback is called. *)
From Coq Require Import List NArith ZArith Bool Arith Lia.
From Verif Require Import Bytes AtCore Status SpecAt Pktio SpecPktio SpecStream.
From Verif Require Import Request SpecRequest RequestInv Whole Payload SpecPayload.
Import ListNotations.

(** What the reader leaves alone. *)
Definition kept (s s' : Request.state) : Prop :=
  ths s' = ths s /\ mtx s' = mtx s /\ hooks s' = hooks s /\ cb s' = cb s /\ (typ s' = typ s \/ typ s' = T_NO_COMMAND) /\ (forall e, In e (log s) -> In e (log s')).
Lemma kept_inv s s' : kept s s' -> Inv s -> Inv s'.
Proof. intros (T & M & H & C & TY & LG) V. apply (inv_same s); auto; [apply local_reader|apply free_reader]; auto. Qed.
Lemma kept_refl s : kept s s. Proof. repeat split; auto. Qed.

Section P.
Variable cap : nat.
Variable tt : token_table.
Variable cbs : callbacks.

Lemma next_core c x fifo line n i s mt w' : Whole.next_line c x fifo line n i s mt = Ok w' -> w_core w' = c.
Proof.
  unfold Whole.next_line. destruct (getNextLine x line n i s mt) as [[s1|s1 l1 n1]| |]; cbn [bind]; intro E; try discriminate; injection E as <-; reflexivity.
Qed.
Lemma scan_kept w line n w' : scan w line n = Ok w' -> kept (w_core w) (w_core w').
Proof.
  unfold scan. destruct (skip_eol _ _ _) as [[l1 n1]| |]; cbn [bind]; try discriminate. destruct (n1 =? 0)%nat; [intros [= <-]; apply kept_refl|].
  destruct (find_eol _ _ _) as [[i|]| |]; cbn [bind]; try discriminate; [|intros [= <-]; apply kept_refl].
  destruct (st _ _ _) as [m| |]; cbn [bind]; try discriminate. destruct (cstr_get m l1); try discriminate. intros [= <-]. repeat split; auto.
Qed.
Lemma process_kept w l t line n i w' : process_line tt w l t line n i = Ok w' -> kept (w_core w) (w_core w').
Proof.
  unfold process_line. destruct (ProcessLine _ _ _ _ _) as [[s r]| |]; cbn [bind]; intro E; try discriminate.
  destruct s; first [injection E as <-; repeat split; auto | apply next_core in E; rewrite E; repeat split; auto].
Qed.
Lemma action_kept w line n i a w' : line_action cap tt w line n i a = Some (Ok w') -> kept (w_core w) (w_core w').
Proof.
  unfold line_action. intro E. destruct (rd (w_core w)) as [|l|l u|l mt|l t|l|ok ls l|ok ls l|ls l|id ls l|s l ok b|]; try discriminate.
  - destruct a; try discriminate. injection E as <-. repeat split; auto.
  - destruct a; try discriminate. injection E as <-. repeat split; auto.
  - destruct mt, a; try discriminate; injection E as E; try (subst w'; repeat split; auto; fail). apply next_core in E. rewrite E. repeat split; auto.
  - destruct a; try discriminate. injection E as E. eapply process_kept. exact E.
  - destruct a as [| | | | | | |b k| |]; try discriminate. destruct b; injection E as E; [apply next_core in E; rewrite E; repeat split; auto|subst w'; repeat split; auto].
  - destruct a; try discriminate. injection E as <-. repeat split; auto.
  - destruct a; try discriminate. injection E as <-. destruct ok; [destruct (cb (w_core w)) eqn:CB|]; repeat split; cbn; auto.
  - destruct a; try discriminate. destruct (cb (w_core w)) eqn:CB; injection E as E; [|subst w'; repeat split; auto].
    destruct (deliver _ _); cbn [bind] in E; try discriminate. injection E as <-. repeat split; cbn; auto.
  - destruct a; try discriminate. injection E as <-. repeat split; auto.
  - destruct a; try discriminate. injection E as E. apply next_core in E. rewrite E. destruct (queue (w_core w)); repeat split; auto.
Qed.
Lemma read_core k w w' : read_bytes cap k w = Ok w' -> w_core w' = w_core w.
Proof.
  unfold read_bytes. destruct (ReadLine _ _ _) as [[[pl bytes] s1]| |]; cbn [bind]; try discriminate. destruct (0 <? bytes)%nat; [|intros [= <-]; reflexivity].
  destruct pl; [|discriminate]. destruct (if negb (rx_dlen s1 =? 0)%nat then _ else _) as [[[l1 n1] s2]| |]; cbn [bind]; try discriminate.
  destruct (0 <? n1)%nat; [|intros [= <-]; reflexivity]. destruct (st _ _ _) as [m| |]; cbn [bind]; try discriminate. intros [= <-]. reflexivity.
Qed.
Lemma kept_add l s : kept s (add_item l s). Proof. repeat split; auto. Qed.
Lemma line_kept p line n i a p' : line_data cap tt p line n i a = Some (Ok p') -> kept (w_core (p_whole p)) (w_core (p_whole p')) /\ (p_copy p' = p_copy p).
Proof.
  unfold line_data. intro E.
  assert (PLAIN : match line_action cap tt (p_whole p) line n i a with Some r => Some (do w' <- r; Ok (with_whole w' p)) | None => None end = Some (Ok p') ->
     kept (w_core (p_whole p)) (w_core (p_whole p')) /\ p_copy p' = p_copy p).
  { intro Q. destruct (line_action cap tt (p_whole p) line n i a) as [r|] eqn:LA; [|discriminate]. injection Q as Q. destruct r as [w'| |]; cbn [bind] in Q; try discriminate. injection Q as <-.
    split; [eapply action_kept; exact LA|reflexivity]. }
  destruct (rd (w_core (p_whole p))) as [|l|l u|l mt|l t|l|ok ls l|ok ls l|ls l|id ls l|s l ok b|]; try exact (PLAIN E).
  destruct a; try exact (PLAIN E). clear PLAIN. injection E as E. unfold process_data in E.
  destruct (ProcessLine _ _ _ _ _) as [[s r]| |]; cbn [bind] in E; try discriminate.
  assert (PL : (do w' <- process_line tt (p_whole p) l t line n i; Ok (with_whole w' p)) = Ok p' -> kept (w_core (p_whole p)) (w_core (p_whole p')) /\ p_copy p' = p_copy p).
  { intro Q. destruct (process_line tt (p_whole p) l t line n i) as [w'| |] eqn:PL; cbn [bind] in Q; try discriminate. injection Q as <-. split; [eapply process_kept; exact PL|reflexivity]. }
  destruct s; try exact (PL E). destruct (negb _); [|exact (PL E)]. destruct (handleData _ _ _ _) as [[[l1 n1] x]| |]; cbn [bind] in E; try discriminate. injection E as <-.
  split; [|reflexivity]. cbn [with_whole p_whole w_core]. destruct (rx_dlen x =? 0)%nat; destruct (_ =? _)%nat; repeat split; auto.
Qed.

(** The copied pointers are the current ones, unless they are gone. *)
Definition now (o o' : option nat) : Prop := forall id, o = Some id -> o' = Some id.
Definition copy_now (p : pay) : Prop := forall s d, p_copy p = Some (s, d) -> now s (scb (w_core (p_whole p))) /\ now d (dcb (w_core (p_whole p))).
Lemma app_hooks a c c' : Inv c -> app_label a = true -> exec tt a c = Some c' ->
  (scb c' = scb c /\ dcb c' = dcb c) \/ (scb c = None /\ dcb c = None) \/ exists i k st o, a = LThread i /\ nth_error (ths c) i = Some (Unhook k st o).
Proof.
  intros V A E. destruct a as [i r|i|i|i|i| |st|a k|l|g]; try discriminate A; cbn [exec] in E.
  - left. destruct (nth_error (ths c) i) as [[]|]; try discriminate. destruct (rq_kind r) as [|[t|]| | |]; injection E as <-; split; reflexivity.
  - destruct (nth_error (ths c) i) as [q|] eqn:EP; [|unfold thread_step in E; rewrite EP in E; discriminate].
    destruct q as [|k|k|k|k|k|k|k st o|k st o|k|k|k|k st o|k st o]; try (unfold thread_step in E; rewrite EP in E; discriminate E); try (right; right; eauto 6; fail);
    try (left; unfold thread_step in E; rewrite EP in E;
         repeat match goal with H : match ?x with _ => _ end = Some _ |- _ => destruct x; try discriminate end; injection E as <-;
         repeat match goal with |- context [match ?x with _ => _ end] => destruct x end; split; reflexivity).
    right. left. destruct (inv_held_at c i _ V EP eq_refl) as (_ & L & _). unfold hooks, no_hooks in L. injection L as _ L1 L2. auto.
  - left. destruct (nth_error (ths c) i) as [[]|]; try discriminate; injection E as <-; split; reflexivity.
  - left. destruct (nth_error (ths c) i) as [[]|]; try discriminate; injection E as <-; split; reflexivity.
  - left. destruct (nth_error (ths c) i) as [[]|]; try discriminate; injection E as <-; split; reflexivity.
  - left. injection E as <-; split; reflexivity.
Qed.
Lemma kept_hooks s s' : kept s s' -> scb s' = scb s /\ dcb s' = dcb s.
Proof. intros (_ & _ & H & _). unfold hooks in H. injection H as _ H1 H2. auto. Qed.
Lemma now_frame o a b : a = b -> now o b -> now o a.
Proof. intros ->. auto. Qed.

Lemma after_kept w x st line n sod asked p' : after_call cap w x st line n sod asked = Ok p' -> kept (w_core w) (w_core (p_whole p')) /\ p_copy p' = None.
Proof.
  unfold after_call. destruct (handleCallbackResult cap x st line n) as [x'|]; intro E.
  - injection E as <-. split; [apply kept_refl|reflexivity].
  - destruct (scan _ line n) as [w'| |] eqn:SC; cbn [bind] in E; try discriminate. injection E as <-. apply scan_kept in SC. split; [exact SC|reflexivity].
Qed.
Lemma ask_kept p b line n p' : ask cap cbs p b line n = Ok p' -> kept (w_core (p_whole p)) (w_core (p_whole p')) /\ p_copy p' = None.
Proof.
  unfold ask. intro E. destruct b as [[sid|] [did|]].
  1-2: destruct (Pktio.rd _ _ _) as [bs| |]; cbn [bind] in E; try discriminate; destruct (cb_send cbs sid bs) as [s bs']; destruct (wr _ _ _) as [m| |]; cbn [bind] in E; try discriminate;
    eapply after_kept; exact E.
  - destruct (Pktio.rd _ _ _) as [bs| |]; cbn [bind] in E; try discriminate. destruct (cb_data cbs did bs) as [[[s start] len] bs']. destruct (wr _ _ _) as [m| |]; cbn [bind] in E; try discriminate.
    eapply after_kept; exact E.
  - destruct (scan _ line n) as [w'| |] eqn:SC; cbn [bind] in E; try discriminate. injection E as <-. apply scan_kept in SC. split; [exact SC|reflexivity].
Qed.

Lemma fetch_shape p p1 : pexec cap tt cbs PFetch p = Some (Ok p1) -> w_core (p_whole p1) = w_core (p_whole p) /\
  ((p_copy p1 = None /\ p_copy p = None) \/ p_copy p = None /\ p_copy p1 = Some (scb (w_core (p_whole p)), dcb (w_core (p_whole p)))).
Proof.
  cbn [pexec]. destruct (w_at (p_whole p)) as [|line n|]; try discriminate. destruct (p_copy p) eqn:C; try discriminate. intros [= E]. unfold fetch in E.
  destruct (skip_eol _ _ _) as [[l1 n1]| |]; cbn [bind] in E; try discriminate.
  assert (CC : forall x l k, w_core (p_whole (copy_pointers p x l k)) = w_core (p_whole p) /\
     ((p_copy (copy_pointers p x l k) = None /\ @None (option nat * option nat) = None) \/ @None (option nat * option nat) = None /\ p_copy (copy_pointers p x l k) = Some (scb (w_core (p_whole p)), dcb (w_core (p_whole p))))).
  { intros x l k. unfold copy_pointers. destruct (k =? 0)%nat; split; auto. }
  destruct (cb_input cbs) as [f|]; [|injection E as <-; apply CC].
  destruct (Pktio.rd _ _ _) as [bs| |]; cbn [bind] in E; try discriminate. destruct (f bs) as [s len].
  destruct s; cbn [handleCallbackResult] in E; try destruct (n1 <? len)%nat; injection E as <-; first [apply CC|split; [reflexivity|left; auto]].
Qed.
Lemma owner_step p lb p' : Inv (w_core (p_whole p)) -> copy_now p -> no_end_under_callback p lb -> pexec cap tt cbs lb p = Some (Ok p') ->
  Inv (w_core (p_whole p')) /\ copy_now p'.
Proof.
  intros V CN NE E. destruct lb as [a|bs|k| | |a]; cbn [pexec wexec] in E.
  - destruct (app_label a) eqn:AL; [|discriminate]. destruct (exec tt a (w_core (p_whole p))) as [c'|] eqn:EX; [|discriminate]. injection E as <-.
    split; [eapply exec_inv; eassumption|]. intros s d Q. cbn [with_whole p_copy p_whole w_core] in *. destruct (CN s d Q) as (N1 & N2).
    destruct (app_hooks a _ _ V AL EX) as [(D1 & D2)|[(D1 & D2)|(i & k & st & o & -> & EP)]].
    + split; eapply now_frame; eauto.
    + split; intros id ->; exfalso; [specialize (N1 id eq_refl)|specialize (N2 id eq_refl)]; congruence.
    + assert (X : s <> None \/ d <> None -> False) by (intro X; exact (NE i eq_refl (ex_intro _ s (ex_intro _ d (conj Q X))) k st o EP)).
      split; intros id ->; exfalso; apply X; [left|right]; discriminate.
  - injection E as <-. split; [exact V|exact CN].
  - destruct (w_at (p_whole p)); try discriminate. injection E as E. unfold read_more in E. destruct (read_bytes cap k (p_whole p)) as [w'| |] eqn:RB; cbn [bind] in E; try discriminate. injection E as <-.
    apply read_core in RB. split; [|intros s d Q; discriminate]. cbn [p_whole w_core]. destruct (_ && _); rewrite RB; [eapply kept_inv; [apply kept_add|exact V]|exact V].
  - destruct (fetch_shape _ _ E) as (KC & [(CP & CP')|(_ & CP)]); rewrite KC; (split; [exact V|]); intros s d Q; [congruence|]. rewrite CP in Q. injection Q as <- <-. rewrite KC. split; intros id Q; exact Q.
  - destruct (w_at (p_whole p)) as [|line n|]; try discriminate. destruct (p_copy p) as [b|]; try discriminate. injection E as E.
    destruct (ask_kept _ _ _ _ _ E) as (K & C). split; [eapply kept_inv; eassumption|]. intros s d Q. congruence.
  - destruct (w_at (p_whole p)) as [| |line n i]; try discriminate. destruct (line_kept _ _ _ _ _ _ E) as (K & CP).
    split; [eapply kept_inv; eassumption|]. destruct (kept_hooks _ _ K) as (K1 & K2). intros s d Q. destruct (CN s d) as (N1 & N2); [congruence|]. split; eapply now_frame; eassumption.
Qed.
Lemma owner_run (ok : pay -> plabel -> Prop) n lbs p : (forall q lb, ok q lb -> no_end_under_callback q lb) -> prun cap tt cbs ok (pinit cap n) lbs p ->
  Inv (w_core (p_whole p)) /\ copy_now p.
Proof.
  intros OK R. remember (pinit cap n) as p0 eqn:E0. induction R as [p|p lbs p1 lb p2 R IH O E]; subst p.
  - split; [apply init_inv|intros ? ? Q; discriminate].
  - destruct (IH eq_refl) as (V & CN). exact (owner_step p1 lb p2 V CN (OK _ _ O) E).
Qed.
Lemma hooked_by_a_request c : Inv c ->
  let set_up_with k := exists i pc c0, nth_error (ths c) i = Some pc /\ command_set_up c0 pc /\ k (rq_kind (c_req c0)) in
  (forall id, scb c = Some id -> set_up_with (fun kind => exists payload, kind = KSend (Some id) payload)) /\
  (forall id, dcb c = Some id -> set_up_with (fun kind => kind = KRecv (Some id))).
Proof.
  intro V. assert (H : (scb c = None /\ dcb c = None) \/ exists i pc k, nth_error (ths c) i = Some pc /\ command_set_up k pc /\ hooks c = hooks_of (rq_kind (c_req k))).
  { destruct (mtx c) as [i|] eqn:M.
    - destruct (inv_held c V i M) as (q & EP & HQ & L).
      destruct q as [|k|k|k|k|k|k|k st o|k st o|k|k|k|k st o|k st o]; try discriminate HQ; cbn [local] in L; destruct L as (L & _);
        try (left; unfold hooks, no_hooks in L; injection L as _ L1 L2; auto; fail); right; exists i; eexists _, k; (split; [exact EP|]); (split; [reflexivity|exact L]).
    - left. destruct (inv_free c V M) as (L & _). unfold hooks, no_hooks in L. injection L as _ L1 L2. auto. }
  destruct H as [(S0 & D0)|(i & pc & k & EP & CS & L)].
  - split; intros id Q; congruence.
  - unfold hooks, hooks_of in L. injection L as _ L1 L2. split; intros id Q; exists i, pc, k; (split; [exact EP|]); (split; [exact CS|]).
    + rewrite L2 in Q. destruct (rq_kind (c_req k)); try discriminate Q. cbn in Q. subst. eexists. reflexivity.
    + rewrite L1 in Q. destruct (rq_kind (c_req k)); try discriminate Q. cbn in Q. subst. reflexivity.
Qed.

(** ** The other direction: the callback of the request in progress is the one that is called *)
Lemma inv_step p lb p' : Inv (w_core (p_whole p)) -> pexec cap tt cbs lb p = Some (Ok p') -> Inv (w_core (p_whole p')).
Proof.
  intros V E. destruct lb as [a|bs|k| | |a]; cbn [pexec wexec] in E.
  - destruct (app_label a) eqn:AL; [|discriminate]. destruct (exec tt a (w_core (p_whole p))) as [c'|] eqn:EX; [|discriminate]. injection E as <-. eapply exec_inv; eassumption.
  - injection E as <-. exact V.
  - destruct (w_at (p_whole p)); try discriminate. injection E as E. unfold read_more in E. destruct (read_bytes cap k (p_whole p)) as [w'| |] eqn:RB; cbn [bind] in E; try discriminate. injection E as <-.
    apply read_core in RB. cbn [p_whole w_core]. destruct (_ && _); rewrite RB; [eapply kept_inv; [apply kept_add|exact V]|exact V].
  - destruct (fetch_shape _ _ E) as (KC & _). rewrite KC. exact V.
  - destruct (w_at (p_whole p)) as [|line n|]; try discriminate. destruct (p_copy p) as [b|]; try discriminate. injection E as E.
    destruct (ask_kept _ _ _ _ _ E) as (K & C). eapply kept_inv; eassumption.
  - destruct (w_at (p_whole p)) as [| |line n i]; try discriminate. destruct (line_kept _ _ _ _ _ _ E) as (K & CP). eapply kept_inv; eassumption.
Qed.
Lemma inv_run (ok : pay -> plabel -> Prop) n lbs p : prun cap tt cbs ok (pinit cap n) lbs p -> Inv (w_core (p_whole p)).
Proof.
  intro R. remember (pinit cap n) as p0 eqn:E0. induction R as [p|p lbs p1 lb p2 R IH O E]; subst p; [apply init_inv|]. eapply inv_step; [exact (IH eq_refl)|exact E].
Qed.
Lemma set_up_hooks c i pc k : Inv c -> nth_error (ths c) i = Some pc -> command_set_up k pc -> scb c = hook_scb (rq_kind (c_req k)) /\ dcb c = hook_dcb (rq_kind (c_req k)).
Proof.
  intros V EP CS. assert (HQ : holding pc = true) by (destruct pc; try contradiction; reflexivity).
  destruct (inv_held_at c i pc V EP HQ) as (_ & L). assert (H : hooks c = hooks_of (rq_kind (c_req k))) by (destruct pc; try contradiction; cbn [command_set_up] in CS; subst; cbn [local] in L; apply L).
  unfold hooks, hooks_of in H. injection H as _ H1 H2. auto.
Qed.
Lemma after_asked w x st line n sod asked p' : after_call cap w x st line n sod asked = Ok p' -> p_asked p' = asked.
Proof.
  unfold after_call. destruct (handleCallbackResult cap x st line n) as [x'|]; intro E; [injection E as <-; reflexivity|].
  destruct (scan _ line n) as [w'| |]; cbn [bind] in E; try discriminate. injection E as <-. reflexivity.
Qed.
Lemma ask_asks p b line n bs p' : Pktio.rd (rx_buf (w_rx (p_whole p))) line n = Ok bs -> ask cap cbs p b line n = Ok p' ->
  (forall id, fst b = Some id -> p_asked p' = ForPrompt id bs :: p_asked p) /\ (forall id, b = (None, Some id) -> p_asked p' = ForData id bs :: p_asked p).
Proof.
  intros RD E. unfold ask in E. rewrite RD in E. cbn [bind] in E. destruct b as [[sid|] did]; cbn [fst].
  - split; [|intros id Q; discriminate]. intros id [= <-]. destruct (cb_send cbs sid bs) as [s bs']; destruct (wr _ _ _) as [m| |]; cbn [bind] in E; try discriminate. eapply after_asked. exact E.
  - split; [intros id Q; discriminate|]. intros id [= ->]. destruct (cb_data cbs id bs) as [[[s start] len] bs']. destruct (wr _ _ _) as [m| |]; cbn [bind] in E; try discriminate. eapply after_asked. exact E.
Qed.
End P.

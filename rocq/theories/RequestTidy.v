(** Invariant of the runs in which time-outs strike only transmissions that left no residue. *)
From Coq Require Import List NArith ZArith Bool Arith Lia.
From Verif Require Import Bytes AtCore Status SpecAt AtProofs AtProofs3 Pktio SpecPktio PktioLine SpecStream Request SpecRequest RequestInv.
Import ListNotations.

(** The transmission being waited for. *)
Definition cmd_tr (c : call) : transaction := {| tr_tag := (c_id c, false); tr_type := rq_type (c_req c); tr_extra := hook_extra (rq_kind (c_req c)) |}.
Definition data_tr (c : call) : transaction := {| tr_tag := (c_id c, true); tr_type := T_NO_RESULT; tr_extra := None |}.
Definition cur_of (p : tpc) : option transaction := match p with Wait c => Some (cmd_tr c) | DataWait c => Some (data_tr c) | _ => None end.
Definition cur (s : state) : option transaction :=
  match mtx s with
  | Some i => match nth_error (ths s) i with Some p => cur_of p | None => None end
  | None => None
  end.
Definition flight (s : state) : list line := match reader_line (rd s) with Some l => [l] | None => [] end ++ wire s.

Section Tidy.
Variable tt : token_table.
Variable pfxs : list str.
Hypothesis tables : tables_ok (tokens_now tt None).
Hypothesis prefixes : forall q, In q pfxs -> at_len_ok q.

Definition tok (tr : transaction) : token_table := tokens_now tt (tr_extra tr).
Definition from (tr : transaction) (l : line) : Prop := l_from l = Some (tr_tag tr).
Definition line_ok (ct : option transaction) (l : line) : Prop :=
  match l_from l with
  | None => l_last l = false /\ spontaneous tt pfxs (l_text l)
  | Some g => exists tr, ct = Some tr /\ tr_tag tr = g /\ (l_last l = true <-> completes (tok tr) (tr_type tr) (l_text l))
  end.
Definition item_ok (tr : transaction) (q : qitem) : Prop :=
  from tr (q_line q) /\ l_last (q_line q) = true /\ verdict (tok tr) (tr_type tr) (l_text (q_line q)) (q_ok q) /\ q_st q = own_status (q_ok q) (q_cb q).
Definition done (tr : transaction) (ok : bool) (ls : list line) (l : line) : Prop :=
  from tr l /\ l_last l = true /\ verdict (tok tr) (tr_type tr) (l_text l) ok /\ (forall x, In x ls -> from tr x).

Definition rd_ok (ct : option transaction) (s : state) : Prop :=
  match rd s with
  | RIdle | RGot _ | RPtr _ _ => True
  | RMsg l mt => (l_from l = None -> mt = AT_UNSOLICITED) /\ (mt = AT_SOLICITED -> exists tr, ct = Some tr /\ from tr l /\ typ s = tr_type tr)
  | RTyp l t => exists tr, ct = Some tr /\ from tr l /\ t = tr_type tr
  | RUndef l => l_from l <> None
  | RDone ok ls l | RHandle ok ls l => exists tr, ct = Some tr /\ done tr ok ls l
  | RCall ls l => exists tr, ct = Some tr /\ done tr true ls l /\ cb s <> None
  | RInCB id ls l => exists tr, ct = Some tr /\ done tr true ls l /\ tr_tag tr = (id, false)
  | RPost st l ok c => exists tr, ct = Some tr /\ done tr ok [] l /\ st = own_status ok c
  | RCrashed => False
  end.
Definition untagged (s : state) : Prop := forall l, In l (flight s) -> l_from l = None.

Record Core (ct : option transaction) (s : state) : Prop := {
  c_pend : forall p, In p (pend s) -> ct = Some p;
  c_lines : forall l, In l (flight s) -> line_ok ct l;
  c_last : forall a l b, flight s = a ++ l :: b -> l_last l = true -> pend s = [] /\ (forall x, In x b -> l_from x = None);
  c_queue : forall q, queue s = Some q -> pend s = [] /\ untagged s /\ resp s = None /\ exists tr, ct = Some tr /\ item_ok tr q;
  c_resp : forall ls, resp s = Some ls -> exists tr, ct = Some tr /\ forall x, In x ls -> from tr x;
  c_rd : rd_ok ct s;
  c_pfx : (puse s = true \/ exists l, rd s = RPtr l true) -> In (pbuf s) pfxs }.

Definition call_of (p : tpc) : option call :=
  match p with
  | Idle => None
  | Called c | Hook c | Setup c | SendA c | SendB c | Wait c | Reset c _ _ | Unhook c _ _ | Data1 c | Data2 c | DataWait c | DataReset c _ _ | Release c _ _ => Some c
  end.
Definition proper (c : call) : Prop := (forall q, rq_prefix (c_req c) = Some q -> In q pfxs) /\ table_small (hook_extra (rq_kind (c_req c))).
Definition answer_ok (c : call) (st : pkt_status) (o : option qitem) : Prop :=
  match o with
  | None => st = PKT_TIMED_OUT \/ st = PKT_BAD_PARAM \/ st = PKT_BAD_REQUEST \/ st = PKT_SEND_ERROR
  | Some q => st = q_st q /\ (item_ok (cmd_tr c) q \/ item_ok (data_tr c) q)
  end.
Definition thread_ok (p : tpc) : Prop :=
  (forall c, call_of p = Some c -> proper c) /\
  match p with Reset c st o | Unhook c st o | DataReset c st o | Release c st o => answer_ok c st o | _ => True end.
Definition entry_ok (e : entry) : Prop :=
  match e with
  | Returned c st o => answer_ok c st o
  | Delivered id ls l => (forall x, In x (l :: ls) -> l_from x = Some (id, false)) /\ l_last l = true
  end.
Record Tidy (s : state) : Prop := {
  t_core : Core (cur s) s;
  t_ths : forall i p, nth_error (ths s) i = Some p -> thread_ok p;
  t_log : forall e, In e (log s) -> entry_ok e }.

(** What the general invariant says about the transmission waited for. *)
Lemma cur_facts s tr : Inv s -> cur s = Some tr -> (forall i p, nth_error (ths s) i = Some p -> thread_ok p) ->
  extra s = tr_extra tr /\ table_small (tr_extra tr) /\ (typ s = tr_type tr \/ typ s = T_NO_COMMAND) /\ (forall id, cb s = Some id -> tr_tag tr = (id, false)).
Proof.
  intros V C TH. unfold cur in C. destruct (mtx s) as [i|] eqn:M; [|discriminate].
  destruct (inv_held s V i M) as (p & E & HP & L). rewrite E in C. destruct (TH i p E) as [PR _].
  destruct p; cbn [cur_of] in C; try discriminate; injection C as <-; cbn [local] in L; destruct L as (L1 & L2 & L3); cbn; unfold hooks, hooks_of, no_hooks in L1; injection L1 as L1a L1b L1c.
  - split; [exact L1a|]. split; [apply (PR c eq_refl)|]. split; [exact L3|]. intros id. rewrite L2. unfold cb_of. destruct (rq_cb (c_req c)); congruence.
  - split; [exact L1a|]. split; [intros k Q; discriminate|]. split; [exact L3|]. intro id. congruence.
Qed.

Lemma tables_with e : table_small e -> tables_ok (tokens_now tt e).
Proof. destruct tables as (A & B & C & D & _). intro S. repeat split; auto. Qed.

(** ** Quiet states *)
Definition quiet (s : state) : Prop :=
  pend s = [] /\ queue s = None /\ resp s = None /\ (forall l, In l (flight s) -> line_ok None l) /\ (puse s = true \/ (exists l, rd s = RPtr l true) -> In (pbuf s) pfxs) /\
  match rd s with RIdle | RGot _ | RPtr _ _ | RMsg _ AT_UNSOLICITED => True | _ => False end.

Lemma quiet_core ct s : quiet s -> Core ct s.
Proof.
  intros (P & Q & R & L & PF & D).
  assert (NL : forall l, In l (flight s) -> l_from l = None /\ l_last l = false /\ spontaneous tt pfxs (l_text l)).
  { intros l I. specialize (L l I). unfold line_ok in L. destruct (l_from l); [destruct L as (tr & ? & _); discriminate|tauto]. }
  split.
  - rewrite P. intros p [].
  - intros l I. destruct (NL l I) as (A & B). unfold line_ok. rewrite A. exact B.
  - intros a l b E H. assert (I : In l (flight s)) by (rewrite E; apply in_or_app; right; left; reflexivity). destruct (NL l I) as (_ & B & _). congruence.
  - intros q E. congruence.
  - intros q E. congruence.
  - unfold rd_ok. destruct (rd s) as [| | |l mt| | | | | | | |]; auto; try contradiction. destruct mt; try contradiction. split; [auto|discriminate].
  - exact PF.
Qed.

Lemma in_flight_rd s l : reader_line (rd s) = Some l -> In l (flight s).
Proof. intro E. unfold flight. rewrite E. left. reflexivity. Qed.

(** Nothing tagged is around: quiet. *)
Lemma core_quiet ct s : Core ct s -> pend s = [] -> untagged s -> resp s = None -> queue s = None -> quiet s.
Proof.
  intros C P U R Q. split; [exact P|]. split; [exact Q|]. split; [exact R|]. split; [|split; [apply (c_pfx ct s C)|]].
  - intros l I. pose proof (c_lines ct s C l I) as L. unfold line_ok in *. rewrite (U l I) in *. exact L.
  - pose proof (c_rd ct s C) as D. unfold rd_ok in D. pose proof (in_flight_rd s) as X.
    destruct (rd s) as [| | |l mt|l t|l|ok ls l|ok ls l|ls l|id ls l|st l ok c|] eqn:E; auto.
    + assert (F := U l (X l eq_refl)). destruct D as (D & _). rewrite (D F). exact I.
    + assert (F := U l (X l eq_refl)). destruct D as (tr & _ & D & _). unfold from in D. congruence.
    + assert (F := U l (X l eq_refl)). destruct D as (tr & _ & (D & _)). unfold from in D. congruence.
    + assert (F := U l (X l eq_refl)). destruct D as (tr & _ & (D & _)). unfold from in D. congruence.
    + assert (F := U l (X l eq_refl)). destruct D as (tr & _ & (D & _) & _). unfold from in D. congruence.
    + assert (F := U l (X l eq_refl)). destruct D as (tr & _ & (D & _) & _). unfold from in D. congruence.
    + assert (F := U l (X l eq_refl)). destruct D as (tr & _ & (D & _) & _). unfold from in D. congruence.
Qed.
Lemma core_none s : Core None s -> quiet s.
Proof.
  intro C. apply (core_quiet None); [exact C| | | |].
  - destruct (pend s) as [|p l] eqn:P; [reflexivity|]. pose proof (c_pend None s C p). rewrite P in H. discriminate H. left; reflexivity.
  - intros l I. pose proof (c_lines None s C l I) as L. unfold line_ok in L. destruct (l_from l); [|reflexivity]. destruct L as (tr & ? & _). discriminate.
  - destruct (resp s) as [ls|] eqn:R; [|reflexivity]. destruct (c_resp None s C ls R) as (tr & ? & _). discriminate.
  - destruct (queue s) as [q|] eqn:Q; [|reflexivity]. destruct (c_queue None s C q Q) as (_ & _ & _ & tr & ? & _). discriminate.
Qed.
(** Quiet depends only on these members. *)
Lemma quiet_frame s s' : quiet s -> pend s' = pend s -> queue s' = queue s -> resp s' = resp s -> wire s' = wire s -> rd s' = rd s ->
  (puse s' = true \/ (exists l, rd s' = RPtr l true) -> In (pbuf s') pfxs) -> quiet s'.
Proof. intros (P & Q & R & L & PF & D) A B C E F G. unfold quiet, flight in *. rewrite A, B, C, E, F in *. auto 10. Qed.
Lemma quiet_frame_same s s' : quiet s -> pend s' = pend s -> queue s' = queue s -> resp s' = resp s -> wire s' = wire s -> rd s' = rd s -> puse s' = puse s -> pbuf s' = pbuf s -> quiet s'.
Proof. intros Q A B C D E F G. apply (quiet_frame s); auto. rewrite F, G, E. apply Q. Qed.

(** ** Reader steps *)
Lemma spontaneous_unsol s l u : spontaneous tt pfxs (l_text l) -> (u = true -> In (pbuf s) pfxs) ->
  getMsgType tt (typ s) (l_text l) (if u then Some (pbuf s) else None) = AT_UNSOLICITED.
Proof.
  intros S P. assert (X : forall q, (if u then Some (pbuf s) else None) = Some q -> In q pfxs) by (destruct u; [intros q [= <-]; auto|discriminate]).
  apply classification; [intros q E; apply prefixes, X; exact E|]. apply S. exact X.
Qed.
Lemma solicited_typ t x p : getMsgType tt t x p = AT_SOLICITED -> t <> T_NO_COMMAND.
Proof.
  rewrite getMsgType_eq. destruct (checkUrcTokenWoPrefix tt x); [discriminate|]. intros E ->. cbn in E.
  destruct (wp x); [|discriminate]. destruct p as [p|]; [|discriminate]. destruct (is_valid p); discriminate.
Qed.

(** Changing the reader's position with the same line (or none) in hand. *)
Lemma core_rd ct s s' : Core ct s -> pend s' = pend s -> queue s' = queue s -> (resp s' = resp s \/ queue s = None /\ forall ls, resp s' = Some ls -> exists tr, ct = Some tr /\ forall x, In x ls -> from tr x) ->
  (exists a, flight s = a ++ flight s') -> rd_ok ct s' -> (puse s' = true -> puse s = true) -> pbuf s' = pbuf s -> (forall l, rd s' = RPtr l true -> puse s = true) -> Core ct s'.
Proof.
  intros C P Q R (a & F) D U B X. split.
  - rewrite P. apply (c_pend ct s C).
  - intros l I. apply (c_lines ct s C). rewrite F. apply in_or_app. auto.
  - intros a' l b E H. rewrite P. apply (c_last ct s C (a ++ a') l b); [rewrite F, E, app_assoc; reflexivity|exact H].
  - intros q E. rewrite Q in E. destruct (c_queue ct s C q E) as (A1 & A2 & A3 & A4). rewrite P. split; [exact A1|]. split.
    + intros l I. apply A2. rewrite F. apply in_or_app. auto.
    + split; [|exact A4]. destruct R as [->|[R _]]; [exact A3|congruence].
  - intros ls E. destruct R as [R|[_ R]]; [apply (c_resp ct s C); congruence|auto].
  - exact D.
  - intro Y. rewrite B. apply (c_pfx ct s C). destruct Y as [Y|(l & Y)]; left; [auto|eapply X; exact Y].
Qed.
Lemma no_queue ct s l : Core ct s -> reader_line (rd s) = Some l -> l_from l <> None -> queue s = None.
Proof.
  intros C E F. destruct (queue s) as [q|] eqn:Q; [|reflexivity]. destruct (c_queue ct s C q Q) as (_ & U & _). elim F. apply U. apply in_flight_rd. exact E.
Qed.
Lemma tail_flight s l s' : rd s = l -> reader_line (rd s') = reader_line l -> wire s' = wire s -> exists a, flight s = a ++ flight s'.
Proof. intros E R W. exists []. unfold flight. rewrite E, R, W. reflexivity. Qed.
Lemma drop_flight s s' : reader_line (rd s') = None -> wire s' = wire s -> exists a, flight s = a ++ flight s'.
Proof. intros R W. exists (match reader_line (rd s) with Some l => [l] | None => [] end). unfold flight. rewrite R, W. reflexivity. Qed.

Lemma reader_core s s' : Inv s -> Tidy s -> reader_step tt s = Some s' -> Core (cur s) s' /\ (forall e, In e (log s') -> entry_ok e).
Proof.
  intros V T E. pose proof (t_core s T) as C. pose proof (c_rd _ s C) as D. pose proof (t_log s T) as LG. pose proof (cur_facts s) as CF.
  assert (CF' : forall tr, cur s = Some tr -> extra s = tr_extra tr /\ table_small (tr_extra tr) /\ (typ s = tr_type tr \/ typ s = T_NO_COMMAND) /\ (forall id, cb s = Some id -> tr_tag tr = (id, false))).
  { intros tr H. apply CF; auto. apply (t_ths s T). } clear CF.
  unfold reader_step in E. unfold rd_ok in D.
  destruct (rd s) as [|l|l u|l mt|l t|l|ok ls l|ok ls l|ls l|id ls l|st l ok c|] eqn:RD; try discriminate.
  - (* RIdle *)
    destruct (wire s) as [|l w] eqn:W; [discriminate|]. injection E as <-. split; [|exact LG].
    apply (core_rd _ s _ C); try reflexivity; auto; [|discriminate]. exists []. unfold flight. cbn. rewrite RD, W. reflexivity.
  - (* RGot *)
    injection E as <-. split; [|exact LG]. apply (core_rd _ s _ C); try reflexivity; auto; [eapply tail_flight; [exact RD|reflexivity|reflexivity]|].
    cbn. intros l' [= _ U]. exact U.
  - (* RPtr *)
    injection E as <-. split; [|exact LG].
    apply (core_rd _ s _ C); try reflexivity; auto; [eapply tail_flight; [exact RD|reflexivity|reflexivity]| |discriminate].
    unfold rd_ok. cbn [rd typ set_rd]. assert (LO : line_ok (cur s) l) by (apply (c_lines _ s C); apply in_flight_rd; rewrite RD; reflexivity). unfold line_ok in LO. split.
    + intro F. rewrite F in LO. apply spontaneous_unsol; [tauto|]. intros ->. apply (c_pfx _ s C). right. exists l. exact RD.
    + intro SOL. destruct (l_from l) as [g|] eqn:F.
      * destruct LO as (tr & CT & G & _). exists tr. split; [exact CT|]. split; [unfold from; congruence|]. apply solicited_typ in SOL. destruct (CF' tr CT) as (_ & _ & [Y|Y] & _); [exact Y|contradiction].
      * rewrite spontaneous_unsol in SOL; [discriminate|tauto|]. intros ->. apply (c_pfx _ s C). right. exists l. exact RD.
  - (* RMsg *)
    destruct D as (D1 & D2). destruct mt; injection E as <-; (split; [|exact LG]).
    + apply (core_rd _ s _ C); try reflexivity; auto; [eapply tail_flight; [exact RD|reflexivity|reflexivity]| |discriminate].
      unfold rd_ok. cbn [rd typ set_rd]. destruct (D2 eq_refl) as (tr & X1 & X2 & X3). exists tr. auto.
    + apply (core_rd _ s _ C); try reflexivity; auto; [apply drop_flight; reflexivity|discriminate].
    + apply (core_rd _ s _ C); try reflexivity; auto; [eapply tail_flight; [exact RD|reflexivity|reflexivity]| |discriminate].
      unfold rd_ok. cbn [rd typ set_rd]. intro F. specialize (D1 F). discriminate.
  - (* RTyp *)
    destruct D as (tr & CT & F & TT). destruct (CF' tr CT) as (X1 & X2 & X3 & X4).
    assert (NQ : queue s = None) by (eapply no_queue; [exact C|rewrite RD; reflexivity|unfold from in F; congruence]).
    assert (LS : forall x, In x (match resp s with Some x => x | None => [] end) -> from tr x).
    { destruct (resp s) as [ls|] eqn:R; [|intros x []]. destruct (c_resp _ s C ls R) as (tr' & CT' & Z). intros x I. rewrite CT in CT'. injection CT' as <-. auto. }
    assert (LO : line_ok (cur s) l) by (apply (c_lines _ s C); apply in_flight_rd; rewrite RD; reflexivity). unfold line_ok in LO. unfold from in F. rewrite F in LO.
    destruct LO as (tr' & CT' & _ & LAST). rewrite CT in CT'. injection CT' as <-.
    unfold reader_process in E. rewrite X1 in E. set (ls := match resp s with Some x => x | None => [] end) in *.
    assert (NE : (length (map (fun _ => {| it_ptr := 0; it_raw := None |}) ls ++ [{| it_ptr := 0; it_raw := None |}]) =? length ls)%nat = false).
    { apply Nat.eqb_neq. rewrite app_length, map_length. cbn. lia. }
    assert (EQ : (length (map (fun _ : line => {| it_ptr := 0; it_raw := None |}) ls) =? length ls)%nat = true) by (apply Nat.eqb_eq, map_length).
    assert (LS2 : forall x, In x (ls ++ [l]) -> from tr x) by (intros x I; apply in_app_or in I; destruct I as [I|[<-|[]]]; auto).
    assert (STEP : forall r ls', (reader_line r = None \/ reader_line r = Some l) -> (forall x, In x ls' -> from tr x) -> (forall l', r <> RPtr l' true) -> rd_ok (cur s) (set_rd r (set_resp (Some ls') s)) ->
              Core (cur s) (set_rd r (set_resp (Some ls') s))).
    { intros r ls' HR HL HP HD. apply (core_rd _ s _ C); try reflexivity; auto.
      - right. split; [exact NQ|]. cbn. intros l0 [= <-]. exists tr. auto.
      - destruct HR as [HR|HR]; [apply drop_flight; [exact HR|reflexivity]|eapply tail_flight; [exact RD|exact HR|reflexivity]].
      - intros l' Z. elim (HP l' Z). }
    destruct (process_line_spec (tokens_now tt (tr_extra tr)) 0 (l_text l) (dummy_response ls) t (tables_with _ X2)) as [[P1 P2]|[[P1 P2]|[P1 P2]]]; rewrite P2 in E; cbn [dummy_response r_items r_status] in E.
    + rewrite EQ in E. injection E as <-. split; [|exact LG]. apply STEP; [right; reflexivity|exact LS|discriminate|].
      unfold rd_ok. cbn [rd set_rd]. exists tr. split; [exact CT|]. split; [exact F|]. split; [apply LAST; left; exact P1|]. split; [|exact LS]. left. split; [reflexivity|]. left. exact P1.
    + rewrite EQ in E. injection E as <-. split; [|exact LG]. apply STEP; [right; reflexivity|exact LS|discriminate|].
      unfold rd_ok. cbn [rd set_rd]. exists tr. split; [exact CT|]. split; [exact F|]. split; [apply LAST; right; left; exact P1|]. split; [|exact LS]. right. split; [reflexivity|exact P1].
    + assert (UN : forall ls', (forall x, In x ls' -> from tr x) -> Core (cur s) (set_rd (RUndef l) (set_resp (Some ls') s))).
      { intros ls' H'. apply STEP; [right; reflexivity|exact H'|discriminate|]. unfold rd_ok. cbn [rd set_rd]. congruence. }
      assert (ID : forall ls', (forall x, In x ls' -> from tr x) -> Core (cur s) (set_rd RIdle (set_resp (Some ls') s))).
      { intros ls' H'. apply STEP; [left; reflexivity|exact H'|discriminate|exact I]. }
      unfold processIntermediateResponse, saveATData, saveData, dummy_response in E. cbn [r_items r_status] in E.
      destruct t; cbn [r_items r_status] in E; rewrite ?NE, ?EQ in E.
      all: try (injection E as <-; split; [|exact LG]; first [apply UN; exact LS|apply ID; exact LS2]).
      all: try (destruct ls as [|y ls]; cbn in E; [injection E as <-; split; [|exact LG]; apply ID; exact LS2|rewrite Nat.eqb_refl in E; injection E as <-; split; [|exact LG]; apply UN; exact LS]).
      all: try (destruct ls as [|y ls]; cbn in E; [injection E as <-; split; [|exact LG]; apply ID; exact LS2|cbn in EQ; rewrite EQ in E; injection E as <-; split; [|exact LG]; apply UN; exact LS]).
      all: injection E as <-; split; [|exact LG]; apply STEP; [right; reflexivity|exact LS2|discriminate|];
           unfold rd_ok; cbn [rd set_rd]; exists tr; split; [exact CT|]; split; [exact F|]; split; [apply LAST; right; right; rewrite <- TT; unfold no_code_type; auto|]; split; [|exact LS2];
           left; split; [reflexivity|]; right; split; [exact P1|]; rewrite <- TT; unfold no_code_type; auto.
  - (* RDone *)
    injection E as <-. split; [|exact LG]. apply (core_rd _ s _ C); try reflexivity; auto; [eapply tail_flight; [exact RD|reflexivity|reflexivity]| |]; discriminate.
  - (* RHandle *)
    destruct D as (tr & CT & DN). destruct ok; [destruct (cb s) as [id|] eqn:CB|]; injection E as <-; (split; [|exact LG]); (apply (core_rd _ s _ C); try reflexivity; auto; [eapply tail_flight; [exact RD|reflexivity|reflexivity]| |discriminate]); unfold rd_ok; cbn [rd set_rd]; exists tr; (split; [exact CT|]).
    + split; [exact DN|]. cbn. congruence.
    + destruct DN as (A1 & A2 & A3 & A4). repeat split; auto. intros x [].
    + destruct DN as (A1 & A2 & A3 & A4). repeat split; auto. intros x [].
  - (* RCall *)
    destruct D as (tr & CT & DN & NB). destruct (cb s) as [id|] eqn:CB; [|congruence]. injection E as <-. destruct (CF' tr CT) as (_ & _ & _ & X4). specialize (X4 id eq_refl).
    split.
    + apply (core_rd _ s _ C); try reflexivity; auto; [eapply tail_flight; [exact RD|reflexivity|reflexivity]| |discriminate]. unfold rd_ok. cbn. exists tr. auto.
    + cbn. intros e [<-|I]; [|auto]. cbn. destruct DN as (A1 & A2 & A3 & A4). split; [|exact A2]. rewrite <- X4. intros x [<-|I]; [exact A1|apply A4; exact I].
  - (* RPost *)
    destruct D as (tr & CT & (A1 & A2 & A3 & A4) & ST).
    assert (NQ : queue s = None) by (eapply no_queue; [exact C|rewrite RD; reflexivity|unfold from in A1; congruence]). rewrite NQ in E. injection E as <-. split; [|exact LG].
    assert (FL : flight s = [] ++ l :: wire s) by (unfold flight; rewrite RD; reflexivity). destruct (c_last _ s C _ _ _ FL A2) as (PE & UW).
    split.
    + cbn. rewrite PE. intros p [].
    + intros x I. apply (c_lines _ s C). rewrite FL. right. exact I.
    + cbn. intros a x b F H. unfold flight in F. cbn in F. assert (I : In x (wire s)) by (rewrite F; apply in_or_app; right; left; reflexivity).
      assert (LX : line_ok (cur s) x) by (apply (c_lines _ s C); rewrite FL; right; exact I). unfold line_ok in LX. rewrite (UW x I) in LX. destruct LX. congruence.
    + cbn. intros q [= <-]. split; [exact PE|]. split; [exact UW|]. split; [reflexivity|]. exists tr. split; [exact CT|]. repeat split; auto.
    + cbn. discriminate.
    + exact I.
    + intros [U|(l' & U)]; [|discriminate]. apply (c_pfx _ s C). left. exact U.
Qed.

(** ** Thread steps *)
Lemma cur_at s i p : Inv s -> nth_error (ths s) i = Some p -> holding p = true -> cur s = cur_of p.
Proof. intros V E H. unfold cur. rewrite (inv_excl s V i p E H), E. reflexivity. Qed.
Lemma tidy_move s s' i p p' : Inv s -> Tidy s -> nth_error (ths s) i = Some p -> holding p = true -> ths s' = set_nth (ths s) i p' -> mtx s' = mtx s ->
  log s' = log s -> thread_ok p' -> Core (cur_of p') s' -> Tidy s'.
Proof.
  intros V T E H TS M L O C. split.
  - unfold cur. rewrite M, (inv_excl s V i p E H), TS, (nth_set_eq _ _ _ _ E). exact C.
  - intros j q EJ. rewrite TS in EJ. destruct (Nat.eq_dec i j) as [<-|NE]; [rewrite (nth_set_eq _ _ _ _ E) in EJ; injection EJ as <-; exact O|]. rewrite nth_set_neq in EJ by exact NE. apply (t_ths s T j q EJ).
  - rewrite L. apply (t_log s T).
Qed.
Lemma quiet_at s i p : Inv s -> Tidy s -> nth_error (ths s) i = Some p -> holding p = true -> cur_of p = None -> quiet s.
Proof. intros V T E H C. apply core_none. rewrite <- C, <- (cur_at s i p V E H). apply (t_core s T). Qed.

Lemma thread_tidy s i s' : Inv s -> Tidy s -> thread_step i s = Some s' -> Tidy s'.
Proof.
  intros V T E. unfold thread_step in E. destruct (nth_error (ths s) i) as [p|] eqn:EP; [|discriminate].
  pose proof (t_ths s T i p EP) as (PR & CA).
  assert (QU : holding p = true -> cur_of p = None -> quiet s) by (intros; eapply quiet_at; eauto).
  destruct p as [|c|c|c|c|c|c|c st o|c st o|c|c|c|c st o|c st o]; try discriminate; cbn [holding cur_of] in QU; specialize (PR c eq_refl).
  - (* Called *)
    destruct (mtx s) eqn:M; [discriminate|]. injection E as <-. assert (Q : quiet s) by (apply core_none; pose proof (t_core s T) as C; unfold cur in C; rewrite M in C; exact C). split.
    + apply quiet_core. apply (quiet_frame_same s); [exact Q|reflexivity..].
    + intros j q EJ. cbn in EJ. destruct (Nat.eq_dec i j) as [<-|NE]; [rewrite (nth_set_eq _ _ _ _ EP) in EJ; injection EJ as <-; split; [intros c' [= <-]; exact PR|exact I]|]. rewrite nth_set_neq in EJ by exact NE. apply (t_ths s T j q EJ).
    + apply (t_log s T).
  - (* Hook *)
    injection E as <-. specialize (QU eq_refl eq_refl).
    eapply (tidy_move s _ i _ (Setup c) V T EP eq_refl); [destruct (rq_kind (c_req c)); reflexivity|destruct (rq_kind (c_req c)); reflexivity|destruct (rq_kind (c_req c)); reflexivity|split; [intros c' [= <-]; exact PR|exact I]|].
    apply quiet_core. destruct (rq_kind (c_req c)); (apply (quiet_frame_same s); [exact QU|reflexivity..]).
  - (* Setup *)
    specialize (QU eq_refl eq_refl). destruct (rq_cmd (c_req c)) eqn:RC; injection E as <-.
    + eapply (tidy_move s _ i _ (SendA c) V T EP eq_refl); [reflexivity|reflexivity|reflexivity|split; [intros c' [= <-]; exact PR|exact I]|]. apply quiet_core. apply (quiet_frame_same s); [exact QU|reflexivity..].
    + eapply (tidy_move s _ i _ _ V T EP eq_refl); [reflexivity|reflexivity|reflexivity|split; [intros c' [= <-]; exact PR|cbn; auto]|]. apply quiet_core. apply (quiet_frame_same s); [exact QU|reflexivity..].
  - (* SendA *)
    specialize (QU eq_refl eq_refl). destruct (rq_cmd (c_req c)) as [cmd|] eqn:RC; [|discriminate]. destruct (send_check _ _ _) as [st|e] eqn:SC; injection E as <-.
    + eapply (tidy_move s _ i _ _ V T EP eq_refl); [reflexivity|reflexivity|reflexivity| |].
      * split; [intros c' [= <-]; exact PR|]. cbn. unfold send_check in SC. destruct (200 <? N.of_nat (length cmd))%N; [injection SC as <-; auto|]. destruct (rq_type (c_req c)), (rq_prefix (c_req c)); try discriminate; injection SC as <-; auto.
      * apply quiet_core. apply (quiet_frame_same s); [exact QU|reflexivity..].
    + eapply (tidy_move s _ i _ (SendB c) V T EP eq_refl); [destruct e; reflexivity|destruct e; reflexivity|destruct e; reflexivity|split; [intros c' [= <-]; exact PR|exact I]|].
      apply quiet_core. assert (PF : puse s = true \/ (exists l, rd s = RPtr l true) -> In (pbuf s) pfxs) by apply QU. revert QU. destruct e as [q|]; intro QU; (apply (quiet_frame s _ QU); try reflexivity).
      * cbn. intros _. apply (proj1 PR). unfold send_check in SC. destruct (200 <? N.of_nat (length cmd))%N; [discriminate|]. destruct (rq_type (c_req c)), (rq_prefix (c_req c)); try discriminate; injection SC as <-; reflexivity.
      * cbn. intros [X|X]; [discriminate|]. apply PF. right. exact X.
  - (* SendB *)
    specialize (QU eq_refl eq_refl). injection E as <-. pose proof (quiet_core (Some (cmd_tr c)) s QU) as C. destruct QU as (P & Q & R & L & PF & D).
    eapply (tidy_move s _ i _ (Wait c) V T EP eq_refl); [reflexivity|reflexivity|reflexivity|split; [intros c' [= <-]; exact PR|exact I]|].
    split; cbn.
    + rewrite P. intros p [<-|[]]. reflexivity.
    + apply (c_lines _ s C).
    + intros a l b F H. assert (I0 : In l (flight s)) by (change (flight s = a ++ l :: b) in F; rewrite F; apply in_or_app; right; left; reflexivity). specialize (L l I0). unfold line_ok in L. destruct (l_from l); [destruct L as (tr & ? & _); discriminate|]. destruct L; congruence.
    + intros q Y. congruence.
    + apply (c_resp _ s C).
    + pose proof (c_rd _ s C) as RO. exact RO.
    + exact PF.
  - (* Wait *)
    destruct (queue s) as [q|] eqn:Q; [|discriminate]. injection E as <-. pose proof (t_core s T) as C. rewrite (cur_at s i _ V EP eq_refl) in C. cbn [cur_of] in C.
    destruct (c_queue _ s C q Q) as (P & U & R & tr & [= <-] & IT).
    eapply (tidy_move s _ i _ _ V T EP eq_refl); [reflexivity|reflexivity|reflexivity|split; [intros c' [= <-]; exact PR|cbn; auto]|].
    apply quiet_core. apply (core_quiet (Some (cmd_tr c))); try reflexivity; try assumption.
    split; cbn; try apply C; try discriminate.
  - (* Reset *)
    specialize (QU eq_refl eq_refl). injection E as <-.
    eapply (tidy_move s _ i _ _ V T EP eq_refl); [reflexivity|reflexivity|reflexivity|split; [intros c' [= <-]; exact PR|exact CA]|]. apply quiet_core. apply (quiet_frame_same s); [exact QU|reflexivity..].
  - (* Unhook *)
    specialize (QU eq_refl eq_refl). injection E as <-.
    eapply (tidy_move s _ i _ (after_command c st o) V T EP eq_refl); [destruct (rq_kind (c_req c)); reflexivity|destruct (rq_kind (c_req c)); reflexivity|destruct (rq_kind (c_req c)); reflexivity| |].
    + unfold after_command. destruct (data_of _), st; (split; [intros c' [= <-]; exact PR|first [exact I|exact CA]]).
    + apply quiet_core. destruct (rq_kind (c_req c)); (apply (quiet_frame_same s); [exact QU|reflexivity..]).
  - (* Data1 *)
    specialize (QU eq_refl eq_refl). destruct (data_of _) as [d|]; [|discriminate]. destruct (d_data d); injection E as <-.
    + eapply (tidy_move s _ i _ _ V T EP eq_refl); [reflexivity|reflexivity|reflexivity|split; [intros c' [= <-]; exact PR|exact I]|]. apply quiet_core. apply (quiet_frame_same s); [exact QU|reflexivity..].
    + eapply (tidy_move s _ i _ _ V T EP eq_refl); [reflexivity|reflexivity|reflexivity|split; [intros c' [= <-]; exact PR|cbn; auto]|]. apply quiet_core. apply (quiet_frame_same s); [exact QU|reflexivity..].
  - (* Data2 *)
    specialize (QU eq_refl eq_refl). injection E as <-. pose proof (quiet_core (Some (data_tr c)) s QU) as C. destruct QU as (P & Q & R & L & PF & D).
    eapply (tidy_move s _ i _ (DataWait c) V T EP eq_refl); [reflexivity|reflexivity|reflexivity|split; [intros c' [= <-]; exact PR|exact I]|].
    split; cbn.
    + rewrite P. intros p [<-|[]]. reflexivity.
    + apply (c_lines _ s C).
    + intros a l b F H. assert (I0 : In l (flight s)) by (change (flight s = a ++ l :: b) in F; rewrite F; apply in_or_app; right; left; reflexivity). specialize (L l I0). unfold line_ok in L. destruct (l_from l); [destruct L as (tr & ? & _); discriminate|]. destruct L; congruence.
    + intros q Y. congruence.
    + apply (c_resp _ s C).
    + pose proof (c_rd _ s C) as RO. exact RO.
    + exact PF.
  - (* DataWait *)
    destruct (queue s) as [q|] eqn:Q; [|discriminate]. injection E as <-. pose proof (t_core s T) as C. rewrite (cur_at s i _ V EP eq_refl) in C. cbn [cur_of] in C.
    destruct (c_queue _ s C q Q) as (P & U & R & tr & [= <-] & IT).
    eapply (tidy_move s _ i _ _ V T EP eq_refl); [reflexivity|reflexivity|reflexivity|split; [intros c' [= <-]; exact PR|cbn; auto]|].
    apply quiet_core. apply (core_quiet (Some (data_tr c))); try reflexivity; try assumption.
    split; cbn; try apply C; try discriminate.
  - (* DataReset *)
    specialize (QU eq_refl eq_refl). injection E as <-.
    eapply (tidy_move s _ i _ _ V T EP eq_refl); [reflexivity|reflexivity|reflexivity|split; [intros c' [= <-]; exact PR|exact CA]|]. apply quiet_core. apply (quiet_frame_same s); [exact QU|reflexivity..].
  - (* Release *)
    specialize (QU eq_refl eq_refl). injection E as <-. split.
    + apply quiet_core. apply (quiet_frame_same s); [exact QU|reflexivity..].
    + intros j q EJ. cbn in EJ. destruct (Nat.eq_dec i j) as [<-|NE]; [rewrite (nth_set_eq _ _ _ _ EP) in EJ; injection EJ as <-; split; [intros c' Y; discriminate|exact I]|]. rewrite nth_set_neq in EJ by exact NE. apply (t_ths s T j q EJ).
    + cbn. intros e [<-|I0]; [exact CA|apply (t_log s T); exact I0].
Qed.

Lemma residue_quiet ct s g : Core ct s -> (forall tr, ct = Some tr -> tr_tag tr = g) -> no_residue s g -> quiet s.
Proof.
  intros C G (N1 & N2 & N3 & N4 & N5). apply (core_quiet ct); auto.
  - destruct (pend s) as [|p l] eqn:P; [reflexivity|]. assert (I0 : In p (pend s)) by (rewrite P; left; reflexivity). pose proof (c_pend _ s C p I0) as CT. exfalso. apply (N1 p); [left; reflexivity|auto].
  - intros l I0. pose proof (c_lines _ s C l I0) as L. unfold line_ok in L. destruct (l_from l) as [g'|] eqn:F; [|reflexivity]. destruct L as (tr & CT & GG & _). specialize (G tr CT). exfalso.
    unfold flight in I0. apply in_app_or in I0. destruct I0 as [I0|I0]; [|apply (N2 l I0); congruence]. destruct (reader_line (rd s)) as [l'|] eqn:RL; [|destruct I0]. destruct I0 as [<-|[]]. apply (N3 l' eq_refl). congruence.
Qed.

Lemma tag_eqb_refl g : tag_eqb g g = true.
Proof. unfold tag_eqb. rewrite Nat.eqb_refl, Bool.eqb_reflx. reflexivity. Qed.
Lemma drop_in g p tr : In tr (drop_tag g p) -> In tr p.
Proof. unfold drop_tag. intro I0. apply filter_In in I0. tauto. Qed.
Lemma drop_nil p tr : (forall x, In x p -> x = tr) -> drop_tag (tr_tag tr) p = [].
Proof.
  intro H. unfold drop_tag. destruct (filter _ p) as [|x l] eqn:F; [reflexivity|]. assert (I0 : In x (x :: l)) by (left; reflexivity). rewrite <- F in I0. apply filter_In in I0.
  destruct I0 as [I1 I2]. rewrite (H x I1), tag_eqb_refl in I2. discriminate.
Qed.

Lemma emit_core ct s l : Core ct s -> honest tt pfxs s (LEmit l) ->
  Core ct (set_wire (wire s ++ [l]) (set_pend (match l_from l with Some g => if l_last l then drop_tag g (pend s) else pend s | None => pend s end) s)).
Proof.
  intros C H. cbn [honest] in H. set (p' := match l_from l with Some g => if l_last l then drop_tag g (pend s) else pend s | None => pend s end).
  set (s' := set_wire (wire s ++ [l]) (set_pend p' s)).
  assert (PI : forall x, In x p' -> In x (pend s)) by (unfold p'; destruct (l_from l); [destruct (l_last l); [apply drop_in|auto]|auto]).
  assert (PN : pend s = [] -> p' = []) by (intro P; destruct p' as [|x q]; [reflexivity|]; specialize (PI x (or_introl eq_refl)); rewrite P in PI; destruct PI).
  assert (FL : flight s' = flight s ++ [l]) by (unfold flight; cbn; rewrite app_assoc; reflexivity).
  assert (LO : line_ok ct l).
  { unfold line_ok. destruct (l_from l) as [g|]; [|exact H]. destruct H as (tr & I0 & G & K). exists tr. split; [apply (c_pend _ s C); exact I0|]. split; [exact G|exact K]. }
  assert (UT : pend s = [] -> l_from l = None /\ l_last l = false).
  { intro P. destruct (l_from l) as [g|]; [destruct H as (tr & I0 & _); rewrite P in I0; destruct I0|]. tauto. }
  split.
  - intros x I0. apply (c_pend _ s C). apply PI. exact I0.
  - intros x I0. rewrite FL in I0. apply in_app_or in I0. destruct I0 as [I0|[<-|[]]]; [apply (c_lines _ s C x I0)|exact LO].
  - intros a x b F LX. rewrite FL in F. destruct b as [|y b] using rev_ind.
    + apply app_inj_tail in F. destruct F as [_ <-]. split; [|intros y []]. change (p' = []). unfold p'. rewrite LX. destruct (l_from l) as [g|] eqn:LF.
      * destruct H as (tr & I0 & <- & _). apply drop_nil. intros y IY. pose proof (c_pend _ s C y IY). pose proof (c_pend _ s C tr I0). congruence.
      * destruct H. congruence.
    + rewrite app_comm_cons, app_assoc in F. apply app_inj_tail in F. destruct F as [F ->]. destruct (c_last _ s C a x b F LX) as (P & U). split; [apply PN; exact P|].
      intros z I0. apply in_app_or in I0. destruct I0 as [I0|[<-|[]]]; [auto|]. apply UT. exact P.
  - intros q Q. destruct (c_queue _ s C q Q) as (P & U & R & X). split; [apply PN; exact P|]. split; [|split; [exact R|exact X]]. intros z I0. rewrite FL in I0. apply in_app_or in I0. destruct I0 as [I0|[<-|[]]]; [apply U; exact I0|apply UT; exact P].
  - apply (c_resp _ s C).
  - pose proof (c_rd _ s C) as D. exact D.
  - apply (c_pfx _ s C).
Qed.

Lemma exec_tidy lb s s' : Inv s -> Tidy s -> tidy_runs tt pfxs s lb -> exec tt lb s = Some s' -> Tidy s'.
Proof.
  intros V T (HON & PROP & TO) E. destruct lb as [i r|i|i|i|i| |st|a k|l|g]; cbn [exec] in E.
  - (* LCall *)
    destruct (nth_error (ths s) i) as [[]|] eqn:EP; try discriminate. cbn [proper_calls] in PROP.
    assert (X : Tidy (goto i (Called {| c_id := next s; c_req := r |}) (set_next (S (next s)) s))).
    { split.
      - assert (CU : cur (goto i (Called {| c_id := next s; c_req := r |}) (set_next (S (next s)) s)) = cur s).
        { unfold cur. cbn. destruct (mtx s) as [j|] eqn:M; [|reflexivity]. rewrite nth_set_neq; [reflexivity|]. intros <-. destruct (inv_held s V i M) as (p & EQ & HP & _). rewrite EP in EQ. injection EQ as <-. discriminate. }
        rewrite CU. pose proof (t_core s T) as C. split; apply C.
      - intros j q EJ. cbn in EJ. destruct (Nat.eq_dec i j) as [<-|NE]; [rewrite (nth_set_eq _ _ _ _ EP) in EJ; injection EJ as <-; split; [intros c' [= <-]; exact PROP|exact I]|]. rewrite nth_set_neq in EJ by exact NE. apply (t_ths s T j q EJ).
      - apply (t_log s T). }
    destruct (rq_kind r) as [|[t|]| | |]; injection E as <-; try exact X.
    split; [pose proof (t_core s T) as C; split; apply C|apply (t_ths s T)|]. cbn. intros e [<-|I0]; [cbn; auto|apply (t_log s T); exact I0].
  - exact (thread_tidy s i s' V T E).
  - (* LTimeout *)
    destruct (nth_error (ths s) i) as [p|] eqn:EP; try discriminate. pose proof (t_ths s T i p EP) as (PR & _). cbn [tidy_timeouts] in TO. destruct TO as (TO1 & TO2). rewrite EP in TO1, TO2.
    pose proof (t_core s T) as C. destruct p; try discriminate; injection E as <-.
    + rewrite (cur_at s i _ V EP eq_refl) in C. pose proof (residue_quiet _ s (c_id c, false) C (fun tr E => eq_trans (f_equal tr_tag (eq_sym (f_equal (fun o => match o with Some x => x | None => tr end) E))) eq_refl) (TO1 c eq_refl)) as Q.
      eapply (tidy_move s _ i _ _ V T EP eq_refl); [reflexivity|reflexivity|reflexivity|split; [intros c' [= <-]; apply (PR c eq_refl)|cbn; auto]|]. apply quiet_core. apply (quiet_frame_same s); [exact Q|reflexivity..].
    + rewrite (cur_at s i _ V EP eq_refl) in C. pose proof (residue_quiet _ s (c_id c, true) C (fun tr E => eq_trans (f_equal tr_tag (eq_sym (f_equal (fun o => match o with Some x => x | None => tr end) E))) eq_refl) (TO2 c eq_refl)) as Q.
      eapply (tidy_move s _ i _ _ V T EP eq_refl); [reflexivity|reflexivity|reflexivity|split; [intros c' [= <-]; apply (PR c eq_refl)|cbn; auto]|]. apply quiet_core. apply (quiet_frame_same s); [exact Q|reflexivity..].
  - (* LSendLost *)
    destruct (nth_error (ths s) i) as [p|] eqn:EP; try discriminate. pose proof (t_ths s T i p EP) as (PR & _). destruct p; try discriminate; injection E as <-.
    pose proof (quiet_at s i _ V T EP eq_refl eq_refl) as Q.
    eapply (tidy_move s _ i _ _ V T EP eq_refl); [reflexivity|reflexivity|reflexivity|split; [intros c' [= <-]; apply (PR c eq_refl)|exact I]|]. apply quiet_core. apply (quiet_frame_same s); [exact Q|reflexivity..].
  - (* LDataShort *)
    destruct (nth_error (ths s) i) as [p|] eqn:EP; try discriminate. pose proof (t_ths s T i p EP) as (PR & _). destruct p; try discriminate; injection E as <-.
    pose proof (quiet_at s i _ V T EP eq_refl eq_refl) as Q.
    eapply (tidy_move s _ i _ _ V T EP eq_refl); [reflexivity|reflexivity|reflexivity|split; [intros c' [= <-]; apply (PR c eq_refl)|cbn; auto]|]. apply quiet_core. apply (quiet_frame_same s); [exact Q|reflexivity..].
  - (* LReader *)
    destruct (reader_frame tt s s' E) as (TS & M & _). destruct (reader_core s s' V T E) as (C & LG). split; [|rewrite TS; apply (t_ths s T)|exact LG].
    unfold cur. rewrite M, TS. exact C.
  - (* LCbReturns *)
    destruct (rd s) as [| | | | | | | | |id ls l| |] eqn:RD; try discriminate. injection E as <-. pose proof (t_core s T) as C. split; [|apply (t_ths s T)|apply (t_log s T)].
    pose proof (c_rd _ s C) as D. unfold rd_ok in D. rewrite RD in D. destruct D as (tr & CT & (A1 & A2 & A3 & A4) & TG).
    apply (core_rd _ s _ C); try reflexivity; auto; [eapply tail_flight; [exact RD|reflexivity|reflexivity]| |discriminate]. unfold rd_ok. cbn. exists tr. split; [exact CT|]. split; [|reflexivity]. repeat split; auto. intros x [].
  - (* LUndef *)
    destruct (rd s) as [| | | | |l| | | | | |] eqn:RD; try discriminate. pose proof (t_core s T) as C. destruct a; injection E as <-; (split; [|apply (t_ths s T)|apply (t_log s T)]).
    + apply (core_rd _ s _ C); try reflexivity; auto; [apply drop_flight; reflexivity|discriminate].
    + assert (NQ : queue s = None). { eapply no_queue; [exact C|rewrite RD; reflexivity|]. pose proof (c_rd _ s C) as D. unfold rd_ok in D. rewrite RD in D. exact D. }
      apply (core_rd _ s _ C); try reflexivity; auto; [right; split; [exact NQ|discriminate]| |discriminate|discriminate].
      exists (l :: firstn k (wire s)). unfold flight. cbn. rewrite RD. cbn. f_equal. symmetry. apply firstn_skipn.
  - (* LEmit *)
    injection E as <-. split; [|apply (t_ths s T)|apply (t_log s T)]. apply emit_core; [apply (t_core s T)|exact HON].
  - (* LGiveUp *)
    injection E as <-. pose proof (t_core s T) as C. split; [|apply (t_ths s T)|apply (t_log s T)].
    assert (PN : pend s = [] -> drop_tag g (pend s) = []) by (intros ->; reflexivity).
    split.
    + cbn. intros p I0. apply drop_in in I0. apply (c_pend _ s C). exact I0.
    + apply (c_lines _ s C).
    + intros a l b F L. destruct (c_last _ s C a l b F L). split; [apply PN|]; assumption.
    + intros q Q. destruct (c_queue _ s C q Q) as (P & X). split; [apply PN; exact P|exact X].
    + apply (c_resp _ s C).
    + pose proof (c_rd _ s C) as D. exact D.
    + apply (c_pfx _ s C).
Qed.

Lemma init_tidy n : Tidy (init n).
Proof.
  split.
  - apply quiet_core. repeat split; cbn; [intros l []|]. intros [|(l & ?)]; discriminate.
  - intros i p E. cbn in E. apply nth_repeat in E. subst p. split; [intros c Q; discriminate|exact I].
  - intros e [].
Qed.
Lemma run_tidy n lbs s : run tt (tidy_runs tt pfxs) (init n) lbs s -> Inv s /\ Tidy s.
Proof.
  intro R. remember (init n) as s0 eqn:E0. induction R as [|s1 lbs s2 lb s3 R IH OK E]; [subst; split; [apply init_inv|apply init_tidy]|].
  destruct (IH E0) as (V & T). split; [eapply exec_inv; eassumption|eapply exec_tidy; eassumption].
Qed.
End Tidy.

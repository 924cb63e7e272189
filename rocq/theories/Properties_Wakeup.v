(** Property C93: no received byte is left waiting (model: Wakeup.v over Pktio.v). *)
From Coq Require Import String List NArith ZArith Bool Arith Lia.
From Verif Require Import Bytes AtCore SpecAt Status Pktio SpecPktio SpecStream PktioSafe G3pp Wire SpecWire SpecTimed PktioTimed Wakeup SpecWakeup WakeupProofs Properties_Pktio.
Import ListNotations.
Local Open Scope string_scope.
Local Open Scope list_scope.

(** ** C93 *)
(** The receive callback tells the comm interface the truth: it reports success (with or without a thread to switch to) exactly if the
    event was recorded; otherwise it leaves the events alone. *)
Theorem c93_callback_reports_truthfully : forall event ok woken r event', PktRxCallBack event ok woken = (r, event') ->
  ((r = COMM_SUCCESS \/ r = COMM_BUSY) <-> event <> None /\ ok = true) /\
  (r = COMM_SUCCESS -> woken = true) /\
  (r = COMM_SUCCESS \/ r = COMM_BUSY -> event' = Some true) /\
  (r <> COMM_SUCCESS -> r <> COMM_BUSY -> event' = event).
Proof.
  intros [b|] [|] [|] r e E; cbn in E; inversion E; subst; (split; [split; [intros [Q|Q]; try discriminate; (split; [discriminate|reflexivity])|intros [Q1 Q2]; try discriminate; try congruence; auto]|]);
  (split; [intro; try discriminate; reflexivity|]); (split; [intros [Q|Q]; try discriminate; reflexivity|]); intros; try congruence; reflexivity.
Qed.
Print Assumptions c93_callback_reports_truthfully.

(** In every execution, whatever the interleaving and whatever the reader does with the bytes, what the reads deliver followed by what
    waits in the comm interface is what the modem sent, in order. *)
Theorem c93_bytes_are_read_in_order : forall cap fuel env ok s, reach cap fuel env ok s -> arrived s = concat (chunks s) ++ fifo s.
Proof. exact reach_conserved. Qed.
Print Assumptions c93_bytes_are_read_in_order.

(** No wake-up is lost: when everything is at rest, every byte the modem sent has been read.  Excluded: reads that find the buffer full
    (see below), and interrupts whose event the platform refuses. *)
Definition usual (cap : nat) (s : state) (l : label) : Prop := signals_arrive s l /\ ~ full_read cap s l.
Theorem c93_nothing_waits_at_rest_partial : forall cap fuel env s, reach cap fuel env (usual cap) s -> at_rest s -> fifo s = [] /\ concat (chunks s) = arrived s.
Proof.
  intros cap fuel env s R (O & B & A & W). pose proof (reach_awake cap fuel env (usual cap) s (fun _ _ H => H) R) as AW. pose proof (reach_conserved _ _ _ _ _ R) as C. unfold conserved in C.
  assert (F : fifo s = []).
  { destruct (fifo s) as [|c f] eqn:E; [reflexivity|]. unfold awake in AW. rewrite E in AW. destruct (AW ltac:(discriminate)) as [Q|[Q|[Q|[Q _]]]]; congruence. }
  split; [exact F|]. rewrite C, F, app_nil_r. reflexivity.
Qed.
Print Assumptions c93_nothing_waits_at_rest_partial.

(** With text (C16): at rest, every line the modem has sent has been dispatched, one by one and in order, up to the first refused one. *)
Theorem c93_all_lines_dispatched_at_rest_partial : forall cap fuel env s, text_env env -> reach cap fuel env (usual cap) s -> at_rest s ->
  exists cs ls, concat cs = arrived s /\ received cap env 0 cs (clock s) (hist s) ls.
Proof.
  intros cap fuel env s TE R AR. destruct (c93_nothing_waits_at_rest_partial cap fuel env s R AR) as [_ C].
  destruct (reach_execution cap fuel env (usual cap) s) as (x & EX & _); [|exact R|].
  - intros s0 l [_ NF] [F _]. exact (NF F).
  - destruct (text_received cap env TE fuel _ _ _ _ _ EX) as (ls & RV). exists (chunks s), ls. split; [exact C|exact RV].
Qed.
Print Assumptions c93_all_lines_dispatched_at_rest_partial.

(** The reader can always do its next read (the conditions of C18 are on the callbacks of the port). *)
Theorem c93_a_read_is_always_possible : forall cap fuel env ok s n, (cap < fuel)%nat -> (forall t h, view_contract (env t h) /\ announcements_expected (env t h)) ->
  reach cap fuel env ok s -> reader s = Reading -> exists s', step cap fuel env (LRead n) s = Some s'.
Proof.
  intros cap fuel env ok s n F HE R RD.
  assert (WF : reader s <> Stopped -> wf cap (rxs s)).
  { clear RD. induction R as [|s l s' R IH O E]; [intros _; apply wf_rx0|]. destruct l as [bs|ok' w| | |k|]; cbn [step] in E.
    - destruct bs; [discriminate|]. inversion E; subst. exact IH.
    - cbn [PktRxCallBack] in E. destruct ok'; cbn [snd] in E; inversion E; subst; exact IH.
    - inversion E; subst; exact IH.
    - destruct (reader s); try discriminate. destruct (bit_abort s); [inversion E; subst; cbn; congruence|]. destruct (bit_rx s); [inversion E; subst; intros _; apply IH; discriminate|discriminate].
    - destruct (reader s); try discriminate. destruct (event_safe cap env fuel (clock s) (hist s) (rxs s) (recv_of (fifo s) k) HE (IH ltac:(discriminate)) (recv_of_contract _ _) F) as (k0 & t' & h' & x' & EV & W').
      rewrite EV in E. inversion E; subst. intros _. exact W'.
    - destruct (reader s); try discriminate. inversion E; subst. intros _. apply IH. discriminate. }
  specialize (WF ltac:(congruence)). destruct (event_safe cap env fuel (clock s) (hist s) (rxs s) (recv_of (fifo s) n) HE WF (recv_of_contract _ _) F) as (k0 & t' & h' & x' & EV & _).
  cbn [step]. rewrite RD, EV. eauto.
Qed.
Print Assumptions c93_a_read_is_always_possible.

(** Everything that has arrived is eventually read, in order, under every fair schedule without a shutdown. *)
Theorem c93_every_byte_is_eventually_read_partial : forall cap fuel env st act, infinite cap fuel env st act -> callbacks_come st act -> reader_runs st act ->
  (forall k, act k <> Some LAbort) -> (forall k l, act k = Some l -> usual cap (st k) l) ->
  forall i, exists j more, (i <= j)%nat /\ concat (chunks (st j)) = arrived (st i) ++ more.
Proof.
  intros cap fuel env sts act INF CB RR NA US i.
  destruct (read_in_order cap fuel env sts act INF NA i) as (j & IJ & more & E); [|exists j, more; auto].
  eapply all_read; eauto; intros k l E; apply (US k l E).
Qed.
Print Assumptions c93_every_byte_is_eventually_read_partial.
(** If the modem never falls silent, a full buffer only delays: no read is excluded. *)
Theorem c93_every_byte_is_read_while_the_modem_talks : forall cap fuel env st act, (0 < cap)%nat -> infinite cap fuel env st act -> callbacks_come st act -> reader_runs st act ->
  (forall k, act k <> Some LAbort) -> (forall k, exists j bs, (k <= j)%nat /\ act j = Some (LArrive bs)) ->
  forall i, exists j more, (i <= j)%nat /\ concat (chunks (st j)) = arrived (st i) ++ more.
Proof.
  intros cap fuel env sts act CP INF CB RR NA TK i.
  destruct (read_in_order cap fuel env sts act INF NA i) as (j & IJ & more & E); [|exists j, more; auto].
  eapply all_read_talking; eauto.
Qed.
Print Assumptions c93_every_byte_is_read_while_the_modem_talks.

(** ** C78: the reader stops *)
(** Once clean-up has asked the reader to stop and the modem falls silent, the reader stops, however much is still unread (that a modem
    that keeps sending can prevent it is c78_busy_modem_refuted). *)
Theorem c78_reader_stops_when_the_modem_is_silent : forall cap fuel env st act i, infinite cap fuel env st act ->
  (forall k, reader (st k) = Reading -> exists j n, (k <= j)%nat /\ act j = Some (LRead n)) ->
  (forall k n, reader (st k) = Busy n -> exists j, (k <= j)%nat /\ act j = Some LDone) ->
  (forall k, reader (st k) = Waiting -> bit_abort (st k) = true -> exists j, (k <= j)%nat /\ act j = Some LWake) ->
  bit_abort (st i) = true -> (forall k bs, (i <= k)%nat -> act k <> Some (LArrive bs)) ->
  exists j, (i <= j)%nat /\ reader (st j) = Stopped.
Proof. intros cap fuel env sts act i INF RR RB RW A SL. eapply (stops_from cap fuel env sts act INF RR RB RW i SL); [lia|exact A]. Qed.
Print Assumptions c78_reader_stops_when_the_modem_is_silent.

(** Missing: the full buffer.  160 URCs that fill the buffer exactly, directly followed by the answer to the command in flight: the
    reader goes to sleep, everything is at rest, and the answer stays in the comm interface until the modem sends something else (the
    request times out although its answer is there). *)
Definition stall_env : environment := always (sample_view T_WO_PREFIX None None).
Fixpoint do_all (cap fuel : nat) (env : environment) (ls : list label) (s : state) : option state :=
  match ls with [] => Some s | l :: r => match step cap fuel env l s with Some s' => do_all cap fuel env r s' | None => None end end.
Lemma do_all_reach (ok : state -> label -> Prop) cap fuel env ls : (forall s l, In l ls -> ok s l) -> forall s s', reach cap fuel env ok s -> do_all cap fuel env ls s = Some s' -> reach cap fuel env ok s'.
Proof.
  induction ls as [|l ls IH]; intros OK s s' R E; cbn [do_all] in E; [inversion E; subst; exact R|].
  destruct (step cap fuel env l s) as [s1|] eqn:E1; [|discriminate]. eapply IH; [intros; apply OK; right; assumption| |exact E].
  eapply reach_step; [exact R|apply OK; left; reflexivity|exact E1].
Qed.
Definition stall_labels : list label := [LArrive (full_response ++ s2b "OK" ++ crlf); LCallback true true; LWake; LRead 1700; LDone; LRead 1700; LDone].
Definition stalled (o : option state) : bool :=
  match o with
  | Some s => negb (owed s) && negb (bit_rx s) && negb (bit_abort s) && match reader s with Waiting => true | _ => false end &&
      (if list_eq_dec N.eq_dec (fifo s) (s2b "OK" ++ crlf) then true else false) && forallb (fun e => match e with EvUrc _ => true | _ => false end) (hist s)
  | None => false
  end.
Lemma stalled_state o : stalled o = true -> exists s, o = Some s /\ at_rest s /\ fifo s = s2b "OK" ++ crlf /\ (forall l, In l (hist s) -> exists u, l = EvUrc u) /\ ~ In (EvResp true []) (hist s).
Proof.
  destruct o as [s|]; [|discriminate]. unfold stalled. rewrite !andb_true_iff, !negb_true_iff. intros [[[[[O B] A] W] F] H].
  exists s. split; [reflexivity|]. split; [split; [exact O|split; [exact B|split; [exact A|destruct (reader s); [reflexivity|discriminate..]]]]|].
  destruct (list_eq_dec N.eq_dec (fifo s) (s2b "OK" ++ crlf)) as [F1|]; [|discriminate]. split; [exact F1|]. rewrite forallb_forall in H. split.
  - intros e I. specialize (H e I). destruct e; try discriminate. eauto.
  - intro I. specialize (H _ I). discriminate.
Qed.
Lemma stall_happens : stalled (do_all code_cap 2000 stall_env stall_labels (init code_cap)) = true.
Proof. vm_compute. reflexivity. Qed.
Lemma stall_labels_signal : forall s l, In l stall_labels -> signals_arrive s l.
Proof. intros s0 l I w. destruct I as [<-|[<-|[<-|[<-|[<-|[<-|[<-|[]]]]]]]]; discriminate. Qed.
Theorem c93_answer_left_behind_refuted : exists s, reach code_cap 2000 stall_env signals_arrive s /\ at_rest s /\ fifo s = s2b "OK" ++ crlf /\
  (forall l, In l (hist s) -> exists u, l = EvUrc u) /\ ~ In (EvResp true []) (hist s).
Proof.
  destruct (stalled_state _ stall_happens) as (s & D & P). exists s. split; [|exact P].
  exact (do_all_reach signals_arrive _ _ _ _ stall_labels_signal _ _ (reach_init _ _ _ _) D).
Qed.
Print Assumptions c93_answer_left_behind_refuted.

(** *** The hypotheses can be met *)
(** Two arrivals, the second one while the reader is reading; everything is read and dispatched. *)
Definition ex_labels : list label :=
  [LArrive (s2b "+A:1" ++ crlf ++ s2b "O"); LCallback true true; LWake; LRead 3; LArrive (s2b "K" ++ crlf); LDone; LRead 100; LCallback true false; LDone; LRead 0; LDone; LWake; LRead 5; LDone].
Definition ex_state (k : nat) : state := match do_all code_cap 2000 stall_env (firstn k ex_labels) (init code_cap) with Some s => s | None => init code_cap end.
Definition ex_act (k : nat) : option label := nth_error ex_labels k.
Definition ex_step_ok (k : nat) : bool :=
  match do_all code_cap 2000 stall_env (firstn (S k) ex_labels) (init code_cap) with Some _ => true | None => false end &&
  negb (offered code_cap (rxs (ex_state k)) =? 0)%nat.
Lemma do_all_app cap fuel env a b s : do_all cap fuel env (a ++ b) s = match do_all cap fuel env a s with Some s1 => do_all cap fuel env b s1 | None => None end.
Proof. revert s; induction a as [|l a IH]; intros s; [reflexivity|]. cbn [app do_all]. destruct (step cap fuel env l s); [apply IH|reflexivity]. Qed.
Lemma ex_steps_ok : forallb ex_step_ok (seq 0 14) = true.
Proof. vm_compute. reflexivity. Qed.
Lemma ex_next k l : nth_error ex_labels k = Some l -> step code_cap 2000 stall_env l (ex_state k) = Some (ex_state (S k)) /\ offered code_cap (rxs (ex_state k)) <> 0%nat.
Proof.
  intro E. assert (L : (k < length ex_labels)%nat) by (apply nth_error_Some; rewrite E; discriminate). cbn [length ex_labels] in L.
  pose proof ex_steps_ok as OK. rewrite forallb_forall in OK. specialize (OK k ltac:(apply in_seq; lia)). unfold ex_step_ok in OK. apply andb_prop in OK. destruct OK as [O1 O2].
  split; [|apply negb_true_iff, Nat.eqb_neq in O2; exact O2].
  unfold ex_state. assert (F : firstn (S k) ex_labels = firstn k ex_labels ++ [l]).
  { clear O1 O2 L. revert k E. generalize ex_labels. intros ls k; revert ls; induction k as [|k IH]; intros [|x ls] E; cbn in *; try discriminate; [inversion E; reflexivity|]. rewrite <- (IH ls E). reflexivity. }
  rewrite F in O1 |- *. rewrite do_all_app in *. destruct (do_all code_cap 2000 stall_env (firstn k ex_labels) (init code_cap)) as [s1|]; [|discriminate].
  cbn [do_all] in *. destruct (step code_cap 2000 stall_env l s1) as [s2|]; [reflexivity|discriminate].
Qed.
Lemma ex_last k : (14 <= k)%nat -> ex_act k = None /\ ex_state k = ex_state 14.
Proof. intro L. split; [apply nth_error_None; exact L|]. unfold ex_state. rewrite !firstn_all2; [reflexivity|cbn; lia|cbn [length ex_labels]; lia]. Qed.
Lemma ex_signals k l : nth_error ex_labels k = Some l -> usual code_cap (ex_state k) l.
Proof.
  intro E. split.
  - intro w. apply nth_error_In in E. cbn [ex_labels In] in E. intros ->. repeat (destruct E as [E|E]; [discriminate|]). exact E.
  - intros (n & _ & Q). exact (proj2 (ex_next k l E) Q).
Qed.
Definition ex_final (o : state) : bool :=
  negb (owed o) && negb (bit_rx o) && negb (bit_abort o) && match reader o with Waiting => true | _ => false end &&
  match hist o with [EvUrc u; EvResp true []] => if list_eq_dec N.eq_dec u (s2b "+A:1") then true else false | _ => false end.
Lemma ex_final_ok : ex_final (ex_state 14) = true.
Proof. vm_compute. reflexivity. Qed.
Example c93_ex : exists s, text_env stall_env /\ reach code_cap 2000 stall_env (usual code_cap) s /\ at_rest s /\ hist s = [EvUrc (s2b "+A:1"); EvResp true []].
Proof.
  exists (ex_state 14). split; [|split; [|]].
  - intros t h. repeat split; try (intros k Q; inversion Q; subst; cbn; lia); try discriminate; try exact sample_tables; cbn; try tauto.
    all: intros; discriminate.
  - assert (H : forall k, (k <= 14)%nat -> reach code_cap 2000 stall_env (usual code_cap) (ex_state k)).
    { induction k as [|k IH]; intro L; [apply reach_init|]. destruct (nth_error ex_labels k) as [l|] eqn:E; [|apply nth_error_None in E; cbn [length ex_labels] in E; lia].
      eapply reach_step; [apply IH; lia|apply ex_signals; exact E|apply ex_next; exact E]. }
    apply H. lia.
  - pose proof ex_final_ok as H. unfold ex_final in H. rewrite !andb_true_iff, !negb_true_iff in H. destruct H as [[[[O B] A] W] H].
    split; [repeat split; try assumption; destruct (reader (ex_state 14)); congruence|].
    clear O B A W. revert H. generalize (hist (ex_state 14)). intros hh H. destruct hh as [|[u|[] [|]| |] [|[| [] [|]| |] [|]]]; try discriminate. destruct (list_eq_dec N.eq_dec u (s2b "+A:1")); [subst; reflexivity|discriminate].
Qed.
Definition ex_fair_ok (k : nat) : bool :=
  let s := ex_state k in
  (negb (owed s) || existsb (fun j => (k <=? j)%nat && match ex_act j with Some (LCallback true _) => true | _ => false end) (seq 0 14)) &&
  (match reader s with Reading => false | _ => true end || existsb (fun j => (k <=? j)%nat && match ex_act j with Some (LRead _) => true | _ => false end) (seq 0 14)) &&
  (match reader s with Busy _ => false | _ => true end || existsb (fun j => (k <=? j)%nat && match ex_act j with Some LDone => true | _ => false end) (seq 0 14)) &&
  (negb (bit_rx s) || existsb (fun j => (k <=? j)%nat && match ex_act j with Some LWake => true | _ => false end) (seq 0 14)).
Lemma ex_all_fair : forallb ex_fair_ok (seq 0 15) = true.
Proof. vm_compute. reflexivity. Qed.
Example c93_fair_ex : infinite code_cap 2000 stall_env ex_state ex_act /\ callbacks_come ex_state ex_act /\ reader_runs ex_state ex_act /\
  (forall k, ex_act k <> Some LAbort) /\ (forall k l, ex_act k = Some l -> usual code_cap (ex_state k) l).
Proof.
  assert (LATE : forall k, (14 <= k)%nat -> ex_state k = ex_state 14) by (intros; apply ex_last; assumption).
  assert (OFF : owed (ex_state 14) = false /\ bit_rx (ex_state 14) = false /\ reader (ex_state 14) = Waiting).
  { pose proof ex_final_ok as H. unfold ex_final in H. rewrite !andb_true_iff, !negb_true_iff in H. destruct H as [[[[O B] A] W] H]. split; [exact O|]. split; [exact B|]. destruct (reader (ex_state 14)); congruence. }
  assert (FAIR : forall k, (k < 14)%nat -> ex_fair_ok k = true) by (intros k L; pose proof ex_all_fair as H; rewrite forallb_forall in H; apply H; apply in_seq; lia).
  split; [|split; [|split; [|split]]].
  - split; [reflexivity|]. intro k. destruct (ex_act k) as [l|] eqn:E; [apply ex_next; exact E|]. apply nth_error_None in E. cbn [length ex_labels] in E. rewrite (LATE k) by exact E. rewrite (LATE (S k)) by lia. reflexivity.
  - intros k O. destruct (Nat.le_gt_cases 14 k) as [L|L]; [rewrite (LATE k L) in O; destruct OFF; congruence|]. specialize (FAIR k L). unfold ex_fair_ok in FAIR.
    rewrite !andb_true_iff in FAIR. destruct FAIR as [[[F _] _] _]. rewrite O in F. apply existsb_exists in F. destruct F as (j & _ & J). apply andb_prop in J. destruct J as [J1 J2].
    apply Nat.leb_le in J1. exists j. destruct (ex_act j) as [[| [] w | | | |]|]; try discriminate J2. exists w. auto.
  - split; [|split].
    + intros k O. destruct (Nat.le_gt_cases 14 k) as [L|L]; [rewrite (LATE k L) in O; destruct OFF as (_ & _ & Q); congruence|]. specialize (FAIR k L). unfold ex_fair_ok in FAIR.
      rewrite !andb_true_iff in FAIR. destruct FAIR as [[[_ F] _] _]. rewrite O in F. apply existsb_exists in F. destruct F as (j & _ & J). apply andb_prop in J. destruct J as [J1 J2].
      apply Nat.leb_le in J1. exists j. destruct (ex_act j) as [[| | | |n|]|]; try discriminate J2. exists n. auto.
    + intros k c O. destruct (Nat.le_gt_cases 14 k) as [L|L]; [rewrite (LATE k L) in O; destruct OFF as (_ & _ & Q); congruence|]. specialize (FAIR k L). unfold ex_fair_ok in FAIR.
      rewrite !andb_true_iff in FAIR. destruct FAIR as [[_ F] _]. rewrite O in F. apply existsb_exists in F. destruct F as (j & _ & J). apply andb_prop in J. destruct J as [J1 J2].
      apply Nat.leb_le in J1. exists j. destruct (ex_act j) as [[| | | |n|]|]; try discriminate J2. auto.
    + intros k _ O. destruct (Nat.le_gt_cases 14 k) as [L|L]; [rewrite (LATE k L) in O; destruct OFF as (_ & Q & _); congruence|]. specialize (FAIR k L). unfold ex_fair_ok in FAIR.
      rewrite !andb_true_iff in FAIR. destruct FAIR as [_ F]. rewrite O in F. apply existsb_exists in F. destruct F as (j & _ & J). apply andb_prop in J. destruct J as [J1 J2].
      apply Nat.leb_le in J1. exists j. destruct (ex_act j) as [[| | | |n|]|]; try discriminate J2. auto.
  - intros k E. apply nth_error_In in E. cbn [ex_labels In] in E. repeat (destruct E as [E|E]; [discriminate|]). exact E.
  - intros k l E. apply ex_signals. exact E.
Qed.

(** A modem that sends one line end after the other to a reader with room for one byte: every second read finds the buffer full. *)
Fixpoint talk_bytes (n : nat) : str := match n with O => [] | S m => talk_bytes m ++ [10%N] end.
Fixpoint talk_chunks (n : nat) : list str := match n with O => [] | S m => (talk_chunks m ++ [[10%N]]) ++ [[]] end.
Definition talk_at (n r : nat) : state :=
  let b := match n with O => 0%N | S _ => 10%N end in
  let mk f o x rd p b' t a c := {| fifo := f; owed := o; bit_rx := x; bit_abort := false; reader := rd;
      rxs := {| rx_buf := [b'; 0%N]; rx_ptr := p; rx_partial := 0; rx_dlen := 0; rx_resp := None |}; clock := t; hist := []; arrived := a; chunks := c |} in
  match r with
  | 0 => mk [] false false Waiting None b n (talk_bytes n) (talk_chunks n)
  | 1 => mk [10%N] true false Waiting None b n (talk_bytes (S n)) (talk_chunks n)
  | 2 => mk [10%N] false true Waiting None b n (talk_bytes (S n)) (talk_chunks n)
  | 3 => mk [10%N] false false Reading None b n (talk_bytes (S n)) (talk_chunks n)
  | 4 => mk [] false false (Busy 1) (Some 1%nat) 10%N (S n) (talk_bytes (S n)) (talk_chunks n ++ [[10%N]])
  | 5 => mk [] false false Reading (Some 1%nat) 10%N (S n) (talk_bytes (S n)) (talk_chunks n ++ [[10%N]])
  | _ => mk [] false false (Busy 0) None 10%N (S n) (talk_bytes (S n)) (talk_chunks (S n))
  end%nat.
Definition talk_label (r : nat) : label :=
  match r with 0 => LArrive [10%N] | 1 => LCallback true true | 2 => LWake | 3 => LRead 0 | 4 => LDone | 5 => LRead 0 | _ => LDone end%nat.
Definition talk_state (k : nat) : state := talk_at (k / 7) (k mod 7).
Definition talk_act (k : nat) : option label := Some (talk_label (k mod 7)).
Lemma five k : exists n r, (k = 7 * n + r)%nat /\ (r < 7)%nat /\ (k / 7 = n)%nat /\ (k mod 7 = r)%nat.
Proof. exists (k / 7)%nat, (k mod 7)%nat. pose proof (Nat.div_mod k 7 ltac:(discriminate)). pose proof (Nat.mod_upper_bound k 7 ltac:(discriminate)). auto. Qed.
Lemma five_of n r : (r < 7)%nat -> ((7 * n + r) / 7 = n)%nat /\ ((7 * n + r) mod 7 = r)%nat.
Proof. intro L. split; symmetry; [apply Nat.div_unique with r|apply Nat.mod_unique with n]; lia. Qed.
Lemma talk_next n r : (r < 7)%nat -> step 1 5 stall_env (talk_label r) (talk_at n r) = Some (if (r =? 6)%nat then talk_at (S n) 0 else talk_at n (S r)).
Proof. intro L. destruct r as [|[|[|[|[|[|[|r]]]]]]]; [| | | | | | |lia]; destruct n; reflexivity. Qed.
Example c93_talk_ex : infinite 1 5 stall_env talk_state talk_act /\ callbacks_come talk_state talk_act /\ reader_runs talk_state talk_act /\
  (forall k, talk_act k <> Some LAbort) /\ (forall k, exists j bs, (k <= j)%nat /\ talk_act j = Some (LArrive bs)) /\
  exists k, talk_act k = Some (LRead 0) /\ offered 1 (rxs (talk_state k)) = 0%nat.
Proof.
  assert (NXT : forall k r, (r < 7)%nat -> exists j, (k <= j)%nat /\ (j mod 7 = r)%nat).
  { intros k r L. exists (7 * (S (k / 7)) + r)%nat. split; [|apply five_of; exact L]. pose proof (Nat.div_mod k 7 ltac:(discriminate)). pose proof (Nat.mod_upper_bound k 7 ltac:(discriminate)). lia. }
  split; [|split; [|split; [|split; [|split]]]].
  - split; [reflexivity|]. intro k. unfold talk_act, talk_state. destruct (five k) as (n & r & E & L & -> & ->). rewrite talk_next by exact L. f_equal.
    destruct (Nat.eqb_spec r 6) as [->|N].
    + replace (S k) with (7 * S n + 0)%nat by lia. destruct (five_of (S n) 0 ltac:(lia)) as [-> ->]. reflexivity.
    + replace (S k) with (7 * n + S r)%nat by lia. destruct (five_of n (S r) ltac:(lia)) as [-> ->]. reflexivity.
  - intros k _. destruct (NXT k 1%nat ltac:(lia)) as (j & J & R). exists j, true. split; [exact J|]. unfold talk_act. rewrite R. reflexivity.
  - split; [|split]; intros k.
    + intros _. destruct (NXT k 3%nat ltac:(lia)) as (j & J & R). exists j, 0%nat. split; [exact J|]. unfold talk_act. rewrite R. reflexivity.
    + intros c _. destruct (NXT k 4%nat ltac:(lia)) as (j & J & R). exists j. split; [exact J|]. unfold talk_act. rewrite R. reflexivity.
    + intros _ _. destruct (NXT k 2%nat ltac:(lia)) as (j & J & R). exists j. split; [exact J|]. unfold talk_act. rewrite R. reflexivity.
  - intros k E. unfold talk_act in E. destruct (five k) as (n & r & _ & L & _ & Q). rewrite Q in E. destruct r as [|[|[|[|[|[|[|r]]]]]]]; discriminate E.
  - intro k. destruct (NXT k 0%nat ltac:(lia)) as (j & J & R). exists j, [10%N]. split; [exact J|]. unfold talk_act. rewrite R. reflexivity.
  - exists 5%nat. split; reflexivity.
Qed.

(** Clean-up asks the reader to stop while it is reading. *)
Definition stop_labels : list label := [LArrive (s2b "OK" ++ crlf); LCallback true true; LWake; LAbort; LRead 1; LDone; LRead 1; LDone; LRead 1; LDone; LWake].
Definition stop_state (k : nat) : state := match do_all code_cap 2000 stall_env (firstn k stop_labels) (init code_cap) with Some s => s | None => init code_cap end.
Definition stop_act (k : nat) : option label := nth_error stop_labels k.
Definition stop_step_ok (k : nat) : bool :=
  match do_all code_cap 2000 stall_env (firstn (S k) stop_labels) (init code_cap) with Some _ => true | None => false end.
Lemma stop_steps_ok : forallb stop_step_ok (seq 0 11) = true.
Proof. vm_compute. reflexivity. Qed.
Lemma stop_next k l : nth_error stop_labels k = Some l -> step code_cap 2000 stall_env l (stop_state k) = Some (stop_state (S k)).
Proof.
  intro E. assert (L : (k < length stop_labels)%nat) by (apply nth_error_Some; rewrite E; discriminate). cbn [length stop_labels] in L.
  pose proof stop_steps_ok as OK. rewrite forallb_forall in OK. specialize (OK k ltac:(apply in_seq; lia)). unfold stop_step_ok in OK.
  unfold stop_state. assert (F : firstn (S k) stop_labels = firstn k stop_labels ++ [l]).
  { clear OK L. revert k E. generalize stop_labels. intros ls k; revert ls; induction k as [|k IH]; intros [|x ls] E; cbn in *; try discriminate; [inversion E; reflexivity|]. rewrite <- (IH ls E). reflexivity. }
  rewrite F in OK |- *. rewrite do_all_app in *. destruct (do_all code_cap 2000 stall_env (firstn k stop_labels) (init code_cap)) as [s1|]; [|discriminate OK].
  cbn [do_all] in *. destruct (step code_cap 2000 stall_env l s1) as [s2|]; [reflexivity|discriminate OK].
Qed.
Lemma stop_final : match reader (stop_state 11) with Stopped => true | _ => false end = true /\ bit_abort (stop_state 4) = true /\
  forallb (fun k => (4 <=? k)%nat || match reader (stop_state k) with Stopped => false | _ => true end) (seq 0 12) = true.
Proof. split; [vm_compute; reflexivity|]. split; vm_compute; reflexivity. Qed.
Lemma stop_seven : reader (stop_state 10) = Waiting.
Proof. vm_compute. reflexivity. Qed.
Lemma stop_nine : reader (stop_state 9) = Busy 0.
Proof. vm_compute. reflexivity. Qed.
Example c78_stop_ex : infinite code_cap 2000 stall_env stop_state stop_act /\
  (forall k, reader (stop_state k) = Reading -> exists j n, (k <= j)%nat /\ stop_act j = Some (LRead n)) /\
  (forall k n, reader (stop_state k) = Busy n -> exists j, (k <= j)%nat /\ stop_act j = Some LDone) /\
  (forall k, reader (stop_state k) = Waiting -> bit_abort (stop_state k) = true -> exists j, (k <= j)%nat /\ stop_act j = Some LWake) /\
  bit_abort (stop_state 4) = true /\ (forall k bs, (4 <= k)%nat -> stop_act k <> Some (LArrive bs)).
Proof.
  assert (LATE : forall k, (11 <= k)%nat -> stop_state k = stop_state 11).
  { intros k L. unfold stop_state. rewrite !firstn_all2; [reflexivity|cbn; lia|cbn [length stop_labels]; lia]. }
  destruct stop_final as (F8 & A4 & _). assert (S8 : reader (stop_state 11) = Stopped) by (destruct (reader (stop_state 11)); [discriminate F8|discriminate F8|discriminate F8|reflexivity]). clear F8.
  split; [|split; [|split; [|split; [|split]]]].
  - split; [reflexivity|]. intro k. destruct (stop_act k) as [l|] eqn:E; [apply stop_next; exact E|]. apply nth_error_None in E. cbn [length stop_labels] in E. rewrite (LATE k) by exact E. rewrite (LATE (S k)) by lia. reflexivity.
  - intros k R. destruct (Nat.le_gt_cases 9 k) as [L|L].
    + exfalso. destruct (Nat.eq_dec k 9) as [->|N9]; [rewrite stop_nine in R; discriminate R|]. destruct (Nat.eq_dec k 10) as [->|N]; [|rewrite (LATE k ltac:(lia)), S8 in R; discriminate R].
      rewrite stop_seven in R. discriminate R.
    + exists 8%nat, 1%nat. split; [lia|reflexivity].
  - intros k c R. destruct (Nat.le_gt_cases 10 k) as [L|L].
    + exfalso. destruct (Nat.eq_dec k 10) as [->|N]; [rewrite stop_seven in R; discriminate R|rewrite (LATE k ltac:(lia)), S8 in R; discriminate R].
    + exists 9%nat. split; [lia|reflexivity].
  - intros k R A. destruct (Nat.le_gt_cases 11 k) as [L|L]; [rewrite (LATE k L), S8 in R; discriminate R|]. exists 10%nat. split; [lia|reflexivity].
  - exact A4.
  - intros k bs L E. unfold stop_act in E. destruct (Nat.le_gt_cases 11 k) as [G|G]; [assert (Q : nth_error stop_labels k = None) by (apply nth_error_None; exact G); rewrite Q in E; discriminate E|].
    assert (K : (k = 4 \/ k = 5 \/ k = 6 \/ k = 7 \/ k = 8 \/ k = 9 \/ k = 10)%nat) by lia. destruct K as [->|[->|[->|[->|[->|[->| ->]]]]]]; discriminate E.
Qed.

(** Property theorems: results of API calls made by several threads, on bytes (C101). *)
From Coq Require Import String List NArith ZArith Bool Arith Lia.
From Verif Require Import Bytes AtCore Status SpecAt AtProofs Pktio SpecPktio PktioLine SpecStream PktioStream G3pp Wire SpecWire WireProofs.
From Verif Require Import Request SpecRequest SpecAnswers RequestInv RequestFull.
From Verif Require Import SpecG3ppApi Properties_Request Properties_Answers Whole SpecWhole WholeProofs Properties_Whole SpecApiWhole.
Import ListNotations.
Local Open Scope string_scope.
Local Open Scope list_scope.

(** ** What a response callback read is in the log *)
Lemma next_core c x fifo line n i s mt w : Whole.next_line c x fifo line n i s mt = Ok w -> w_core w = c.
Proof. unfold Whole.next_line. destruct (getNextLine x line n i s mt) as [[]| |]; cbn; try discriminate; intros [= <-]; reflexivity. Qed.
Lemma exec_log tt a c c' : app_label a = true -> exec tt a c = Some c' -> incl (log c) (log c').
Proof.
  intros A E. destruct a as [i r|i|i|i|i| |st|a k|l|g]; try discriminate A; cbn [exec] in E.
  - destruct (nth_error (ths c) i) as [[]|]; try discriminate. destruct (rq_kind r) as [|[t|]| | |]; injection E as <-; cbn; auto using incl_refl, incl_tl.
  - unfold thread_step in E. destruct (nth_error (ths c) i) as [p|]; [|discriminate].
    destruct p; try discriminate; repeat match goal with H : match ?x with _ => _ end = Some _ |- _ => destruct x; try discriminate end; injection E as <-;
      repeat match goal with |- context [match ?x with _ => _ end] => destruct x end; cbn; auto using incl_refl, incl_tl.
  - destruct (nth_error (ths c) i) as [[]|]; try discriminate; injection E as <-; cbn; auto using incl_refl, incl_tl.
  - destruct (nth_error (ths c) i) as [[]|]; try discriminate; injection E as <-; cbn; auto using incl_refl, incl_tl.
  - destruct (nth_error (ths c) i) as [[]|]; try discriminate; injection E as <-; cbn; auto using incl_refl, incl_tl.
  - injection E as <-; cbn; auto using incl_refl.
Qed.
Definition logged (c : Request.state) : Prop := forall id ls l, rd c = RInCB id ls l -> In (Delivered id ls l) (log c).
Lemma wexec_log cap tt lb w w' : wexec cap tt lb w = Some (Ok w') -> incl (log (w_core w)) (log (w_core w')) /\ (logged (w_core w) -> logged (w_core w')).
Proof.
  intro E. destruct lb as [a|bs g|k| |a]; cbn [wexec] in E.
  - destruct (app_label a) eqn:A; [|discriminate]. destruct (exec tt a (w_core w)) as [c'|] eqn:EX; [|discriminate]. injection E as <-. cbn [w_core].
    pose proof (exec_log tt a _ _ A EX) as LG. split; [exact LG|]. intros L id ls l R. destruct (app_frame tt a _ _ A EX) as (F & _). rewrite F in R. apply LG, L, R.
  - destruct g as [l|]; cbn [exec] in E; injection E as <-; cbn [w_core]; split; auto using incl_refl.
  - destruct (w_at w); try discriminate. injection E as E. unfold read_bytes in E.
    assert (w_core w' = w_core w) as ->; [|auto using incl_refl].
    destruct (ReadLine _ _ _) as [[[pl b] s1]| |]; cbn [bind] in E; try discriminate.
    destruct (0 <? b)%nat; [|injection E as <-; reflexivity]. destruct pl as [p|]; [|discriminate].
    destruct (if negb (rx_dlen s1 =? 0)%nat then handleData (Some p) s1 p b else Ok (p, b, s1)) as [[[x y] z]| |]; cbn [bind] in E; try discriminate.
    destruct (0 <? y)%nat; [|injection E as <-; reflexivity]. destruct (Bytes.st _ _ _) as [m| |]; cbn [bind] in E; try discriminate. injection E as <-. reflexivity.
  - destruct (w_at w) as [|line n|]; try discriminate. injection E as E. unfold scan in E. destruct (skip_eol _ _ _) as [[p q]| |]; cbn [bind] in E; try discriminate.
    destruct (q =? 0)%nat; [injection E as <-; cbn [w_core]; auto using incl_refl|]. destruct (find_eol _ _ _) as [[i|]| |]; cbn [bind] in E; try discriminate; [|injection E as <-; cbn [w_core]; auto using incl_refl].
    destruct (Bytes.st _ _ _) as [m| |]; cbn [bind] in E; try discriminate. destruct (cstr_get m p); [|discriminate]. injection E as <-. cbn [w_core log set_rd set_wire]. split; [apply incl_refl|].
    intros _ id ls l0 R. discriminate R.
  - destruct (w_at w) as [| |line n i]; try discriminate. unfold line_action in E.
    assert (ST : forall c1, log c1 = log (w_core w) -> (forall id ls l, rd c1 <> RInCB id ls l) -> w_core w' = c1 -> incl (log (w_core w)) (log (w_core w')) /\ (logged (w_core w) -> logged (w_core w'))).
    { intros c1 L R ->. rewrite L. split; [apply incl_refl|]. intros _ id ls l Q. elim (R _ _ _ Q). }
    assert (NX : forall c1 x fifo s mt, Some (Whole.next_line c1 x fifo line n i s mt) = Some (Ok w') -> w_core w' = c1) by (intros c1 x fifo s mt Q; injection Q as Q; exact (next_core _ _ _ _ _ _ _ _ _ Q)).
    destruct (rd (w_core w)) as [|l|l u|l mt|l t|l|ok ls l|ok ls l|ls l|id ls l|s l ok b|]; destruct a as [| | | | | |s0|a k| |]; try discriminate; try (destruct mt; discriminate).
    + injection E as <-. eapply ST; [| |reflexivity]; [reflexivity|discriminate].
    + injection E as <-. eapply ST; [| |reflexivity]; [reflexivity|discriminate].
    + destruct mt; first [apply NX in E; eapply ST; [| |exact E]; [reflexivity|discriminate] | injection E as <-; eapply ST; [| |reflexivity]; [reflexivity|discriminate]].
    + injection E as E. unfold process_line in E. destruct (ProcessLine _ _ _ _ _) as [[s r']| |]; cbn [bind] in E; try discriminate.
      destruct s; try (injection E as <-; eapply ST; [| |reflexivity]; [reflexivity|discriminate]); (apply next_core in E; eapply ST; [| |exact E]; [reflexivity|discriminate]).
    + destruct a; [apply NX in E; eapply ST; [| |exact E]; [reflexivity|discriminate]|]. injection E as <-; eapply ST; [| |reflexivity]; [reflexivity|discriminate].
    + injection E as <-. eapply ST; [| |reflexivity]; [reflexivity|discriminate].
    + injection E as <-. destruct ok; [destruct (cb (w_core w))|]; (eapply ST; [| |reflexivity]; [reflexivity|discriminate]).
    + destruct (cb (w_core w)) as [id|]; [|injection E as <-; eapply ST; [| |reflexivity]; [reflexivity|discriminate]]. injection E as E. destruct (deliver _ _) as [ts| |]; cbn [bind] in E; try discriminate.
      injection E as <-. cbn [w_core log record set_rd]. split; [apply incl_tl, incl_refl|]. intros _ id0 ls0 l0 R. cbn in R. injection R as <- <- <-. left. reflexivity.
    + injection E as <-. eapply ST; [| |reflexivity]; [reflexivity|discriminate].
    + apply NX in E. destruct (queue (w_core w)); (eapply ST; [| |exact E]; [reflexivity|discriminate]).
Qed.
Lemma wrun_log cap tt (ok : whole -> wlabel -> Prop) w lbs w' : wrun cap tt ok w lbs w' -> incl (log (w_core w)) (log (w_core w')) /\ (logged (w_core w) -> logged (w_core w')).
Proof.
  induction 1 as [w|w lbs w1 lb w2 R IH O E]; [auto using incl_refl|]. destruct IH as (I1 & I2). destruct (wexec_log _ _ _ _ _ E) as (J1 & J2). split; [|auto].
  eapply incl_tran; eassumption.
Qed.
Lemma wrun_cut cap tt (ok : whole -> wlabel -> Prop) s a : forall b s2, wrun cap tt ok s (a ++ b) s2 -> exists s1, wrun cap tt ok s a s1 /\ wrun cap tt ok s1 b s2.
Proof.
  intro b. induction b as [|x b IH] using rev_ind; intros s2 R.
  - rewrite app_nil_r in R. exists s2. split; [exact R|constructor].
  - rewrite app_assoc in R. remember ((a ++ b) ++ [x]) as L eqn:EL in R. destruct R as [w|w lbs w1 lb w2 R O E]; [destruct (a ++ b); discriminate|].
    apply app_inj_tail in EL. destruct EL as (-> & ->). destruct (IH _ R) as (s1 & A & B). exists s1. split; [exact A|]. econstructor; eassumption.
Qed.
Lemma wrun_det cap tt (ok ok' : whole -> wlabel -> Prop) s lbs s1 : wrun cap tt ok s lbs s1 -> forall s2, wrun cap tt ok' s lbs s2 -> s1 = s2.
Proof.
  induction 1 as [w|w lbs w1 lb w2 R IH O E]; intros s2 R2.
  - remember (@nil wlabel) as L eqn:EL. destruct R2 as [|? lbs]; [reflexivity|]. destruct lbs; discriminate.
  - remember (lbs ++ [lb]) as L eqn:EL in R2. destruct R2 as [w|w lbs' w1' lb' w2' R2 O' E']; [destruct lbs; discriminate|]. apply app_inj_tail in EL. destruct EL as (-> & ->).
    rewrite <- (IH _ R2) in E'. congruence.
Qed.
Lemma said_logged cap tt pfxs n wl w id ls l st : wrun cap tt (conforming_bytes cap tt pfxs) (winit cap n) wl w -> callback_said cap tt pfxs n wl id ls l st -> In (Delivered id ls l) (log (w_core w)).
Proof.
  intros R (a & b & w1 & -> & R1 & D). destruct (wrun_cut _ _ _ _ _ _ _ R) as (w2 & R2 & R3). rewrite (wrun_det _ _ _ _ _ _ _ R2 _ R1) in R3.
  apply (proj1 (wrun_log _ _ _ _ _ _ R3)). apply (proj2 (wrun_log _ _ _ _ _ _ R1)); [|exact D]. intros i2 l2 l3 Q. discriminate Q.
Qed.

(** ** C101 *)
Section C101.
Variables (cap : nat) (tt : token_table) (pfxs : list str) (n : nat) (wl : list wlabel) (w : whole).
Hypothesis T : tables_ok (tokens_now tt None).
Hypothesis P : forall q, In q pfxs -> at_len_ok q.
Hypothesis R : wrun cap tt (conforming_bytes cap tt pfxs) (winit cap n) wl w.

Lemma nothing_delivered id r : nth_error (calls_made wl) id = Some r -> (forall ls l, ~ complete_answer tt wl id r ls l) -> forall ls l, ~ In (Delivered id ls l) (log (w_core w)).
Proof. intros C NC ls l I0. destruct (c99_response_is_complete cap tt pfxs n wl w T P R id ls l I0) as (r' & C' & _ & CA). rewrite C in C'. injection C' as <-. exact (NC _ _ CA). Qed.

Lemma sees c st o : rq_kind (c_req c) = KPlain -> can_send (c_req c) -> In (Returned c st o) (log (w_core w)) ->
  exists a, modem_said tt wl (c_id c) (c_req c) a /\ thread_saw w c a.
Proof.
  intros K CS I0. destruct (c99_calls_return_what_the_bytes_say cap tt pfxs n wl w T P R c st o I0) as (CM & M).
  assert (S1 : exists cmd, rq_cmd (c_req c) = Some cmd) by (destruct CS as (cmd & A & _); eauto). destruct S1 as (cmd & S1).
  destruct M; try (rewrite K in *; discriminate); try (rewrite S1 in *; discriminate); try contradiction.
  - exists (NoAnswer true). split; [constructor; assumption|]. exists PKT_TIMED_OUT, o. split; [exact I0|]. split; [reflexivity|]. split; [reflexivity|].
    eapply nothing_delivered; [exact CM|]. intros ls l (body & E & _). rewrite E in *. destruct body; discriminate.
  - match goal with H : command_status _ _ _ _ _ _ _ _ |- _ => rename H into D end. destruct D as [body l E1 E2|ls l E1 E2|ls l s E1 E2 E3].
    + exists Refused. split; [econstructor; eassumption|]. exists PKT_FAILURE, o. split; [exact I0|]. split; [reflexivity|].
      eapply nothing_delivered; [exact CM|]. intros ls l' (body' & E & D). rewrite E1 in E. apply app_inj_tail in E. destruct E as (-> & ->).
      destruct E2 as (E2 & E2'). destruct D as [(D & _)|((D & D') & _)]; [exact (E2 D)|exact (D' E2')].
    + exists (Answered (map l_text ls)). split; [econstructor; eassumption|]. exists PKT_OK, o. split; [exact I0|]. rewrite E1. reflexivity.
    + exists (Answered (map l_text ls)). split; [econstructor; eassumption|]. exists s, o. split; [exact I0|]. rewrite E1. exists ls, l. split; [|reflexivity].
      eapply said_logged; eassumption.
Qed.
(** What the modem said is determined by its bytes. *)
Lemma said_unique id r a b : modem_said tt wl id r a -> modem_said tt wl id r b -> a = b.
Proof.
  assert (EX : forall l, error_line (tokens_of tt r) l -> ~ success_line (tokens_of tt r) l /\ ~ plain_line (tokens_of tt r) l) by (intros l (A & B); split; [exact A|intros (_ & D); exact (D B)]).
  intros [E|body l E X|ls l (body & E & D)] [E'|body' l' E' X'|ls' l' (body' & E' & D')]; rewrite E in E'; try reflexivity; try (destruct body'; discriminate); try (destruct body; discriminate);
    apply app_inj_tail in E'; destruct E' as (<- & <-).
  - destruct (EX _ X). exfalso. tauto.
  - destruct (EX _ X'). exfalso. tauto.
  - destruct D as [(A & ->)|(A & _ & ->)], D' as [(A' & ->)|(A' & _ & ->)]; try reflexivity; exfalso; unfold plain_line in *; tauto.
Qed.
End C101.

(** Threads, reader and comm interface together, on bytes, in every run with a modem that answers in the announced format (C99): a thread
    sees of the answer to its request exactly what the modem said to it; and the bytes determine what that is. *)
Theorem c101_threads_see_their_own_answers : forall cap tt pfxs n wl w, tables_ok (tokens_now tt None) -> (forall q, In q pfxs -> at_len_ok q) ->
  wrun cap tt (conforming_bytes cap tt pfxs) (winit cap n) wl w ->
  forall c st o, rq_kind (c_req c) = KPlain -> can_send (c_req c) -> In (Returned c st o) (log (w_core w)) ->
  exists a, modem_said tt wl (c_id c) (c_req c) a /\ thread_saw w c a /\ forall b, modem_said tt wl (c_id c) (c_req c) b -> b = a.
Proof.
  intros cap tt pfxs n wl w T P R c st o K CS I0. destruct (sees cap tt pfxs n wl w T P R c st o K CS I0) as (a & A & B). exists a. split; [exact A|]. split; [exact B|].
  intros b B'. eapply said_unique; eassumption.
Qed.
Print Assumptions c101_threads_see_their_own_answers.

Lemma replay_agrees (m : modem) : forall cs (rs h : list G3pp.req) as0 as1, length as0 = length h ->
  Forall2 (fun c q => exists b, c_req c = as_request q b /\ can_send (c_req c)) cs rs -> length as1 = length cs ->
  (forall k a, nth_error as1 k = Some a -> m (h ++ firstn (Datatypes.S k) rs) = a) ->
  forall h1 r t, rs = h1 ++ r :: t -> m (h ++ h1 ++ [r]) = replay (as0 ++ as1) (h ++ h1 ++ [r]).
Proof.
  intros cs rs h as0 as1 L F LA M h1 r t ->. unfold replay. rewrite !app_length. cbn [length].
  assert (L2 : (length h1 < length as1)%nat) by (apply forall2_len in F; rewrite app_length in F; cbn [length] in F; lia).
  rewrite app_nth2 by lia. destruct (nth_error as1 (length h1)) as [a|] eqn:E; [|apply nth_error_None in E; lia].
  replace (length h + (length h1 + 1) - 1 - length as0)%nat with (length h1) by lia. rewrite (nth_error_nth _ _ _ E).
  specialize (M _ _ E). rewrite <- M. f_equal. f_equal. change (Datatypes.S (length h1)) with (1 + length h1)%nat. rewrite Nat.add_comm, firstn_app, firstn_all2 by lia.
  replace (length h1 + 1 - length h1)%nat with 1%nat by lia. reflexivity.
Qed.

Lemma some_modem cap tt pfxs n wl w : tables_ok (tokens_now tt None) -> (forall q, In q pfxs -> at_len_ok q) -> wrun cap tt (conforming_bytes cap tt pfxs) (winit cap n) wl w ->
  forall cs rs, Forall2 (fun c q => exists b, c_req c = as_request q b /\ can_send (c_req c)) cs rs -> (forall c, In c cs -> exists st o, In (Returned c st o) (log (w_core w))) ->
  exists m : modem, forall k c, nth_error cs k = Some c -> modem_said tt wl (c_id c) (c_req c) (m (firstn (Datatypes.S k) rs)).
Proof.
  intros T P R cs rs F RET.
  assert (G : exists as_, Forall2 (fun c a => modem_said tt wl (c_id c) (c_req c) a) cs as_).
  { clear - F RET T P R. induction F as [|c q cs0 rs0 (b & Q1 & Q2) F0 IH]; [exists []; constructor|].
    destruct (RET c (or_introl eq_refl)) as (s & o & I0). destruct (IH (fun c' I' => RET c' (or_intror I'))) as (as_ & G).
    destruct (sees cap tt pfxs n wl w T P R c s o) as (a & A1 & _); [rewrite Q1; reflexivity|exact Q2|exact I0|]. exists (a :: as_). constructor; assumption. }
  destruct G as (as_ & G). exists (replay as_). intros k c E. unfold replay.
  assert (L : (k < length rs)%nat) by (apply forall2_len in F; rewrite <- F; apply nth_error_Some; rewrite E; discriminate).
  rewrite firstn_length, Nat.min_l by lia. replace (Datatypes.S k - 1)%nat with k by lia. clear - G E. revert k E. induction G as [|c0 a0 cs0 as0 X G IH]; intros k E; [destruct k; discriminate|].
  destruct k as [|k]; [injection E as <-; exact X|]. cbn [nth]. apply IH. exact E.
Qed.
(** The result of an API call is the one it would have alone with the modem: whatever other threads do meanwhile, with whatever
    interleaving and fragments, if the calls [cs] are those an API function made and [x] is what it made of what its thread saw, then [x]
    is its result with a modem that answers its requests, one after the other, as the modem did on the wire. *)
Theorem c101_api_result_is_that_of_its_own_answers : forall cap tt pfxs n wl w A f, api_function A f -> tables_ok (tokens_now tt None) -> (forall q, In q pfxs -> at_len_ok q) ->
  wrun cap tt (conforming_bytes cap tt pfxs) (winit cap n) wl w ->
  forall cs x, api_call f w cs x ->
  let as_on_the_wire m := forall k c, nth_error cs k = Some c -> modem_said tt wl (c_id c) (c_req c) (m (firstn (Datatypes.S k) (sent x))) in
  (exists m, as_on_the_wire m) /\ forall m, as_on_the_wire m -> f m = Ok x.
Proof.
  intros cap tt pfxs n wl w A f AF T P R cs x (F & RET & C) ON. split; [exact (some_modem cap tt pfxs n wl w T P R cs (sent x) F RET)|]. intros m M.
  assert (G : exists as_, Forall2 (thread_saw w) cs as_ /\ forall k a, nth_error as_ k = Some a -> m (firstn (Datatypes.S k) (sent x)) = a).
  { assert (K : forall cs0 rs0, Forall2 (fun c q => exists b, c_req c = as_request q b /\ can_send (c_req c)) cs0 rs0 -> (forall c, In c cs0 -> exists st o, In (Returned c st o) (log (w_core w))) ->
      forall g : nat -> answer, (forall k c, nth_error cs0 k = Some c -> modem_said tt wl (c_id c) (c_req c) (g k)) ->
      exists as_, Forall2 (thread_saw w) cs0 as_ /\ forall k a, nth_error as_ k = Some a -> g k = a).
    { induction 1 as [|c q cs0 rs0 (b & Q1 & Q2) F0 IH]; intros RT g GM.
      - exists []. split; [constructor|]. intros [|k] a Q; discriminate.
      - destruct (RT c (or_introl eq_refl)) as (s & o & I0). destruct (IH (fun c' I' => RT c' (or_intror I')) (fun k => g (Datatypes.S k)) (fun k c' Q => GM (Datatypes.S k) c' Q)) as (as_ & F1 & G1).
        destruct (sees cap tt pfxs n wl w T P R c s o) as (a & A1 & A2); [rewrite Q1; reflexivity|exact Q2|exact I0|].
        exists (a :: as_). split; [constructor; assumption|]. intros [|k] a' Q; [|exact (G1 k a' Q)]. injection Q as <-. eapply said_unique; [exact (GM 0%nat c eq_refl)|exact A1]. }
    apply (K cs (sent x) F RET (fun k => m (firstn (Datatypes.S k) (sent x))) M). }
  destruct G as (as_ & F1 & G). apply (causal_api A f AF (replay as_) m x (C as_ F1)).
  intros h1 r t E. apply (replay_agrees m cs (sent x) [] [] as_ eq_refl F) with (t := t); [apply forall2_len in F1; auto|exact G|exact E].
Qed.
Print Assumptions c101_api_result_is_that_of_its_own_answers.

(** ** Non-triviality *)
(** Thread 0 asks for the registered network (two requests); between them thread 1's request to switch the radio on gets in, and is refused;
    the bytes come in pieces of 3, 5, 11, 2, 100. *)
Definition q_cops32 : Request.request := as_request {| G3pp.rq_cmd := s2b "AT+COPS=3,2"; G3pp.rq_type := T_NO_RESULT; G3pp.rq_prefix := None |} false.
Definition q_cops : Request.request := as_request {| G3pp.rq_cmd := s2b "AT+COPS?"; G3pp.rq_type := T_WITH_PREFIX; G3pp.rq_prefix := Some (s2b "+COPS") |} true.
Definition line101 : line := ans "+COPS: 0,2,""26201"",7" 2 false false.
Definition run101 : list wlabel :=
  map WApp (start 0 q_cops32) ++ [WApp (LCall 1 q_plain); says (ans "OK" 0 false true); WRead 3; WScan; WRead 100] ++ wreads 7 ++ [WScan] ++ map WApp (repeat (LThread 0) 1) ++ map WApp (finish 0) ++
  map WApp (repeat (LThread 1) 5) ++ [WApp (LCall 0 q_cops); says (ans "ERROR" 1 false true); WRead 5; WScan; WRead 11] ++ wreads 7 ++ [WScan] ++ map WApp (repeat (LThread 1) 1) ++ map WApp (finish 1) ++
  map WApp (repeat (LThread 0) 5) ++ [says (urc "+CREG: 1"); says line101; WRead 2; WScan; WRead 100] ++ wreads 3 ++ wreads 4 ++ [says (ans "OK" 2 false true); WScan; WRead 100] ++ wreads 7 ++
  [WLine (LCbReturns PKT_OK); WLine LReader; WScan; WApp (LThread 0)] ++ map WApp (finish 0).
Definition cs101 : list call := [{| c_id := 0; c_req := q_cops32 |}; {| c_id := 2; c_req := q_cops |}].
Definition f101 (m : modem) : res (result (option plmn)) := GetRegisteredNetwork 64 (Some {| bLibOpened := true; bLibShutdown := false; bLibClosing := false |}) m true (Some {| p_mcc := repeat 9%N 4; p_mnc := repeat 9%N 4 |}).
Definition x101 : result (option plmn) :=
  {| sent := [{| G3pp.rq_cmd := s2b "AT+COPS=3,2"; G3pp.rq_type := T_NO_RESULT; G3pp.rq_prefix := None |};
              {| G3pp.rq_cmd := s2b "AT+COPS?"; G3pp.rq_type := T_WITH_PREFIX; G3pp.rq_prefix := Some (s2b "+COPS") |}];
     ret := C_SUCCESS; out := Some {| p_mcc := s2b "262" ++ [0%N]; p_mnc := s2b "01" ++ [0%N; 0%N] |} |}.
Ltac fits_ok ::=
  let X := fresh "X" in
  split; [split; [intros (? & X & _); discriminate|split; [discriminate|
            first [ intros _; eexists; split; [reflexivity|eexists; reflexivity]
                  | intro X; apply wp_iff in X; vm_compute in X; discriminate ]]]
         |first [intro X; cbn in X; discriminate
                |intros _; left; unfold multi_line_type; tauto
                |intros _; right; split; [unfold single_line_type; cbn; tauto|];
                 unfold none_held; cbn; split; [intros x [<-|[]]; discriminate|]; split; [intros x X; discriminate X|intros ls x X; discriminate X]]].
Lemma f101_makes ls : f101 (replay [Answered ls; Answered [l_text line101]]) = Ok x101.
Proof. vm_compute. reflexivity. Qed.
Example c101_ex : exists w, wrun 80 tt0 (conforming_bytes 80 tt0 pfx0) (winit 80 2) run101 w /\ api_function _ f101 /\ api_call f101 w cs101 x101 /\
  modem_said tt0 run101 0 q_cops32 (Answered []) /\ modem_said tt0 run101 2 q_cops (Answered [l_text line101]) /\ modem_said tt0 run101 1 q_plain Refused /\
  calls_made run101 = [q_cops32; q_plain; q_cops].
Proof.
  destruct (wexec_all 80 tt0 run101 (winit 80 2)) as [w|] eqn:E; [|vm_compute in E; discriminate]. exists w. split; [|split; [|split; [|split; [|split; [|split]]]]].
  - apply wrun_walk; [|exact E]. clear E w. let r := eval vm_compute in run101 in change run101 with r.
    let s0 := eval vm_compute in (winit 80 2) in change (winit 80 2) with s0.
    repeat (wstep_run; [bytes_ok|]). constructor.
  - apply AF_network.
  - assert (LG : log (w_core w) = [Returned {| c_id := 2; c_req := q_cops |} PKT_OK (Some {| q_st := PKT_OK; q_line := ans "OK" 2 false true; q_ok := true; q_cb := Some PKT_OK |});
        Delivered 2 [line101] (ans "OK" 2 false true);
        Returned {| c_id := 1; c_req := q_plain |} PKT_FAILURE (Some {| q_st := PKT_FAILURE; q_line := ans "ERROR" 1 false true; q_ok := false; q_cb := None |});
        Returned {| c_id := 0; c_req := q_cops32 |} PKT_OK (Some {| q_st := PKT_OK; q_line := ans "OK" 0 false true; q_ok := true; q_cb := None |})])
      by (vm_compute in E; injection E as <-; reflexivity).
    clear E. split; [|split].
    + unfold cs101. cbn [x101 sent]. repeat constructor; eexists; (split; [reflexivity|]); eexists; (split; [reflexivity|]); repeat split; cbn; try lia; try discriminate.
      intros [X|[X|X]]; discriminate.
    + intros c [<-|[<-|[]]]; rewrite LG; do 2 eexists; [do 3 right; left|left]; reflexivity.
    + intros as_ F. inversion F as [|? a0 ? ? S0 F1]; subst. inversion F1 as [|? a1 ? ? S1 F2]; subst. inversion F2; subst. clear F F1 F2.
      destruct S0 as (s0 & o0 & I0 & S0). destruct S1 as (s1 & o1 & I1 & S1). rewrite LG in I0, I1.
      destruct I0 as [I0|[I0|[I0|[I0|[]]]]]; try discriminate. injection I0 as <- <-. destruct I1 as [I1|[I1|[I1|[I1|[]]]]]; try discriminate. injection I1 as <- <-.
      destruct a0 as [t| |ls0]; [destruct S0 as (_ & S0 & _); discriminate|destruct S0 as (S0 & _); discriminate|].
      destruct a1 as [t| |ls1]; [destruct S1 as (_ & S1 & _); discriminate|destruct S1 as (S1 & _); discriminate|].
      destruct S1 as (lls & l & I2 & <-). rewrite LG in I2. destruct I2 as [I2|[I2|[I2|[I2|[]]]]]; try discriminate. injection I2 as <- _. apply f101_makes.
  - change (@nil str) with (map l_text []). apply (ms_answered tt0 run101 0 q_cops32 [] (ans "OK" 0 false true)). exists []. split; [vm_compute; reflexivity|]. left. split; [|reflexivity].
    right. split; [split; [discriminate|cbn; lia]|]. exists [s2b "OK"], (s2b "OK"). split; [reflexivity|]. split; [left; reflexivity|]. split; [split; [discriminate|cbn; lia]|exists []; reflexivity].
  - apply (ms_answered tt0 run101 2 q_cops [line101] (ans "OK" 2 false true)). exists [line101]. split; [vm_compute; reflexivity|]. left. split; [|reflexivity].
    right. split; [split; [discriminate|cbn; lia]|]. exists [s2b "OK"], (s2b "OK"). split; [reflexivity|]. split; [left; reflexivity|]. split; [split; [discriminate|cbn; lia]|exists []; reflexivity].
  - apply (ms_refused tt0 run101 1 q_plain [] (ans "ERROR" 1 false true)); [vm_compute; reflexivity|]. split.
    + intros [(A & t & k & B & _)|(A & t & k & B & I0 & (_ & r & C))]; [discriminate B|]. injection B as <-. destruct I0 as [<-|[]]. discriminate C.
    + split; [split; [discriminate|cbn; lia]|]. exists [s2b "ERROR"], (s2b "ERROR"). split; [reflexivity|]. split; [left; reflexivity|]. split; [split; [discriminate|cbn; lia]|exists []; reflexivity].
  - vm_compute. reflexivity.
Qed.

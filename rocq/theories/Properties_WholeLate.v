(** Property theorems: where results come from, whatever the modem sends (C100); and what C28 and C29 miss, on bytes: bytes the modem
    sent before a request was made decide the request. *)
From Coq Require Import String List NArith ZArith Bool Arith Lia.
From Verif Require Import Bytes AtCore Status SpecAt AtProofs Pktio SpecPktio PktioLine SpecStream PktioStream Request SpecRequest SpecAnswers RequestInv RequestFull.
From Verif Require Import Properties_Request Properties_Answers Whole SpecWhole WholeProofs Properties_Whole SpecWholeSource WholeSource.
Import ListNotations.
Local Open Scope string_scope.
Local Open Scope list_scope.

(** [piece] appears in [bs]. *)
Definition within (piece bs : list N) : Prop := exists a b, bs = a ++ piece ++ b.

(** ** C100 *)
(** Whatever bytes arrive, in whatever fragments, under every schedule (each read finding room): all lines a response callback is given, and
    the line that decides the status of a request, are lines the modem sent - none is made up, glued together or altered; their beginning
    may have been cut off only if bytes were thrown away because the undefined-response handler refused a line -; the status is the one
    that line and the response callback decide; and without such a line no request returns OK. *)
Theorem c100_results_are_what_the_modem_sent : forall cap tt n wl w, tables_ok (tokens_now tt None) -> wrun cap tt (any_bytes cap) (winit cap n) wl w ->
  (forall id ls l, In (Delivered id ls l) (log (w_core w)) -> forall x, In x (ls ++ [l]) -> sent_as_line wl (l_text x)) /\
  (forall c st q, In (Returned c st (Some q)) (log (w_core w)) -> sent_as_line wl (l_text (q_line q)) /\ st = verdict_of q) /\
  (forall c st, In (Returned c st None) (log (w_core w)) -> st <> PKT_OK).
Proof.
  intros cap tt n wl w TK R. destruct (source_any cap tt TK n wl w R) as (pre & rest & _ & _ & _ & _ & _ & GD).
  pose proof (proj1 (Forall_forall _ _) (g_log _ _ GD)) as GL. split; [|split].
  - intros id ls l I0 x IX. destruct (GL _ I0) as (A & B). apply in_app_or in IX. destruct IX as [IX|[<-|[]]]; [exact (proj1 (Forall_forall _ _) A x IX)|exact B].
  - intros c st q I0. destruct (GL _ I0) as ((A & B) & C). split; [exact A|]. congruence.
  - intros c st I0. exact (GL _ I0).
Qed.
Print Assumptions c100_results_are_what_the_modem_sent.

Definition sends (x : list N) : wlabel := WSend x None.
Definition wcall (r : request) : list wlabel := map WApp (start 0 r).
Definition wend : list wlabel := map WApp (finish 0).
Ltac any_walk E l w0 :=
  apply wrun_walk; [|exact E]; clear E; let r := eval vm_compute in l in change l with r; let s0 := eval vm_compute in w0 in change w0 with s0;
  repeat (wstep_run; [split; [room_ok|cbn; first [exact I|reflexivity|intros ? X; discriminate X]]|]); constructor.

(** The answer to a request arrives after its time-out; the next request returns OK because of it, although the modem has sent nothing
    since that request was made. *)
Definition late28a : list wlabel := wcall q_plain ++ [WApp (LTimeout 0)] ++ wend ++ [sends (crlf ++ s2b "OK" ++ crlf)].
Definition late28b : list wlabel := wcall q_plain ++ [WRead 100] ++ wreads 7 ++ [WApp (LThread 0)] ++ wend.
Definition ok28 : qitem := {| q_st := PKT_OK; q_line := urc "OK"; q_ok := true; q_cb := None |}.
Lemma late28_ok : exists w1 w2, wrun 40 tt0 (any_bytes 40) (winit 40 1) late28a w1 /\ wrun 40 tt0 (any_bytes 40) w1 late28b w2 /\
  In (Returned {| c_id := 1; c_req := q_plain |} PKT_OK (Some ok28)) (log (w_core w2)).
Proof.
  destruct (wexec_all 40 tt0 late28a (winit 40 1)) as [w1|] eqn:E1; [|vm_compute in E1; discriminate].
  assert (R1 : wrun 40 tt0 (any_bytes 40) (winit 40 1) late28a w1) by (any_walk E1 late28a (winit 40 1)).
  destruct (wexec_all 40 tt0 late28b w1) as [w2|] eqn:E2; [|vm_compute in E1; injection E1 as <-; vm_compute in E2; discriminate].
  exists w1, w2. split; [exact R1|]. vm_compute in E1. injection E1 as <-. split.
  - apply wrun_walk; [|exact E2]. clear E2. let r := eval vm_compute in late28b in change late28b with r.
    repeat (wstep_run; [split; [room_ok|cbn; first [exact I|reflexivity|intros ? X; discriminate X]]|]). constructor.
  - vm_compute in E2. injection E2 as <-. left. reflexivity.
Qed.
Theorem c28_bytes_before_the_call_refuted : ~ (forall cap tt n wl1 wl2 w1 w2 c o, tables_ok (tokens_now tt None) ->
  wrun cap tt (any_bytes cap) (winit cap n) wl1 w1 -> wrun cap tt (any_bytes cap) w1 wl2 w2 ->
  (length (calls_made wl1) <= c_id c)%nat -> In (Returned c PKT_OK o) (log (w_core w2)) -> modem_bytes wl2 <> []).
Proof.
  intro H. destruct late28_ok as (w1 & w2 & R1 & R2 & L). refine (H 40%nat tt0 1%nat late28a late28b w1 w2 _ _ tables0 R1 R2 _ L eq_refl). vm_compute. lia.
Qed.
Print Assumptions c28_bytes_before_the_call_refuted.

(** A line of a request that timed out is given to the response callback of the next one, although the modem has not sent such a line since. *)
Definition late29a : list wlabel := wcall q_multi ++ [sends (crlf ++ s2b "+COPS: 1" ++ crlf); WRead 100] ++ wreads 4 ++ [WScan; WApp (LTimeout 0)] ++ wend.
Definition late29b : list wlabel := wcall q_multi ++ [sends (crlf ++ s2b "OK" ++ crlf); WRead 100] ++ wreads 7.
Lemma late29_ok : exists w1 w2, wrun 60 tt0 (any_bytes 60) (winit 60 1) late29a w1 /\ wrun 60 tt0 (any_bytes 60) w1 late29b w2 /\
  exists l, In (Delivered 1 [urc "+COPS: 1"] l) (log (w_core w2)).
Proof.
  destruct (wexec_all 60 tt0 late29a (winit 60 1)) as [w1|] eqn:E1; [|vm_compute in E1; discriminate].
  assert (R1 : wrun 60 tt0 (any_bytes 60) (winit 60 1) late29a w1) by (any_walk E1 late29a (winit 60 1)).
  destruct (wexec_all 60 tt0 late29b w1) as [w2|] eqn:E2; [|vm_compute in E1; injection E1 as <-; vm_compute in E2; discriminate].
  exists w1, w2. split; [exact R1|]. vm_compute in E1. injection E1 as <-. split.
  - apply wrun_walk; [|exact E2]. clear E2. let r := eval vm_compute in late29b in change late29b with r.
    repeat (wstep_run; [split; [room_ok|cbn; first [exact I|reflexivity|intros ? X; discriminate X]]|]). constructor.
  - vm_compute in E2. injection E2 as <-. eexists. left. reflexivity.
Qed.
Theorem c29_bytes_before_the_call_refuted : ~ (forall cap tt n wl1 wl2 w1 w2 id ls l, tables_ok (tokens_now tt None) ->
  wrun cap tt (any_bytes cap) (winit cap n) wl1 w1 -> wrun cap tt (any_bytes cap) w1 wl2 w2 ->
  (length (calls_made wl1) <= id)%nat -> In (Delivered id ls l) (log (w_core w2)) -> forall x, In x ls -> within (l_text x) (modem_bytes wl2)).
Proof.
  intro H. destruct late29_ok as (w1 & w2 & R1 & R2 & l & L).
  assert (LE : (length (calls_made late29a) <= 1)%nat) by (vm_compute; lia).
  destruct (H 60%nat tt0 1%nat late29a late29b w1 w2 1%nat _ l tables0 R1 R2 LE L (urc "+COPS: 1") (or_introl eq_refl)) as (a & b & Q).
  apply (f_equal (@length N)) in Q. rewrite !app_length in Q. cbn in Q. lia.
Qed.
Print Assumptions c29_bytes_before_the_call_refuted.

(** The premises of c100_results_are_what_the_modem_sent: the two runs above. *)
Example c100_source_ex :
  (exists w, wrun 40 tt0 (any_bytes 40) (winit 40 1) (late28a ++ late28b) w /\ In (Returned {| c_id := 1; c_req := q_plain |} PKT_OK (Some ok28)) (log (w_core w)) /\
    sent_as_line (late28a ++ late28b) (s2b "OK") /\ ~ refused_once (late28a ++ late28b)) /\
  (exists w l, wrun 60 tt0 (any_bytes 60) (winit 60 1) (late29a ++ late29b) w /\ In (Delivered 1 [urc "+COPS: 1"] l) (log (w_core w)) /\ sent_as_line (late29a ++ late29b) (s2b "+COPS: 1")).
Proof.
  split.
  - destruct late28_ok as (w1 & w2 & R1 & R2 & L). pose proof (wrun_trans _ _ _ _ _ _ _ _ R1 R2) as R. exists w2. split; [exact R|]. split; [exact L|].
    split; [exact (proj1 (proj1 (proj2 (c100_results_are_what_the_modem_sent _ _ _ _ _ tables0 R)) _ _ _ L))|].
    intros (k & H). vm_compute in H. repeat (destruct H as [H|H]; [discriminate H|]). exact H.
  - destruct late29_ok as (w1 & w2 & R1 & R2 & l & L). pose proof (wrun_trans _ _ _ _ _ _ _ _ R1 R2) as R. exists w2, l. split; [exact R|]. split; [exact L|].
    exact (proj1 (c100_results_are_what_the_modem_sent _ _ _ _ _ tables0 R) _ _ _ L (urc "+COPS: 1") (or_introl eq_refl)).
Qed.
(** The exception in [sent_as_line] is real: behind a refused line the reader starts in the middle of a line.  The modem sends ZZ, then
    +BOOK, of which the first three bytes are read together with ZZ and thrown away; a request made then returns OK. *)
Definition torn : list wlabel := [sends (crlf ++ s2b "ZZ" ++ crlf ++ s2b "+BO"); WRead 100] ++ wreads 3 ++ [WLine (LUndef false 0)] ++
  wcall q_plain ++ [sends (s2b "OK" ++ crlf); WRead 100] ++ wreads 7 ++ [WApp (LThread 0)] ++ wend.
Lemma torn_ok : exists w, wrun 40 tt0 (any_bytes 40) (winit 40 1) torn w /\ In (Returned {| c_id := 0; c_req := q_plain |} PKT_OK (Some ok28)) (log (w_core w)).
Proof.
  destruct (wexec_all 40 tt0 torn (winit 40 1)) as [w|] eqn:E; [|vm_compute in E; discriminate]. exists w. split; [any_walk E torn (winit 40 1)|].
  vm_compute in E. injection E as <-. left. reflexivity.
Qed.
Theorem c23_torn_line_decides_a_request_refuted : ~ (forall cap tt n wl w c st q, tables_ok (tokens_now tt None) -> wrun cap tt (any_bytes cap) (winit cap n) wl w ->
  In (Returned c st (Some q)) (log (w_core w)) ->
  exists before e after, modem_bytes wl = before ++ l_text (q_line q) ++ e :: after /\ eol e /\ (before = [] \/ exists b c0, before = b ++ [c0] /\ eol c0)).
Proof.
  intro H. destruct torn_ok as (w & R & L). destruct (H _ _ _ _ _ _ _ _ tables0 R L) as (before & e & after & Q & E & B).
  assert (M : modem_bytes torn = [13;10;90;90;13;10;43;66;79;79;75;13;10]%N) by reflexivity. rewrite M in Q. change (l_text (q_line ok28)) with [79;75]%N in Q. clear M.
  do 9 (destruct before as [|? before]; [discriminate Q|]; cbn [app] in Q; injection Q as <- Q).
  destruct before as [|? before].
  - destruct B as [B|(b & c0 & B & EC)]; [discriminate B|]. change [13;10;90;90;13;10;43;66;79]%N with ([13;10;90;90;13;10;43;66] ++ [79])%N in B.
    apply app_inj_tail in B. destruct B as (_ & <-). unfold eol in EC. lia.
  - cbn [app] in Q. injection Q as <- Q. do 3 (destruct before as [|? before]; [discriminate Q|]; cbn [app] in Q; injection Q as <- Q). destruct before; discriminate Q.
Qed.
Print Assumptions c23_torn_line_decides_a_request_refuted.

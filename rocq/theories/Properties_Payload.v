(** Property theorems: payloads through the whole request path (C104). *)
From Coq Require Import String List NArith ZArith Bool Arith Lia.
From Verif Require Import Bytes AtCore Status SpecAt AtProofs Pktio SpecPktio PktioLine SpecStream PktioStream Request SpecRequest SpecAnswers RequestInv RequestFull.
From Verif Require Import Properties_Request Properties_Answers Whole SpecWhole WholeProofs Payload SpecPayload PayloadProofs PayloadSteps PayloadOwner.
Import ListNotations.
Local Open Scope string_scope.
Local Open Scope list_scope.

(** ** C104 *)
(** Threads, reader and prefix callbacks together: whatever bytes arrive, in whatever pieces, whatever the interleaving: as long as the
    callbacks announce data only behind a complete line that the data command in flight expects, replace a prompt by a line only where there
    is room, and no request begins or ends between an announcement and the reader's look at its line, every action is free of undefined
    behaviour.  (Missing: announcements behind other
    lines, see c104_late_announcement_refuted.) *)
Theorem c104_buffer_accesses_are_defined_partial : forall cap tt cbs n lbs p lb r, tables_ok (tokens_now tt None) ->
  prun cap tt cbs (proper cap tt cbs) (pinit cap n) lbs p -> proper cap tt cbs p lb -> pexec cap tt cbs lb p = Some r -> exists p', r = Ok p'.
Proof.
  intros cap tt cbs n lbs p lb r TK R OK E. destruct (run_PI cap tt cbs TK n lbs p R) as (PV & SM).
  destruct (step_any cap tt cbs TK lbs p lb r SM PV OK E) as (p' & Q & _). exists p'. exact Q.
Qed.
Print Assumptions c104_buffer_accesses_are_defined_partial.

(** ... and at any moment the bytes the modem sent are, in order, pieces cut as announced (lines, and payloads of exactly the announced
    lengths, whatever bytes they consist of, and prompts, each replaced by the line the data-send prefix callback put there), the bytes in the receive buffer not yet cut - fewer than announced while a payload is waited
    for -, and the bytes not yet delivered.  The responses given to the response callbacks consist of these lines and payloads, unchanged and
    in order: every announcing line goes into the response with its payload right behind it; what is left out are single lines that belong to
    no response, and whole responses that end without being given to a callback.  No byte is lost unless the undefined-response handler
    refuses a line. *)
Theorem c104_payload_is_cut_exactly_partial : forall cap tt cbs n lbs p, tables_ok (tokens_now tt None) ->
  prun cap tt cbs (proper cap tt cbs) (pinit cap n) lbs p ->
  exists ps us m unread cur ended, sent_bytes lbs = flat_map bytes_of ps ++ unread ++ w_fifo (p_whole p) /\ well_cut cbs (p_asked p) ps us m /\
    (forall d, m = Some d -> (length unread < d)%nat) /\
    collected_as us (responses_given (w_core (p_whole p))) cur ended /\ (none_refused lbs -> forall bs, ~ In (Lost bs) ps).
Proof.
  intros cap tt cbs n lbs p TK R. destruct (run_PI cap tt cbs TK n lbs p R) as (PV & _).
  assert (H : exists m u J, hist cbs lbs p m u J /\ (forall d, m = Some d -> (length u < d)%nat) /\
    forall us, J us -> exists cur b, collected_as us (responses_given (w_core (p_whole p))) cur b).
  { assert (BT : forall us, between (w_core (p_whole p)) us -> exists cur b, collected_as us (responses_given (w_core (p_whole p))) cur b) by (intros us (cur & b & T & _); eauto).
    destruct PV; (eexists _, _, _; split; [eassumption|]; split; [intros d Q; first [discriminate Q|injection Q as <-; assumption]|]); try exact BT.
    - intros us. unfold judged. destruct (rd _) eqn:RD; try exact (BT us); intro Q.
      1-4: destruct Q as (u0 & -> & Q0); assert (X : exists cur b, collected_as u0 (responses_given (w_core (p_whole p))) cur b) by (destruct Q0 as (cur & b & T & _); eauto);
        destruct X as (cur & b & T); exists cur, false; eapply ca_other; exact T.
      1-4: destruct Q as (u0 & cur & _ & T & _); eauto.
      1: eauto.
      destruct Q as [T|(u0 & cur & _ & T)]; eauto.
    - intros us (u0 & l & cur & b & -> & T & _). exists (cur ++ [[l]]), false. eapply ca_item. exact T. }
  destruct H as (m & u & J & (ps & us & A & B & C & D) & L & X). destruct (X us C) as (cur & b & T). exists ps, us, m, u, cur, b. split; [exact A|]. split; [exact B|]. split; [exact L|]. split; [exact T|exact D].
Qed.
Print Assumptions c104_payload_is_cut_exactly_partial.

(** The prefix callback that the reader is about to call was supplied with a request of the right kind that is set up and has not ended -
    provided no request ends while the reader, having read the pointer, has not called it yet. *)
Theorem c104_callback_only_during_its_request_partial : forall cap tt cbs n lbs p,
  prun cap tt cbs (fun q lb => proper cap tt cbs q lb /\ no_end_under_callback q lb) (pinit cap n) lbs p -> call_is_current p.
Proof.
  intros cap tt cbs n lbs p R. destruct (owner_run cap tt cbs _ n lbs p (fun q lb H => proj2 H) R) as (V & CN).
  destruct (hooked_by_a_request _ V) as (HS & HD). split.
  - intros id o Q. destruct (CN _ _ Q) as (N1 & _). exact (HS id (N1 id eq_refl)).
  - intros id Q. destruct (CN _ _ Q) as (_ & N2). exact (HD id (N2 id eq_refl)).
Qed.
Print Assumptions c104_callback_only_during_its_request_partial.

(** ... and conversely: when the reader has bytes to look at while a data-send or data request is set up, it is that request's callback
    that is called (if it brought one), with exactly the bytes that have arrived and not been cut yet. *)
Theorem c104_callback_of_the_request_is_asked_partial : forall cap tt cbs n lbs p i pc c p1 p2, tables_ok (tokens_now tt None) ->
  prun cap tt cbs (proper cap tt cbs) (pinit cap n) lbs p -> proper cap tt cbs p PFetch ->
  nth_error (ths (w_core (p_whole p))) i = Some pc -> command_set_up c pc ->
  pexec cap tt cbs PFetch p = Some (Ok p1) -> p_copy p1 <> None -> pexec cap tt cbs PAsk p1 = Some (Ok p2) ->
  exists ps us bs, sent_bytes lbs = flat_map bytes_of ps ++ bs ++ w_fifo (p_whole p1) /\ well_cut cbs (p_asked p1) ps us None /\ bs <> [] /\
    (forall id payload, rq_kind (c_req c) = KSend (Some id) payload -> p_asked p2 = ForPrompt id bs :: p_asked p1) /\
    (forall id, rq_kind (c_req c) = KRecv (Some id) -> p_asked p2 = ForData id bs :: p_asked p1).
Proof.
  intros cap tt cbs n lbs p i pc c p1 p2 TK R PR EP CS EF NC EA. destruct (run_PI cap tt cbs TK n lbs p R) as (PV & SM). pose proof (inv_run cap tt cbs _ n lbs p R) as V.
  destruct (set_up_hooks _ _ _ _ V EP CS) as (HS & HD). destruct (fetch_shape _ _ _ _ _ EF) as (_ & [(Q & _)|(_ & CP)]); [congruence|]. rewrite HS, HD in CP.
  destruct (step_fetch cap tt cbs lbs p (Ok p1) SM PV PR EF) as (q & Q & PV1 & _). injection Q as <-.
  cbn [pexec] in EA. destruct (w_at (p_whole p1)) as [|line k|] eqn:AT; try discriminate. rewrite CP in EA.
  assert (EA2 : ask cap cbs p1 (hook_scb (rq_kind (c_req c)), hook_dcb (rq_kind (c_req c))) line k = Ok p2) by (injection EA as EA; exact EA). clear EA.
  destruct PV1 as [rest CP' AT' DL RI PK HI|rest CP' AT' PV1 HI|b' line' n' rest CP' AT' PV1 DE NE HI|rest CP' AT' DL RI PK LN HI|line' n' i' L ce e g rest id CP' AT' DL PV1 SD LN LT EE AS AN OD RD HI]; try congruence.
  rewrite AT in AT'. injection AT' as <- <-. destruct PV1 as (_ & PV1). rewrite AT in PV1. destruct PV1 as (((BL & _) & HL & HSL & _) & _).
  assert (RD : Pktio.rd (rx_buf (w_rx (p_whole p1))) line k = Ok rest) by (rewrite PktioSafe.rd_ok by lia; rewrite HSL; reflexivity).
  destruct (ask_asks _ _ _ _ _ _ _ _ RD EA2) as (A1 & A2). destruct HI as (ps & us & A & B & _). exists ps, us, rest.
  unfold sent_bytes in A. rewrite flat_map_app in A. cbn [flat_map] in A. cbn [app] in A. rewrite app_nil_r in A.
  split; [exact A|]. split; [exact B|]. split; [exact NE|]. split; [intros id payload Q; apply A1; rewrite Q; reflexivity|]. intros id Q. apply A2. rewrite Q. reflexivity.
Qed.
Print Assumptions c104_callback_of_the_request_is_asked_partial.

(** ** Runs *)
Section Runs.
Variables (cap : nat) (tt : token_table) (cbs : callbacks).
Fixpoint pexec_all (lbs : list plabel) (p : pay) : option pay :=
  match lbs with [] => Some p | lb :: r => match pexec cap tt cbs lb p with Some (Ok p1) => pexec_all r p1 | _ => None end end.
Inductive pwalk (ok : pay -> plabel -> Prop) : pay -> list plabel -> Prop :=
| pwalk_nil p : pwalk ok p []
| pwalk_cons p lb r p1 : pexec cap tt cbs lb p = Some (Ok p1) -> ok p lb -> pwalk ok p1 r -> pwalk ok p (lb :: r).
Lemma prun_trans (ok : pay -> plabel -> Prop) a la b lb c : prun cap tt cbs ok a la b -> prun cap tt cbs ok b lb c -> prun cap tt cbs ok a (la ++ lb) c.
Proof.
  intros A B. induction B as [b|b lb b1 x b2 B IH OK E]; [rewrite app_nil_r; exact A|]. rewrite app_assoc. econstructor; [apply IH; exact A|exact OK|exact E].
Qed.
Lemma prun_one (ok : pay -> plabel -> Prop) p x p' : ok p x -> pexec cap tt cbs x p = Some (Ok p') -> prun cap tt cbs ok p [x] p'.
Proof. intros A B. apply (prun_step cap tt cbs ok p [] p x p'); [constructor|exact A|exact B]. Qed.
Lemma prun_walk (ok : pay -> plabel -> Prop) lbs p p' : pwalk ok p lbs -> pexec_all lbs p = Some p' -> prun cap tt cbs ok p lbs p'.
Proof.
  intro W. revert p'. induction W as [p|p lb r p1 E O W IH]; intros p' X; cbn in X; [injection X as <-; constructor|]. rewrite E in X.
  apply (prun_trans ok p [lb] p1 r p'); [apply prun_one; assumption|apply IH; exact X].
Qed.
End Runs.

(** A data request: AT+R answered by +R:<length>, the data, OK.  Its callback knows lengths of one digit 3, and the form with a quote between the length and the data, in which
    it overwrites the quote.  A data-send request's callback makes the prompt, > and a space, a line. *)
Definition announcing : list N := s2b "+R:3" ++ [13%N; 10%N].
Definition quoted : list N := s2b "+R:3" ++ [34%N].
Definition prompt : list N := s2b "> ".
Definition cbs0 : callbacks := {|
  cb_input := None;
  cb_data := fun id bs =>
    if list_eq_dec N.eq_dec (firstn 6 bs) announcing then (PKT_OK, Some 6%nat, Some 3%nat, bs)
    else if list_eq_dec N.eq_dec (firstn 5 bs) quoted then (PKT_OK, Some 5%nat, Some 3%nat, s2b "+R:3" ++ 10%N :: skipn 5 bs)
    else if list_eq_dec N.eq_dec bs (firstn (length bs) announcing) then (PKT_SIZE_MISMATCH, None, None, bs)
    else (PKT_PREFIX_MISMATCH, None, None, bs);
  cb_send := fun id bs =>
    if list_eq_dec N.eq_dec (firstn 2 bs) prompt then (PKT_OK, [62%N; 10%N] ++ skipn 2 bs)
    else if list_eq_dec N.eq_dec bs (firstn (length bs) prompt) then (PKT_SIZE_MISMATCH, bs)
    else (PKT_PREFIX_MISMATCH, bs) |}.
Definition q_recv : request := {| rq_kind := KRecv (Some 7%nat); rq_cmd := Some (s2b "AT+R"); rq_type := T_MULTI_DATA_WO_PREFIX; rq_prefix := Some (s2b "+R"); rq_cb := true |}.
Definition data0 : list N := [97%N; 13%N; 98%N].   (* a line end inside the data *)
Definition ok_line : list N := [13%N; 10%N] ++ s2b "OK" ++ [13%N; 10%N].
Definition plines (k : nat) : list plabel := repeat (PLine LReader) k.
Definition pstart : list plabel := map PApp (start 0 q_recv).
Definition pfinish : list plabel := map PApp (finish 0).
(** The answer comes in pieces of 4, 4 and 100 bytes; a second thread calls while the reader works on the announcing line. *)
Definition run104 : list plabel :=
  pstart ++ [PSend (announcing ++ data0 ++ ok_line); PRead 4; PFetch; PAsk; PRead 4; PFetch; PAsk; PLine LReader; PApp (LCall 1 q_recv)] ++ plines 3 ++
  [PRead 100; PFetch; PAsk] ++ plines 7 ++ [PLine (LCbReturns PKT_OK); PLine LReader; PFetch; PApp (LThread 0)] ++ pfinish.
Definition collected0 : list line := [{| l_text := s2b "+R:3"; l_from := None; l_last := false |}; payload_item data0].
Definition ok0 : line := {| l_text := s2b "OK"; l_from := None; l_last := false |}.

(** The prompt is a success token. *)
Definition tt1 : token_table := {| tk_error := Some [s2b "ERROR"]; tk_success := Some [s2b "OK"; s2b ">"]; tk_urc_wo_prefix := None; tk_extra_success := None |}.
Lemma plain_R : plain_line (tokens_now tt0 None) (s2b "+R:3").
Proof.
  split.
  - intros [(_ & ks & k & Q & _)|(_ & ks & k & Q & I0 & _ & (r & E))]; [discriminate|]. injection Q as <-. destruct I0 as [<-|[]]. cbn in E. discriminate.
  - intros (_ & ks & k & Q & I0 & _ & (r & E)). injection Q as <-. destruct I0 as [<-|[]]. cbn in E. discriminate.
Qed.
Lemma plain_R1 : plain_line (tokens_now tt1 None) (s2b "+R:3").
Proof.
  split.
  - intros [(_ & ks & k & Q & _)|(_ & ks & k & Q & I0 & _ & (r & E))]; [discriminate|]. injection Q as <-. destruct I0 as [<-|[<-|[]]]; cbn in E; discriminate.
  - intros (_ & ks & k & Q & I0 & _ & (r & E)). injection Q as <-. destruct I0 as [<-|[]]. cbn in E. discriminate.
Qed.
Lemma tables1 : tables_ok (tokens_now tt1 None).
Proof. repeat split; try discriminate; intros k [= <-]; cbn; lia. Qed.
Lemma in_flight_R tt c : tk_urc_wo_prefix tt = None -> plain_line (tokens_now tt None) (s2b "+R:3") -> typ c = T_MULTI_DATA_WO_PREFIX -> puse c = true -> pbuf c = s2b "+R" -> extra c = None -> of_data_command tt c (s2b "+R:3").
Proof.
  intros UR PR A B C D. unfold of_data_command. rewrite A, B, C, D. split; [reflexivity|]. split; [intros p [= <-]; split; [discriminate|cbn; lia]|]. split; [|exact PR].
  split; [intros (k & Q & _); cbn in Q; congruence|]. split; [discriminate|]. intros _. exists (s2b "+R"). split; [reflexivity|]. exists (s2b ":3"). reflexivity.
Qed.
Lemma line_R : s2b "+R:3" <> [] /\ line_text (s2b "+R:3").
Proof. split; [discriminate|]. unfold line_text. repeat (apply Forall_cons; [unfold eol; cbn; lia|]). constructor. Qed.
Lemma announces0 (K : list N -> Prop) id bs : (firstn 4 bs = s2b "+R:3" -> K (s2b "+R:3")) -> announces cbs0 K id bs.
Proof.
  unfold announces. cbn [cbs0 cb_data]. intro H. destruct line_R as (L1 & L2). destruct (list_eq_dec N.eq_dec (firstn 6 bs) announcing) as [E|E].
  - split; [auto|]. right. exists 2%nat, (s2b "+R:3"), 13%N, 13%N, (10%N :: skipn 6 bs), 6%nat.
    assert (Q : bs = s2b "+R:3" ++ 13%N :: 10%N :: skipn 6 bs) by (rewrite <- (firstn_skipn 6 bs) at 1; rewrite E; reflexivity).
    split; [reflexivity|]. split; [reflexivity|]. split; [exact Q|]. split; [exact Q|]. split; [exact L1|]. split; [exact L2|]. split; [unfold eol; lia|]. split; [reflexivity|].
    split; [rewrite Q, app_length; cbn; lia|]. apply H. rewrite Q. reflexivity.
  - destruct (list_eq_dec N.eq_dec (firstn 5 bs) quoted) as [E'|E'].
    + split; [auto|]. right. exists 2%nat, (s2b "+R:3"), 34%N, 10%N, (skipn 5 bs), 5%nat.
      assert (Q : bs = s2b "+R:3" ++ 34%N :: skipn 5 bs) by (rewrite <- (firstn_skipn 5 bs) at 1; rewrite E'; reflexivity).
      split; [reflexivity|]. split; [reflexivity|]. split; [exact Q|]. split; [reflexivity|]. split; [exact L1|]. split; [exact L2|]. split; [unfold eol; lia|]. split; [reflexivity|].
      split; [rewrite Q, app_length; cbn; lia|]. apply H. rewrite Q. reflexivity.
    + destruct (list_eq_dec _ _ _); (split; [auto|]; left; auto).
Qed.
Lemma takes0 bs : takes_properly cbs0 bs.
Proof. intros f Q. discriminate Q. Qed.
(** With an input-buffer callback that takes frames of four bytes, whatever they are, behind a dollar sign. *)
Definition frames0 (bs : list N) : pkt_status * nat :=
  if list_eq_dec N.eq_dec (firstn 1 bs) [36%N] then
    if (length bs <? 4)%nat then (PKT_SIZE_MISMATCH, 0%nat)
    else match skipn 4 bs with c :: _ => if is_eol c then (PKT_PREFIX_MISMATCH, 0%nat) else (PKT_OK, 4%nat) | [] => (PKT_OK, 4%nat) end
  else (PKT_PREFIX_MISMATCH, 0%nat).
Definition cbs1 : callbacks := {| cb_input := Some frames0; cb_data := cb_data cbs0; cb_send := cb_send cbs0 |}.
Lemma takes1 bs : takes_properly cbs1 bs.
Proof.
  intros f [= <-]. unfold frames0. destruct (list_eq_dec _ _ _) as [E|E]; [|auto 10].
  destruct (length bs <? 4)%nat eqn:L; [auto 10|]. apply Nat.ltb_ge in L.
  destruct (skipn 4 bs) as [|c r] eqn:S.
  - left. cbn [fst snd]. rewrite S. split; [reflexivity|]. split; [lia|]. discriminate.
  - destruct (is_eol c) eqn:Q; [auto 10|]. left. cbn [fst snd]. rewrite S. split; [reflexivity|]. split; [lia|]. intros e x [= <- <-] X. apply PktioSafe.is_eol_iff in X. congruence.
Qed.
Lemma prompts0 cap line id bs : (line + length bs <= cap)%nat -> prompts_properly cap cbs0 line id bs.
Proof.
  unfold prompts_properly. cbn [cbs0 cb_send]. intro H. destruct (list_eq_dec N.eq_dec (firstn 2 bs) prompt) as [E|E].
  - right. split; [reflexivity|]. exists prompt, [62%N], 10%N, (skipn 2 bs). assert (Q : bs = prompt ++ skipn 2 bs) by (rewrite <- E; symmetry; apply firstn_skipn).
    split; [exact Q|]. split; [reflexivity|]. split; [discriminate|]. split; [constructor; [unfold eol; lia|constructor]|]. split; [unfold eol; lia|].
    rewrite Q, app_length in H. rewrite app_length. cbn [prompt s2b length] in *. exact H.
  - destruct (list_eq_dec _ _ _); left; auto.
Qed.

Ltac app_ok := split; [let i := fresh in let r := fresh in let Q := fresh in intros i r Q; first [discriminate Q|injection Q as <- <-; intros ? Q; discriminate Q]|
  let X := fresh in let Q := fresh in intros X ? Q; first [destruct X as ((? & ? & ? & X) & _); discriminate X|vm_compute in Q; injection Q as <-; repeat split]].
Ltac ask_ok := let A := fresh in let B := fresh in intros ? ? ? A B; vm_compute in A; injection A as <- <-; vm_compute in B; injection B as <-;
  split; [let C := fresh in intros ? ? C; vm_compute in C; first [discriminate C|injection C as <- <-; apply prompts0; cbn; lia]|
          let C := fresh in intros ? C; vm_compute in C; first [discriminate C|injection C as <-; apply announces0; let D := fresh in intro D; vm_compute in D;
            first [exact I|discriminate D|apply in_flight_R; first [exact plain_R|exact plain_R1|reflexivity]]]].
Ltac fetch_ok := intros ? ? ? ? ? _ _ _ _ _; first [apply takes0|apply takes1].
Ltac proper_ok :=
  lazymatch goal with
  | |- proper _ _ _ _ (PApp _) => app_ok
  | |- proper _ _ _ _ (PRead _) => left; vm_compute; discriminate
  | |- proper _ _ _ _ PAsk => ask_ok
  | |- proper _ _ _ _ PFetch => fetch_ok
  | |- proper _ _ _ _ _ => exact I
  end.
Ltac copy_ok := let Q := fresh in intros ? Q; first [discriminate Q|let C := fresh in let D := fresh in intros (? & ? & C & D); vm_compute in C;
  first [discriminate C|injection C as <- <-; destruct D as [D|D]; first [congruence|injection Q as <-; intros ? ? ? C; vm_compute in C; discriminate C]|
         injection Q as <-; intros ? ? ? C; vm_compute in C; discriminate C]].
Ltac pok :=
  lazymatch goal with
  | |- proper _ _ _ _ _ /\ no_end_under_callback _ _ => split; [proper_ok|copy_ok]
  | |- proper _ _ _ _ _ => proper_ok
  | |- at_any_time _ _ _ _ (PApp _) => cbn [at_any_time]; let i := fresh in let r := fresh in let Q := fresh in intros i r Q; first [discriminate Q|injection Q as <- <-; intros ? Q; discriminate Q]
  | |- at_any_time _ _ _ _ _ => cbn [at_any_time]; proper_ok
  | |- in_format _ _ _ _ PAsk => cbn [in_format]; ask_ok
  | |- in_format _ _ _ _ _ => cbn [in_format]; proper_ok
  end.
Ltac pstep_run :=
  lazymatch goal with
  | |- pwalk _ _ _ _ _ [] => constructor
  | |- pwalk ?cap ?tt ?f ?ok ?p (?lb :: ?r) =>
      let x := eval vm_compute in (pexec cap tt f lb p) in
      lazymatch x with
      | Some (Ok ?p1) => apply (pwalk_cons cap tt f ok p lb r p1); [vm_compute; reflexivity|cbv beta; try pok|]
      end
  end.
Lemma run104_ok : exists p, prun 60 tt0 cbs0 (fun q lb => proper 60 tt0 cbs0 q lb /\ no_end_under_callback q lb) (pinit 60 2) run104 p /\
  log (w_core (p_whole p)) = [ Returned {| c_id := 0; c_req := q_recv |} PKT_OK (Some {| q_st := PKT_OK; q_line := ok0; q_ok := true; q_cb := Some PKT_OK |}); Delivered 0 collected0 ok0 ].
Proof.
  destruct (pexec_all 60 tt0 cbs0 run104 (pinit 60 2)) as [p|] eqn:E; [|vm_compute in E; discriminate].
  exists p. split; [|vm_compute in E; injection E as <-; vm_compute; reflexivity].
  eapply prun_walk; [|exact E]. clear E.
  let L := eval vm_compute in run104 in change run104 with L. let w := eval vm_compute in (pinit 60 2) in change (pinit 60 2) with w.
  repeat pstep_run.
Qed.

(** What the response callback got of the announced data is the data, line end included. *)
Example run104_data : map l_text collected0 = [s2b "+R:3"; data0]. Proof. reflexivity. Qed.
(** A data-send request: the prompt comes in two pieces; the bytes are not a line until its callback makes them one; the data goes out, OK
    comes back.  Then a data request, answered in the other form. *)
Definition q_send : request :=
  {| rq_kind := KSend (Some 8%nat) {| d_data := Some [1%N; 2%N]; d_end := None |}; rq_cmd := Some (s2b "AT+S"); rq_type := T_NO_RESULT; rq_prefix := None; rq_cb := false |}.
Definition run104_send : list plabel :=
  map PApp (start 0 q_send) ++ [PSend [62%N]; PRead 4; PFetch; PAsk; PSend [32%N]; PRead 4; PFetch; PAsk] ++ plines 7 ++ [PFetch] ++ repeat (PApp (LThread 0)) 5 ++
  [PSend (s2b "OK" ++ [13%N; 10%N]); PRead 10; PFetch; PAsk] ++ plines 7 ++ [PFetch] ++ repeat (PApp (LThread 0)) 3 ++
  pstart ++ [PSend (s2b "+R:3" ++ [34%N] ++ data0 ++ ok_line); PRead 100; PFetch; PAsk] ++ plines 4 ++ [PFetch; PAsk] ++ plines 7 ++ [PLine (LCbReturns PKT_OK)].
Lemma run104_send_ok : exists p, prun 60 tt1 cbs0 (fun q lb => proper 60 tt1 cbs0 q lb /\ no_end_under_callback q lb) (pinit 60 2) run104_send p /\
  log (w_core (p_whole p)) = [ Delivered 1 collected0 ok0; Returned {| c_id := 0; c_req := q_send |} PKT_OK (Some {| q_st := PKT_OK; q_line := ok0; q_ok := true; q_cb := None |}) ] /\
  p_asked p = [ ForData 7 (s2b "OK" ++ [13%N; 10%N]); ForData 7 (s2b "+R:3" ++ [34%N] ++ data0 ++ ok_line); ForPrompt 8 prompt; ForPrompt 8 [62%N] ].
Proof.
  destruct (pexec_all 60 tt1 cbs0 run104_send (pinit 60 2)) as [p|] eqn:E; [|vm_compute in E; discriminate].
  exists p. split; [|vm_compute in E; injection E as <-; vm_compute; auto].
  eapply prun_walk; [|exact E]. clear E.
  let L := eval vm_compute in run104_send in change run104_send with L. let w := eval vm_compute in (pinit 60 2) in change (pinit 60 2) with w.
  repeat pstep_run.
Qed.
(** The premises of c104_callback_of_the_request_is_asked_partial: the data-send request waits for the prompt, of which one byte has come. *)
Lemma run104_asks : exists p p1 p2, prun 60 tt1 cbs0 (proper 60 tt1 cbs0) (pinit 60 2) (firstn 8 run104_send) p /\
  nth_error (ths (w_core (p_whole p))) 0 = Some (Wait {| c_id := 0; c_req := q_send |}) /\
  pexec 60 tt1 cbs0 PFetch p = Some (Ok p1) /\ p_copy p1 = Some (Some 8%nat, None) /\ pexec 60 tt1 cbs0 PAsk p1 = Some (Ok p2) /\ p_asked p2 = [ForPrompt 8 [62%N]].
Proof.
  destruct (pexec_all 60 tt1 cbs0 (firstn 8 run104_send) (pinit 60 2)) as [p|] eqn:E; [|vm_compute in E; discriminate].
  exists p. do 2 eexists. split; [|vm_compute in E; injection E as <-; split; [reflexivity|]; split; [vm_compute; reflexivity|]; split; [reflexivity|]; split; [vm_compute; reflexivity|reflexivity]].
  eapply prun_walk; [|exact E]. clear E.
  let L := eval vm_compute in (firstn 8 run104_send) in change (firstn 8 run104_send) with L. let w := eval vm_compute in (pinit 60 2) in change (pinit 60 2) with w.
  repeat pstep_run.
Qed.
(** With the input-buffer callback: a frame in front of the announcement comes in two pieces and has line ends in it. *)
Definition frame0 : list N := [36%N; 0%N; 13%N; 120%N].
Definition run104_frame : list plabel :=
  pstart ++ [PSend (frame0 ++ announcing ++ data0 ++ ok_line); PRead 2; PFetch; PRead 100; PFetch; PAsk] ++ plines 4 ++ [PFetch; PAsk] ++ plines 7 ++ [PLine (LCbReturns PKT_OK)].
Lemma run104_frame_ok : exists p, prun 60 tt1 cbs1 (fun q lb => proper 60 tt1 cbs1 q lb /\ no_end_under_callback q lb) (pinit 60 2) run104_frame p /\
  log (w_core (p_whole p)) = [ Delivered 0 collected0 ok0 ] /\
  p_asked p = [ ForData 7 (s2b "OK" ++ [13%N; 10%N]); ForData 7 (announcing ++ data0 ++ ok_line) ].
Proof.
  destruct (pexec_all 60 tt1 cbs1 run104_frame (pinit 60 2)) as [p|] eqn:E; [|vm_compute in E; discriminate].
  exists p. split; [|vm_compute in E; injection E as <-; vm_compute; auto].
  eapply prun_walk; [|exact E]. clear E.
  let L := eval vm_compute in run104_frame in change run104_frame with L. let w := eval vm_compute in (pinit 60 2) in change (pinit 60 2) with w.
  repeat pstep_run.
Qed.
(** Half-way: the payload is announced and half of it has arrived. *)
Lemma run104_half : exists p, prun 60 tt0 cbs0 (proper 60 tt0 cbs0) (pinit 60 2) (firstn 18 run104) p /\ rx_dlen (w_rx (p_whole p)) = 3%nat /\ w_at (p_whole p) = Waiting.
Proof.
  destruct (pexec_all 60 tt0 cbs0 (firstn 18 run104) (pinit 60 2)) as [p|] eqn:E; [|vm_compute in E; discriminate].
  exists p. split; [|vm_compute in E; injection E as <-; vm_compute; auto].
  eapply prun_walk; [|exact E]. clear E.
  let L := eval vm_compute in (firstn 18 run104) in change (firstn 18 run104) with L. let w := eval vm_compute in (pinit 60 2) in change (pinit 60 2) with w.
  repeat pstep_run.
Qed.

(** C104, missing: an announcement that arrives late.  A data request times out; the next one has installed its callback but not sent its
    command yet; the late answer arrives: the callback announces data, the line counts as a URC, no response exists, and the read that
    completes the data stores it through a NULL pointer. *)
Definition run104_late : list plabel :=
  pstart ++ [PApp (LTimeout 0)] ++ pfinish ++ map PApp [LCall 0 q_recv; LThread 0; LThread 0] ++ [PSend (announcing ++ data0 ++ ok_line); PRead 7; PFetch; PAsk] ++ plines 3 ++ [PFetch; PAsk].
Lemma run104_late_ok : exists p, prun 60 tt0 cbs0 (in_format 60 tt0 cbs0) (pinit 60 1) run104_late p /\ in_format 60 tt0 cbs0 p (PRead 100) /\ pexec 60 tt0 cbs0 (PRead 100) p = Some UB.
Proof.
  destruct (pexec_all 60 tt0 cbs0 run104_late (pinit 60 1)) as [p|] eqn:E; [|vm_compute in E; discriminate].
  exists p. split; [|vm_compute in E; injection E as <-; split; [left; vm_compute; discriminate|vm_compute; reflexivity]].
  eapply prun_walk; [|exact E]. clear E.
  let L := eval vm_compute in run104_late in change run104_late with L. let w := eval vm_compute in (pinit 60 1) in change (pinit 60 1) with w.
  repeat pstep_run.
Qed.
Theorem c104_late_announcement_refuted : ~ (forall cap tt cbs n lbs p lb r, tables_ok (tokens_now tt None) ->
  prun cap tt cbs (in_format cap tt cbs) (pinit cap n) lbs p -> in_format cap tt cbs p lb -> pexec cap tt cbs lb p = Some r -> exists p', r = Ok p').
Proof.
  intro H. destruct run104_late_ok as (p & R & OK & E). destruct (H 60%nat tt0 cbs0 1%nat run104_late p (PRead 100) UB tables0 R OK E) as (p' & Q). discriminate.
Qed.
Print Assumptions c104_late_announcement_refuted.

(** C104, missing: the command in flight is the one the data belongs to when its callback announces them, but the request times out before the
    reader has looked at the announcing line: the line counts as a URC, no response exists, and the read that completes the data stores it
    through a NULL pointer. *)
Definition run104_timeout : list plabel :=
  pstart ++ [PSend (announcing ++ data0 ++ ok_line); PRead 7; PFetch; PAsk; PApp (LTimeout 0)] ++ pfinish ++ plines 3 ++ [PFetch; PAsk].
Lemma run104_timeout_ok : exists p, prun 60 tt0 cbs0 (at_any_time 60 tt0 cbs0) (pinit 60 1) run104_timeout p /\ at_any_time 60 tt0 cbs0 p (PRead 100) /\ pexec 60 tt0 cbs0 (PRead 100) p = Some UB.
Proof.
  destruct (pexec_all 60 tt0 cbs0 run104_timeout (pinit 60 1)) as [p|] eqn:E; [|vm_compute in E; discriminate].
  exists p. split; [|vm_compute in E; injection E as <-; split; [left; vm_compute; discriminate|vm_compute; reflexivity]].
  eapply prun_walk; [|exact E]. clear E.
  let L := eval vm_compute in run104_timeout in change run104_timeout with L. let w := eval vm_compute in (pinit 60 1) in change (pinit 60 1) with w.
  repeat pstep_run.
Qed.
Theorem c104_timeout_after_announcement_refuted : ~ (forall cap tt cbs n lbs p lb r, tables_ok (tokens_now tt None) ->
  prun cap tt cbs (at_any_time cap tt cbs) (pinit cap n) lbs p -> at_any_time cap tt cbs p lb -> pexec cap tt cbs lb p = Some r -> exists p', r = Ok p').
Proof.
  intro H. destruct run104_timeout_ok as (p & R & OK & E). destruct (H 60%nat tt0 cbs0 1%nat run104_timeout p (PRead 100) UB tables0 R OK E) as (p' & Q). discriminate.
Qed.
Print Assumptions c104_timeout_after_announcement_refuted.

(** C104, missing: the reader copies the callback pointer, and before it calls the callback the request times out, takes the callback away
    and returns: the callback runs after the request that supplied it has returned. *)
Definition run104_after : list plabel := pstart ++ [PSend (announcing ++ data0 ++ ok_line); PRead 4; PFetch; PApp (LTimeout 0)] ++ pfinish.
Lemma run104_after_ok : exists p, prun 60 tt0 cbs0 (proper 60 tt0 cbs0) (pinit 60 1) run104_after p /\ p_copy p = Some (None, Some 7%nat) /\ ths (w_core (p_whole p)) = [Idle] /\
  exists p', pexec 60 tt0 cbs0 PAsk p = Some (Ok p') /\ p_asked p' = [ForData 7 (s2b "+R:3")].
Proof.
  destruct (pexec_all 60 tt0 cbs0 run104_after (pinit 60 1)) as [p|] eqn:E; [|vm_compute in E; discriminate].
  exists p. split; [|vm_compute in E; injection E as <-; split; [reflexivity|]; split; [reflexivity|]; eexists; split; vm_compute; reflexivity].
  eapply prun_walk; [|exact E]. clear E.
  let L := eval vm_compute in run104_after in change run104_after with L. let w := eval vm_compute in (pinit 60 1) in change (pinit 60 1) with w.
  repeat pstep_run.
Qed.
Theorem c104_callback_after_return_refuted : ~ (forall cap tt cbs n lbs p, tables_ok (tokens_now tt None) ->
  prun cap tt cbs (proper cap tt cbs) (pinit cap n) lbs p -> call_is_current p).
Proof.
  intro H. destruct run104_after_ok as (p & R & C & T & _). destruct (proj2 (H 60%nat tt0 cbs0 1%nat run104_after p tables0 R) 7%nat C) as (i & pc & k & EP & CS & _).
  rewrite T in EP. destruct i as [|[|i]]; [injection EP as <-; exact CS|discriminate|discriminate].
Qed.
Print Assumptions c104_callback_after_return_refuted.

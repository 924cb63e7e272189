(** Property theorems: binary frames in the modem stream (C87) and the data-send prompt (C88). *)
From Coq Require Import String List NArith ZArith Bool Arith Lia.
From Verif Require Import Bytes AtCore SpecAt AtProofs Status PktHandler Pktio SpecPktio PktioLine PktioSafe SpecStream PktioStream PktioText SpecFrames PktioFrames PktioHooks.
From Verif Require Import Properties_Pktio.
Import ListNotations.
Local Open Scope string_scope.
Local Open Scope list_scope.

(** ** C87 *)
(** For every buffer size, every way of cutting the stream into reads, every reactive environment and every stream of text lines and
    frames in which each frame is directly followed by a line: the reader does with the lines exactly what it would do with the lines
    alone ([lines_steps], as in C16); no byte of a frame shows up in any dispatch, and no line is lost. *)
Theorem c87_frames_are_removed_partial : forall cap cbk fuel env t gs cs t' h' s', frames_env cbk env -> frames_stream cbk gs -> concat cs = bytes_of gs ->
  run cap fuel env t [] (rx0 cap) cs t' h' s' -> ~ In EvDrop h' ->
  exists a', lines_steps (env 0%nat) [] [] (lines_of gs) h' a'.
Proof.
  intros cap cbk fuel env t gs cs t' h' s' HE (GS & SEP & NIL) EC RUN ND.
  assert (SK : forall g, segment_ok cbk g -> exists c x, seg_bytes g = c :: x).
  { intros [l ends|f] K; [destruct K as (LN & _); destruct l; [contradiction|cbn; eauto]|destruct K as ((c & x & -> & _) & _); cbn; eauto]. }
  eapply (run_frames cap cbk env HE NIL _ _ _ _ _ _ _ _ RUN [] [] [] gs); [apply fresh_parked, fresh0|reflexivity| | |exact ND].
  - split; [exact EC|]. split; [constructor|]. split; [exact GS|exact SEP].
  - intro Q. rewrite EC in Q. destruct gs as [|g gs]; [reflexivity|]. exfalso. inversion GS as [|? ? K]; subst. destruct (SK g K) as (c & x & Z). unfold bytes_of in Q. cbn in Q. rewrite Z in Q. discriminate.
Qed.
Print Assumptions c87_frames_are_removed_partial.

(** A sample callback: a frame is a dollar sign and four arbitrary bytes. *)
Definition dollar : str -> pkt_status * nat * str := fun bs =>
  match bs with
  | 36%N :: t => if (5 <=? length bs)%nat then (PKT_OK, 5%nat, bs) else (PKT_SIZE_MISMATCH, 0%nat, bs)
  | _ => (PKT_PREFIX_MISMATCH, 0%nat, bs)
  end.
Lemma dollar_frame t : length t = 4%nat -> known_frame dollar (36%N :: t).
Proof.
  intro L. split; [exists 36%N, t; split; [reflexivity|intros [Q|[Q|Q]]; discriminate]|]. split.
  - intro x. unfold takes. cbn [length app dollar]. rewrite app_length, L. reflexivity.
  - intros p q E PN QN. left. destruct p as [|c p]; [contradiction|]. cbn [app] in E. inversion E; subst c t. exists 0%nat. unfold dollar. rewrite app_length in L.
    replace (5 <=? length (36%N :: p))%nat with false; [reflexivity|]. symmetry. apply Nat.leb_gt. cbn [length]. destruct q; [contradiction|cbn [length] in L; lia].
Qed.
Lemma dollar_other l c t : l = c :: t -> c <> 36%N -> declines dollar l.
Proof.
  intros -> NE. exists 0%nat. unfold dollar. destruct c as [|p]; [reflexivity|]. do 6 (destruct p as [p|p|]; try reflexivity). congruence.
Qed.
Lemma dollar_line c t : c <> 36%N -> foreign_line dollar (c :: t).
Proof.
  intro NE. split.
  - intros e x _. eapply dollar_other; [reflexivity|exact NE].
  - intros p q E PN. left. destruct p as [|d p]; [contradiction|]. cbn [app] in E. inversion E; subst d t. eapply dollar_other; [reflexivity|exact NE].
Qed.
Definition frame_view (cmd : at_type) (prefix : option str) : view := with_inbuf (Some dollar) (sample_view cmd prefix None).
Definition sample_frame : str := [36; 13; 10; 0; 36]%N.
Definition sample_segments : list segment :=
  [Line (s2b "+A: 1") crlf; Frame sample_frame; Line (s2b "+A: 2") crlf; Frame sample_frame; Line (s2b "OK") crlf].
(** The hypotheses are met; the frames contain line ends and NULs, the stream is cut inside frames and lines. *)
Example c87_ex : frames_env dollar (always (frame_view T_MULTI_WITH_PREFIX (Some (s2b "+A")))) /\ frames_stream dollar sample_segments /\
  exists c1 c2 c3 t s, concat [c1; c2; c3] = bytes_of sample_segments /\
    run code_cap 2000 (always (frame_view T_MULTI_WITH_PREFIX (Some (s2b "+A")))) 0 [] (rx0 code_cap) [c1; c2; c3] t [EvResp true [s2b "+A: 1"; s2b "+A: 2"]] s.
Proof.
  split; [|split].
  - intros t h. split; [reflexivity|]. repeat (split; [reflexivity|]). split; [exact sample_tables|]. split; [|reflexivity]. intros p Q. inversion Q; subst. split; [discriminate|cbn; lia].
  - assert (CR : crlf <> [] /\ Forall eol crlf) by (split; [discriminate|repeat constructor; unfold eol; tauto]).
    assert (TX : forall l, forallb (fun c => negb (is_eol c)) l = true -> line_text l).
    { intros l H. apply Forall_forall. intros c I. rewrite forallb_forall in H. specialize (H c I). apply is_eol_false. destruct (is_eol c); [discriminate|reflexivity]. }
    split; [|split; [cbn; tauto|left; exists 0%nat; reflexivity]].
    assert (LINE : forall c t, c <> 36%N -> forallb (fun c => negb (is_eol c)) (c :: t) = true -> segment_ok dollar (Line (c :: t) crlf)).
    { intros c t NE H. split; [discriminate|]. split; [apply TX, H|]. split; [apply CR|]. split; [apply CR|]. apply dollar_line, NE. }
    constructor; [apply LINE; [discriminate|reflexivity]|]. constructor; [apply dollar_frame; reflexivity|].
    constructor; [apply LINE; [discriminate|reflexivity]|]. constructor; [apply dollar_frame; reflexivity|].
    constructor; [apply LINE; [discriminate|reflexivity]|constructor].
  - set (S := bytes_of sample_segments). exists (firstn 9 S), (firstn 5 (skipn 9 S)), (skipn 14 S). eexists _, _. split; [reflexivity|].
    change (firstn 9 S) with (chunk (firstn 9 S) (offered code_cap (rx0 code_cap))).
    eapply run_read; [apply chunk_contract|left; vm_compute; discriminate|vm_compute; reflexivity|].
    match goal with |- SpecStream.run _ _ _ _ _ ?s _ _ _ _ => change (firstn 5 (skipn 9 S)) with (chunk (firstn 5 (skipn 9 S)) (offered code_cap s)) end.
    eapply run_read; [apply chunk_contract|left; vm_compute; discriminate|vm_compute; reflexivity|].
    match goal with |- SpecStream.run _ _ _ _ _ ?s _ _ _ _ => change (skipn 14 S) with (chunk (skipn 14 S) (offered code_cap s)) end.
    eapply run_read; [apply chunk_contract|left; vm_compute; discriminate|vm_compute; reflexivity|apply run_nil].
Qed.

(** Missing: frames not directly followed by a line.  A frame followed by a line end in the same read: the reader does not skip the line
    end, takes it for an empty line, and (no command in flight) refuses it and drops everything behind it; the same bytes in two reads
    are handled. *)
Definition frame_then_end : str := sample_frame ++ crlf ++ s2b "+CREG: 1" ++ crlf.
Theorem c87_frame_before_line_end_refuted :
  dispatched (reader code_cap 2000 (always (frame_view T_NO_COMMAND None)) 0 [] (rx0 code_cap) [chunk frame_then_end]) = Some [EvUndef []; EvDrop] /\
  dispatched (reader code_cap 2000 (always (frame_view T_NO_COMMAND None)) 0 [] (rx0 code_cap) [chunk sample_frame; chunk (crlf ++ s2b "+CREG: 1" ++ crlf)])
    = Some [EvUrc (s2b "+CREG: 1")].
Proof. split; vm_compute; reflexivity. Qed.
Print Assumptions c87_frame_before_line_end_refuted.
(** With a command in flight that takes several lines, the empty line becomes part of its response. *)
Theorem c87_empty_line_delivered_refuted :
  dispatched (reader code_cap 2000 (always (frame_view T_MULTI_WO_PREFIX None)) 0 [] (rx0 code_cap) [chunk (s2b "first" ++ crlf ++ sample_frame ++ crlf ++ s2b "OK" ++ crlf)])
  = Some [EvResp true [s2b "first"; []]].
Proof. vm_compute. reflexivity. Qed.
Print Assumptions c87_empty_line_delivered_refuted.
(** Two frames in a row: the second one is read as a line. *)
Theorem c87_second_frame_is_a_line_refuted : known_frame dollar (s2b "$abcd") /\
  dispatched (reader code_cap 2000 (always (frame_view T_NO_COMMAND None)) 0 [] (rx0 code_cap) [chunk (s2b "$abcd" ++ s2b "$abcd" ++ s2b "+CREG: 1" ++ crlf)])
  = Some [EvUndef (s2b "$abcd+CREG: 1"); EvDrop].
Proof. split; [apply dollar_frame; reflexivity|vm_compute; reflexivity]. Qed.
Print Assumptions c87_second_frame_is_a_line_refuted.

(** One read that brings bytes to a reader waiting in line mode with unread bytes [lft] and collected items [a]; [S0] is what is left of
    all unread bytes behind leading line ends. *)
Definition one_read (cap fuel : nat) (env : environment) (t : nat) (h : list event) (s : rx) (lft : str) (a : list (list N)) (S0 : str) (t1 : nat) (h1 : list event) (s1 : rx) : Prop :=
  exists recv k E, parked cap s lft a /\ rx_dlen s = 0%nat /\ room cap s /\ recv_contract recv /\ recv (offered cap s) <> [] /\
    lft ++ recv (offered cap s) = E ++ S0 /\ Forall eol E /\ (S0 = [] \/ exists c u, S0 = c :: u /\ ~ eol c) /\
    handleRxDataEvent cap fuel env t h s recv = Ok (k, t1, h1, s1).
(** The first pass of such a read. *)
Lemma one_read_pass cap fuel env t h s lft a S0 t1 h1 s1 : one_read cap fuel env t h s lft a S0 t1 h1 s1 ->
  exists s2 p n ev out sod, holds cap s2 p n S0 a /\ rx_dlen s2 = 0%nat /\ rx_resp s2 = rx_resp s /\
    (do r1 <- preprocessInputBuffer cap (env t h) s2 p n;
     match r1 with
     | Stop s3 => Ok ([], Stop s3, None)
     | Next s3 line2 n2 =>
        do r2 <- preprocessLine cap (env t h) s3 line2 n2 None;
        match r2 with
        | (Stop s4, sod2) => Ok ([], Stop s4, sod2)
        | (Next s4 line n, sod2) => tail cap (env t h) s4 line n sod2
        end
     end) = Ok (ev, out, sod) /\ (exists x, h1 = h ++ ev ++ x) /\ forall s3, out = Stop s3 -> s1 = s3 /\ h1 = h ++ ev.
Proof.
  intros (recv & k & E & PK & HD & RM & RC & NE & EQ & EE & HS & EV).
  destruct (event_first cap fuel env t h s recv k t1 h1 s1 lft a PK HD RM RC NE EV) as (s2 & p & n & HH & D2 & R2 & -> & NP & AL).
  pose proof (drop_split _ E S0 EQ EE HS) as DS. destruct fuel as [|fuel]; [discriminate|]. cbn [handleAllReceived] in AL. rewrite pass_tail in AL.
  destruct HH as (HB & HL & SL & HI). pose proof HB as (BL & _). destruct (skip_holds (rx_buf s2) n p _ ltac:(lia) SL) as (l1 & n1 & E1 & S1 & G1 & G2). rewrite E1 in AL. cbn [bind] in AL.
  rewrite DS in S1. match type of AL with bind ?x _ = _ => destruct x as [[[ev out] sod]| |] eqn:EP end; cbn [bind] in AL; try discriminate.
  exists s2, l1, n1, ev, out, sod. split; [|split; [exact D2|split; [exact R2|split; [exact EP|]]]].
  - split; [exact HB|]. split; [lia|]. split; [exact S1|]. eapply (items_agree cap); [exact HI|apply agree_refl|exact G2].
  - destruct out as [s3|s3 l3 n3].
    + inversion AL; subst. split; [exists []; rewrite app_nil_r; reflexivity|]. intros s4 [= ->]. auto.
    + split; [|discriminate]. destruct (loop_history _ _ _ _ _ _ _ _ _ _ _ _ AL) as (x & ->). exists x. symmetry. apply app_assoc.
Qed.
(** When the callback asks for more bytes, nothing is dispatched and all bytes are kept (and shown to it again with the next ones, as
    the next read starts from them). *)
Theorem c87_need_more_keeps_everything : forall cap fuel env t h s lft a S0 t1 h1 s1 cbk, one_read cap fuel env t h s lft a S0 t1 h1 s1 ->
  v_inbuf (env t h) = Some cbk -> needs_more cbk S0 -> h1 = h /\ parked cap s1 S0 a /\ rx_dlen s1 = 0%nat.
Proof.
  intros cap fuel env t h s lft a S0 t1 h1 s1 cbk R VI (k & CB). destruct (one_read_pass _ _ _ _ _ _ _ _ _ _ _ _ R) as (s2 & p & n & ev & out & sod & (HB & HL & SL & HI) & D2 & R2 & EP & _ & ST).
  unfold preprocessInputBuffer in EP. rewrite VI in EP. pose proof HB as (BL & _). rewrite rd_ok, SL in EP by lia. cbn [bind] in EP. rewrite CB in EP.
  rewrite <- SL in EP at 1. rewrite wr_id in EP by lia. cbn [bind] in EP. rewrite set_buf_id in EP. cbn [handleCallbackResult bind] in EP. injection EP as <- <- <-.
  destruct (ST _ eq_refl) as (-> & ->). rewrite app_nil_r. split; [reflexivity|]. split; [|exact D2].
  split; [exact HB|]. split; [cbn; lia|]. split; [exact SL|]. split; [exact HI|]. cbn. congruence.
Qed.
Print Assumptions c87_need_more_keeps_everything.
(** When it reports an error, or takes more bytes than it was shown, nothing is dispatched and all bytes are discarded.
    Missing: the lines collected so far for the response in progress are kept ([rx_resp]), although their bytes were in the discarded
    buffer; see [c87_error_spoils_the_response_refuted]. *)
Theorem c87_error_discards_partial : forall cap fuel env t h s lft a S0 t1 h1 s1 cbk st k bs', one_read cap fuel env t h s lft a S0 t1 h1 s1 ->
  v_inbuf (env t h) = Some cbk -> cbk S0 = (st, k, bs') -> length bs' = length S0 ->
  (st = PKT_OK /\ (length S0 < k)%nat \/ st <> PKT_OK /\ st <> PKT_PREFIX_MISMATCH /\ st <> PKT_SIZE_MISMATCH) ->
  h1 = h /\ rx_ptr s1 = None /\ rx_partial s1 = 0%nat /\ rx_resp s1 = rx_resp s /\ rx_dlen s1 = 0%nat.
Proof.
  intros cap fuel env t h s lft a S0 t1 h1 s1 cbk st k bs' R VI CB LB CS. destruct (one_read_pass _ _ _ _ _ _ _ _ _ _ _ _ R) as (s2 & p & n & ev & out & sod & HH & D2 & R2 & EP & _ & ST).
  pose proof (holds_len _ _ _ _ _ _ HH) as LN. destruct HH as (HB & HL & SL & HI).
  unfold preprocessInputBuffer in EP. rewrite VI in EP. pose proof HB as (BL & _). rewrite rd_ok, SL in EP by lia. cbn [bind] in EP. rewrite CB in EP.
  rewrite wr_ok in EP by lia. cbn [bind] in EP.
  assert (DONE : forall m, ([], Stop (reset_buf cap (set_buf s2 m)), @None nat) = (ev, out, sod) -> h1 = h /\ rx_ptr s1 = None /\ rx_partial s1 = 0%nat /\ rx_resp s1 = rx_resp s /\ rx_dlen s1 = 0%nat).
  { intros m [= <- <- <-]. destruct (ST _ eq_refl) as (-> & ->). rewrite app_nil_r. cbn. auto. }
  destruct CS as [(-> & KL)|(N1 & N2 & N3)].
  - replace (n <? k)%nat with true in EP by (symmetry; apply Nat.ltb_lt; lia). cbn [bind] in EP. injection EP as E1 E2 E3. eapply DONE. rewrite <- E1, <- E2, <- E3. reflexivity.
  - destruct st; try contradiction; cbn [handleCallbackResult bind] in EP; injection EP as E1 E2 E3; eapply DONE; rewrite <- E1, <- E2, <- E3; reflexivity.
Qed.
Print Assumptions c87_error_discards_partial.
(** The response in progress is not discarded, and what it holds are references into the discarded buffer: the line "first" of the
    answer, collected before the callback reported an error, is delivered as a second copy of the line received after it. *)
Definition alarmed : str -> pkt_status * nat * str := fun bs => match bs with 33%N :: _ => (PKT_FAILURE, 0%nat, bs) | _ => (PKT_PREFIX_MISMATCH, 0%nat, bs) end.
Theorem c87_error_spoils_the_response_refuted :
  dispatched (reader code_cap 2000 (always (with_inbuf (Some alarmed) (sample_view T_MULTI_WO_PREFIX None None))) 0 [] (rx0 code_cap)
    [chunk (s2b "first" ++ crlf); chunk (s2b "!bad"); chunk (s2b "second" ++ crlf ++ s2b "OK" ++ crlf)])
  = Some [EvResp true [s2b "second"; s2b "second"]].
Proof. vm_compute. reflexivity. Qed.
Print Assumptions c87_error_spoils_the_response_refuted.
(** When it takes [k] bytes (and possibly edits what follows), the line directly behind them, empty or not, is the next one dispatched,
    without a second look by the callback. *)
Theorem c87_line_behind_the_frame : forall cap fuel env t h s lft a S0 t1 h1 s1 cbk k bs' l e rest, one_read cap fuel env t h s lft a S0 t1 h1 s1 ->
  (let v := env t h in v_inbuf v = Some cbk /\ v_send v = None /\ v_data v = None /\ tables_ok (v_tokens v) /\ prefix_usable (v_prefix v) /\ v_cmd2 v = v_cmd v /\ v_handler v = true) ->
  cbk S0 = (PKT_OK, k, bs') -> length bs' = length S0 -> (k <= length S0)%nat -> skipn k bs' = l ++ e :: rest -> line_text l -> eol e ->
  rejects (env t h) a l /\ h1 = h ++ [EvUndef l; EvDrop] \/ exists ev a' x, line_step (env t h) a l ev a' /\ h1 = h ++ ev ++ x.
Proof.
  intros cap fuel env t h s lft a S0 t1 h1 s1 cbk k bs' l e rest R (VI & VS & VD & VT & VP & VC & VH) CB LB KL SK LT EE.
  destruct (one_read_pass _ _ _ _ _ _ _ _ _ _ _ _ R) as (s2 & p & n & ev & out & sod & HH & D2 & R2 & EP & (x & HX) & ST).
  pose proof (holds_len _ _ _ _ _ _ HH) as LN. destruct HH as (HB & HL & SL & HI).
  unfold preprocessInputBuffer in EP. rewrite VI in EP. pose proof HB as (BL & _). rewrite rd_ok, SL in EP by lia. cbn [bind] in EP. rewrite CB in EP.
  destruct (wr (rx_buf s2) p bs') as [m| |] eqn:W; [|rewrite wr_ok in W by lia; discriminate|rewrite wr_ok in W by lia; discriminate]. cbn [bind] in EP.
  replace (n <? k)%nat with false in EP by (symmetry; apply Nat.ltb_ge; lia). cbn [bind] in EP.
  assert (NZ : (n - k)%nat <> 0%nat). { assert (Q : length (skipn k bs') = (length l + S (length rest))%nat) by (rewrite SK, app_length; reflexivity). rewrite skipn_length in Q. lia. }
  unfold preprocessLine in EP. apply Nat.eqb_neq in NZ. rewrite NZ, VS, VD in EP. cbn [bind] in EP.
  set (s3 := set_left (set_buf s2 m) (Some (p + k)%nat) (rx_partial (set_buf s2 m))) in EP.
  pose proof (wr_length _ _ _ _ W) as LM. pose proof (buf_wr cap _ _ _ _ HB W ltac:(lia)) as BM.
  destruct (tail_first cap (env t h) s3 (p + k) (n - k) None l e rest a VT VP VC VH) with (ev := ev) (out := out) (sod' := sod) as [(RJ & -> & s4 & ->)|(a' & LS)]; auto.
  - cbn. lia.
  - lia.
  - cbn [s3 set_left set_buf rx_buf]. rewrite <- (skipn_skipn' m k p), <- skipn_firstn_comm. replace n with (length bs') by lia. rewrite (wr_slice _ _ _ _ W). exact SK.
  - cbn. apply buf_st. exact BM.
  - cbn. eapply (items_agree cap); [exact HI|eapply agree_wr; exact W|lia].
  - left. split; [exact RJ|]. apply (ST s4 eq_refl).
  - right. exists ev, a', x. auto.
Qed.
Print Assumptions c87_line_behind_the_frame.
(** The hypotheses of the one-read theorems are met: a frame in pieces, a frame with a line behind it, a callback taking too much. *)
Example c87_read_ex : 
  (exists t1 h1 s1, one_read code_cap 2000 (always (frame_view T_NO_COMMAND None)) 0 [] (rx0 code_cap) [] [] (s2b "$ab") t1 h1 s1 /\ needs_more dollar (s2b "$ab")) /\
  (exists t1 h1 s1, one_read code_cap 2000 (always (frame_view T_NO_COMMAND None)) 0 [] (rx0 code_cap) [] [] (s2b "$abcd+B: 1" ++ crlf) t1 h1 s1 /\
     dollar (s2b "$abcd+B: 1" ++ crlf) = (PKT_OK, 5%nat, s2b "$abcd+B: 1" ++ crlf) /\ h1 = [EvUrc (s2b "+B: 1")]).
Proof.
  assert (RD : forall c0 c u, (length (c :: u) <= 100)%nat -> ~ eol c -> c0 = crlf ++ c :: u -> forall t1 h1 s1 k, 
    handleRxDataEvent code_cap 2000 (always (frame_view T_NO_COMMAND None)) 0 [] (rx0 code_cap) (chunk c0) = Ok (k, t1, h1, s1) ->
    one_read code_cap 2000 (always (frame_view T_NO_COMMAND None)) 0 [] (rx0 code_cap) [] [] (c :: u) t1 h1 s1).
  { intros c0 c u L NE -> t1 h1 s1 k E. exists (chunk (crlf ++ c :: u)), k, crlf. split; [apply fresh_parked, fresh0|]. split; [reflexivity|]. split; [left; vm_compute; discriminate|].
    split; [apply chunk_contract|]. assert (Q : chunk (crlf ++ c :: u) (offered code_cap (rx0 code_cap)) = crlf ++ c :: u).
    { unfold chunk. apply firstn_all2. replace (offered code_cap (rx0 code_cap)) with code_cap by reflexivity. rewrite app_length. change (length crlf) with 2%nat. unfold code_cap. rewrite (Nat2N.inj_iff _ _) || idtac. lia. }
    rewrite Q. split; [discriminate|]. split; [reflexivity|]. split; [repeat constructor; unfold eol; tauto|]. split; [right; exists c, u; auto|exact E]. }
  split; eexists _, _, _.
  - split; [eapply (RD (crlf ++ s2b "$ab")); [cbn; lia|intros [Q|[Q|Q]]; discriminate|reflexivity|vm_compute; reflexivity]|exists 0%nat; reflexivity].
  - split; [eapply (RD (crlf ++ s2b "$abcd+B: 1" ++ crlf)); [cbn; lia|intros [Q|[Q|Q]]; discriminate|reflexivity|vm_compute; reflexivity]|]. split; reflexivity.
Qed.

(** A registered callback that always declines changes nothing in any session, whatever else is active. *)
Theorem c87_declining_callback_is_invisible : forall cap fuel env f inp, (cap < fuel)%nat -> (forall bs, declines f bs) ->
  (forall t h, view_contract (with_inbuf None (env t h)) /\ announcements_expected (env t h)) -> Forall recv_contract inp ->
  reader cap fuel (fun t h => with_inbuf (Some f) (env t h)) 0 [] (rx0 cap) inp = reader cap fuel (fun t h => with_inbuf None (env t h)) 0 [] (rx0 cap) inp.
Proof.
  intros cap fuel env f inp F DC HE RC. apply reader_same; [| |exact F|apply wf_rx0|exact RC].
  - intros t h. destruct (HE t h) as ((VI & VS & VD & VT) & VA). split; [|exact VA]. split; [|split; [exact VS|split; [exact VD|exact VT]]].
    intros g [= <-] bs st len bs' E. destruct (DC bs) as (k & Q). rewrite Q in E. inversion E; reflexivity.
  - intros t h s line n sod LW SN. apply inbuf_same; assumption.
Qed.
Print Assumptions c87_declining_callback_is_invisible.
Example c87_declining_ex : forall bs, declines (fun bs => (PKT_PREFIX_MISMATCH, 0%nat, bs)) bs.
Proof. intro bs. exists 0%nat. reflexivity. Qed.

(** ** C88 *)
(** While a data-send request waits for its prompt (its prefix callback is installed): the bytes the callback leaves, when it accepts or
    declines, are read as lines; in particular a prompt without line end, which the callback terminates, is dispatched at once. *)
Theorem c88_bytes_left_by_callback_are_read : forall cap fuel env t h s lft a S0 t1 h1 s1 f st bs' l e rest, one_read cap fuel env t h s lft a S0 t1 h1 s1 ->
  (let v := env t h in v_inbuf v = None /\ v_send v = Some f /\ tables_ok (v_tokens v) /\ prefix_usable (v_prefix v) /\ v_cmd2 v = v_cmd v /\ v_handler v = true) ->
  S0 <> [] -> f S0 = (st, bs') -> st = PKT_OK \/ st = PKT_PREFIX_MISMATCH -> bs' = l ++ e :: rest -> line_text l -> eol e ->
  (length bs' <= length S0)%nat \/ (rest = [] /\ length l = length S0) ->
  rejects (env t h) a l /\ h1 = h ++ [EvUndef l; EvDrop] \/ exists ev a' x, line_step (env t h) a l ev a' /\ h1 = h ++ ev ++ x.
Proof.
  intros cap fuel env t h s lft a S0 t1 h1 s1 f st bs' l e rest R (VI & VS & VT & VP & VC & VH) NE CB SC BS LT EE LB.
  destruct (one_read_pass _ _ _ _ _ _ _ _ _ _ _ _ R) as (s2 & p & n & ev & out & sod & HH & D2 & R2 & EP & (x & HX) & ST).
  pose proof (holds_len _ _ _ _ _ _ HH) as LN. destruct HH as (HB & HL & SL & HI). pose proof HB as (BL & BZ).
  assert (LL : length bs' = (length l + S (length rest))%nat) by (rewrite BS, app_length; reflexivity).
  assert (LB2 : (p + length bs' <= S cap)%nat) by (destruct LB as [LB|(-> & LB)]; cbn [length] in *; lia).
  unfold preprocessInputBuffer in EP. rewrite VI in EP. cbn [bind] in EP. unfold preprocessLine in EP.
  assert (NZ : n <> 0%nat) by (destruct S0; [contradiction|cbn [length] in LN; lia]). apply Nat.eqb_neq in NZ. rewrite NZ, VS in EP. rewrite rd_ok, SL in EP by lia. cbn [bind] in EP. rewrite CB in EP.
  destruct (wr (rx_buf s2) p bs') as [m| |] eqn:W; [|rewrite wr_ok in W by lia; discriminate|rewrite wr_ok in W by lia; discriminate]. cbn [bind] in EP.
  assert (EP2 : tail cap (env t h) (set_buf s2 m) p (length bs') None = Ok (ev, out, sod)) by (destruct SC as [-> | ->]; exact EP). clear EP.
  pose proof (wr_length _ _ _ _ W) as LM.
  destruct (tail_first cap (env t h) (set_buf s2 m) p (length bs') None l e rest a VT VP VC VH) with (ev := ev) (out := out) (sod' := sod) as [(RJ & -> & s4 & ->)|(a' & LS)]; auto.
  - cbn. lia.
  - cbn [set_buf rx_buf]. rewrite (wr_slice _ _ _ _ W). exact BS.
  - cbn [set_buf rx_buf]. split; [rewrite upd_length; lia|]. rewrite upd_nth. destruct ((cap =? p + length l)%nat && (p + length l <? length m)%nat) eqn:Q; [reflexivity|].
    rewrite (wr_nth _ _ _ _ cap 1%N W). destruct ((p <=? cap)%nat && (cap <? p + length bs')%nat) eqn:Z; [|exact BZ].
    exfalso. apply andb_true_iff in Z. destruct Z as [_ Z]. apply Nat.ltb_lt in Z. destruct LB as [LB|(-> & LB)]; [lia|]. cbn [length] in *.
    assert (cap = p + length l)%nat by lia. rewrite <- H, Nat.eqb_refl in Q. cbn [andb] in Q. apply Nat.ltb_ge in Q. lia.
  - cbn. eapply (items_agree cap); [exact HI|eapply agree_wr; exact W|lia].
  - left. split; [exact RJ|]. apply (ST s4 eq_refl).
  - right. exists ev, a', x. auto.
Qed.
Print Assumptions c88_bytes_left_by_callback_are_read.
(** When it asks for more: nothing is dispatched, everything is kept. *)
Theorem c88_need_more_keeps_everything : forall cap fuel env t h s lft a S0 t1 h1 s1 f, one_read cap fuel env t h s lft a S0 t1 h1 s1 ->
  v_inbuf (env t h) = None -> v_send (env t h) = Some f -> f S0 = (PKT_SIZE_MISMATCH, S0) -> h1 = h /\ parked cap s1 S0 a /\ rx_dlen s1 = 0%nat.
Proof.
  intros cap fuel env t h s lft a S0 t1 h1 s1 f R VI VS CB. destruct (one_read_pass _ _ _ _ _ _ _ _ _ _ _ _ R) as (s2 & p & n & ev & out & sod & HH & D2 & R2 & EP & _ & ST).
  pose proof (holds_len _ _ _ _ _ _ HH) as LN. destruct HH as (HB & HL & SL & HI). pose proof HB as (BL & _).
  assert (PK : forall sX, sX = set_left s2 (Some p) n -> parked cap sX S0 a /\ rx_dlen sX = 0%nat).
  { intros sX ->. split; [|exact D2]. split; [exact HB|]. split; [cbn; lia|]. split; [exact SL|]. split; [exact HI|]. cbn. congruence. }
  unfold preprocessInputBuffer in EP. rewrite VI in EP. cbn [bind] in EP. unfold preprocessLine in EP. destruct (n =? 0)%nat eqn:NZ.
  - apply Nat.eqb_eq in NZ. cbn [bind] in EP. injection EP as <- <- <-. destruct (ST _ eq_refl) as (-> & ->). rewrite app_nil_r. split; [reflexivity|]. apply PK. rewrite NZ. reflexivity.
  - rewrite VS, rd_ok, SL in EP by lia. cbn [bind] in EP. rewrite CB in EP. rewrite <- SL in EP at 1. rewrite wr_id in EP by lia. cbn [bind] in EP. cbv zeta in EP. rewrite set_buf_id, LN in EP. cbn [handleCallbackResult bind] in EP.
    injection EP as <- <- <-. destruct (ST _ eq_refl) as (-> & ->). rewrite app_nil_r. split; [reflexivity|]. apply PK. reflexivity.
Qed.
Print Assumptions c88_need_more_keeps_everything.
(** When it reports an error: nothing is dispatched, all bytes are discarded (but not the response in progress, see
    [c88_error_spoils_the_response_refuted]). *)
Theorem c88_error_discards_partial : forall cap fuel env t h s lft a S0 t1 h1 s1 f st bs', one_read cap fuel env t h s lft a S0 t1 h1 s1 ->
  v_inbuf (env t h) = None -> v_send (env t h) = Some f -> S0 <> [] -> f S0 = (st, bs') -> (length bs' <= length S0)%nat ->
  st <> PKT_OK -> st <> PKT_PREFIX_MISMATCH -> st <> PKT_SIZE_MISMATCH ->
  h1 = h /\ rx_ptr s1 = None /\ rx_partial s1 = 0%nat /\ rx_resp s1 = rx_resp s /\ rx_dlen s1 = 0%nat.
Proof.
  intros cap fuel env t h s lft a S0 t1 h1 s1 f st bs' R VI VS NE CB LB N1 N2 N3. destruct (one_read_pass _ _ _ _ _ _ _ _ _ _ _ _ R) as (s2 & p & n & ev & out & sod & HH & D2 & R2 & EP & _ & ST).
  pose proof (holds_len _ _ _ _ _ _ HH) as LN. destruct HH as (HB & HL & SL & HI). pose proof HB as (BL & _).
  unfold preprocessInputBuffer in EP. rewrite VI in EP. cbn [bind] in EP. unfold preprocessLine in EP.
  assert (NZ : n <> 0%nat) by (destruct S0; [contradiction|cbn [length] in LN; lia]). apply Nat.eqb_neq in NZ. rewrite NZ, VS in EP. rewrite rd_ok, SL in EP by lia. cbn [bind] in EP. rewrite CB in EP.
  rewrite wr_ok in EP by lia. cbn [bind] in EP.
  destruct st; try contradiction; cbn [handleCallbackResult bind] in EP; injection EP as <- <- <-; destruct (ST _ eq_refl) as (-> & ->); rewrite app_nil_r; cbn; auto.
Qed.
Print Assumptions c88_error_discards_partial.
(** The same with the prompt callback: the response delivered has a line the modem did not send in this place, and lacks one it sent. *)
Definition alarmed_prompt : str -> pkt_status * str := fun bs => match bs with 33%N :: _ => (PKT_FAILURE, bs) | _ => (PKT_PREFIX_MISMATCH, bs) end.
Theorem c88_error_spoils_the_response_refuted :
  dispatched (reader code_cap 2000 (always (with_send (Some alarmed_prompt) (sample_view T_MULTI_WO_PREFIX None None))) 0 [] (rx0 code_cap)
    [chunk (s2b "first" ++ crlf); chunk (s2b "!bad"); chunk (s2b "second" ++ crlf ++ s2b "OK" ++ crlf)])
  = Some [EvResp true [s2b "second"; s2b "second"]].
Proof. vm_compute. reflexivity. Qed.
Print Assumptions c88_error_spoils_the_response_refuted.
(** A prefix callback that always declines changes nothing in any session (it replaces the data callback, if any). *)
Theorem c88_declining_callback_is_invisible : forall cap fuel env f inp, (cap < fuel)%nat -> (forall bs, f bs = (PKT_PREFIX_MISMATCH, bs)) ->
  (forall t h, v_inbuf (env t h) = None /\ v_data (env t h) = None /\ tables_ok (v_tokens (env t h))) -> Forall recv_contract inp ->
  reader cap fuel (fun t h => with_send (Some f) (env t h)) 0 [] (rx0 cap) inp = reader cap fuel (fun t h => with_send None (env t h)) 0 [] (rx0 cap) inp.
Proof.
  intros cap fuel env f inp F DC HE RC. apply reader_same; [| |exact F|apply wf_rx0|exact RC].
  - intros t h. destruct (HE t h) as (VI & VD & VT). split; [split; [|split; [|split]]|].
    + cbn. rewrite VI. discriminate.
    + intros g [= <-] bs st bs' E. rewrite DC in E. inversion E. left. lia.
    + cbn. rewrite VD. discriminate.
    + exact VT.
    + intros g bs st start d bs' Q. discriminate.
  - intros t h s line n sod LW SN. destruct (HE t h) as (VI & VD & _). apply send_same; assumption.
Qed.
Print Assumptions c88_declining_callback_is_invisible.

(** The prompt callback of the ports: "> " without line end; the blank is replaced by a line end. *)
Definition prompt_cb : str -> pkt_status * str := fun bs =>
  match bs with
  | [62; 32]%N => (PKT_OK, [62; 10]%N)
  | [62]%N => (PKT_SIZE_MISMATCH, bs)
  | _ => (PKT_PREFIX_MISMATCH, bs)
  end.
Definition prompt_tokens : token_table :=
  {| tk_error := Some [s2b "ERROR"]; tk_success := Some [s2b "OK"]; tk_urc_wo_prefix := None; tk_extra_success := Some [s2b ">"] |}.
Definition prompt_view : view :=
  {| v_inbuf := None; v_send := Some prompt_cb; v_data := None; v_tokens := prompt_tokens; v_cmd := T_NO_RESULT; v_prefix := None; v_cmd2 := T_NO_RESULT;
     v_handler := true; v_undef := fun _ => PKT_INVALID_DATA |}.
Example c88_ex : exists t1 h1 s1, one_read code_cap 2000 (always prompt_view) 0 [] (rx0 code_cap) [] [] (s2b "> ") t1 h1 s1 /\ h1 = [EvResp true []] /\
  tables_ok prompt_tokens /\ prompt_cb (s2b "> ") = (PKT_OK, s2b ">" ++ [10%N]).
Proof.
  eexists _, _, _. split; [|split; [reflexivity|split; [|reflexivity]]].
  - exists (chunk (crlf ++ s2b "> ")), 4%nat, crlf. split; [apply fresh_parked, fresh0|]. split; [reflexivity|]. split; [left; vm_compute; discriminate|]. split; [apply chunk_contract|].
    replace (chunk (crlf ++ s2b "> ") (offered code_cap (rx0 code_cap))) with (crlf ++ s2b "> ") by (vm_compute; reflexivity).
    split; [discriminate|]. split; [reflexivity|]. split; [repeat constructor; unfold eol; tauto|]. split; [right; exists 62%N, [32%N]; split; [reflexivity|intros [Q|[Q|Q]]; discriminate]|vm_compute; reflexivity].
  - repeat split; try discriminate; intros k Q; inversion Q; subst; cbn; lia.
Qed.

(** Property theorems: the receive path (C14-C23, C69). *)
From Coq Require Import String List NArith ZArith Bool Arith Lia.
From Verif Require Import Bytes AtCore SpecAt AtProofs Status PktHandler Pktio SpecPktio PktioLine PktioSafe SpecStream PktioStream PktioText.
Import ListNotations.
Local Open Scope string_scope.
Local Open Scope list_scope.

(** The read buffer of the code: PKTIO_READ_BUFFER_SIZE. *)
Definition code_cap : nat := N.to_nat 1600.

(** Sample token tables, views and environments for the examples. *)
Definition sample_tokens : token_table :=
  {| tk_error := Some [s2b "ERROR"; s2b "+CME ERROR:"]; tk_success := Some [s2b "OK"]; tk_urc_wo_prefix := Some [s2b "RDY"]; tk_extra_success := None |}.
Definition sample_view (cmd : at_type) (prefix : option str) (data : option (str -> pkt_status * option nat * option nat * str)) : view :=
  {| v_inbuf := None; v_send := None; v_data := data; v_tokens := sample_tokens; v_cmd := cmd; v_prefix := prefix; v_cmd2 := cmd;
     v_handler := true; v_undef := fun _ => PKT_INVALID_DATA |}.
Definition always (v : view) : environment := fun _ _ => v.
Definition crlf : str := [13; 10]%N.
Definition chunk (s : str) : nat -> str := fun space => firstn space s.
Lemma chunk_contract s : recv_contract (chunk s).
Proof. intro n. unfold chunk. rewrite firstn_length. lia. Qed.
Lemma sample_tables : tables_ok sample_tokens.
Proof.
  split; [discriminate|]. split; [discriminate|].
  repeat split; intros k Q; inversion Q; subst; cbn; lia.
Qed.
(** A data prefix callback for lines "+D:4": payload of 4 bytes behind the line end. *)
Definition dline : str := s2b "+D:4" ++ crlf.
Fixpoint starts (p s : str) : bool :=
  match p, s with [], _ => true | a :: p', b :: s' => (a =? b)%N && starts p' s' | _ :: _, [] => false end.
Definition sample_data (d : nat) : str -> pkt_status * option nat * option nat * str := fun bs =>
  if starts dline bs then (PKT_OK, Some 6%nat, Some d, bs)
  else if starts bs dline then (PKT_SIZE_MISMATCH, None, None, bs)
  else (PKT_PREFIX_MISMATCH, None, None, bs).
Lemma starts_iff p s : starts p s = true <-> is_prefix_of p s.
Proof.
  revert s; induction p as [|a p IH]; intros s; cbn [starts]; [split; [exists s; reflexivity|reflexivity]|].
  destruct s as [|b s]; [split; [discriminate|intros (r & Q); discriminate]|].
  rewrite andb_true_iff, N.eqb_eq, IH. split; [intros (-> & r & ->); exists r; reflexivity|intros (r & Q); inversion Q; subst; split; [reflexivity|exists r; reflexivity]].
Qed.
Lemma prefix_or p bs x : is_prefix_of p (bs ++ x) -> is_prefix_of p bs \/ is_prefix_of bs p.
Proof.
  revert bs; induction p as [|a p IH]; intros bs (r & Q); [left; exists bs; reflexivity|]. destruct bs as [|b bs]; [right; eexists; reflexivity|].
  cbn [app] in Q. inversion Q; subst. destruct (IH bs) as [(u & ->)|(u & ->)]; [exists r; assumption|left; exists u; reflexivity|right; exists u; reflexivity].
Qed.
Lemma prefix_app p bs x : is_prefix_of p bs -> is_prefix_of p (bs ++ x).
Proof. intros (r & ->). exists (r ++ x). symmetry. apply app_assoc. Qed.
Lemma prefix_of_app p bs x : is_prefix_of (bs ++ x) p -> is_prefix_of bs p.
Proof. intros (r & ->). exists (x ++ r). symmetry. apply app_assoc. Qed.
Lemma sample_data_stable d : d <> 0%nat -> data_stable (sample_data d).
Proof.
  intros D bs. unfold sample_data. destruct (starts dline bs) eqn:E1.
  - left. exists 6%nat, d. split; [reflexivity|]. split; [exact D|]. apply starts_iff in E1. destruct E1 as (r & ->).
    split; [rewrite app_length; cbn; lia|]. split; [exists 13%N; split; [cbn; tauto|right; left; reflexivity]|].
    intro x. replace (starts dline ((dline ++ r) ++ x)) with true; [reflexivity|]. symmetry. apply starts_iff. apply prefix_app. exists r. reflexivity.
  - destruct (starts bs dline) eqn:E2.
    + right. right. exists None. reflexivity.
    + right. left. exists None. split; [reflexivity|]. intros _ x. exists None.
      assert (N1 : ~ is_prefix_of dline bs) by (rewrite <- starts_iff, E1; discriminate).
      assert (N2 : ~ is_prefix_of bs dline) by (rewrite <- starts_iff, E2; discriminate).
      destruct (starts dline (bs ++ x)) eqn:E3; [apply starts_iff in E3; destruct (prefix_or _ _ _ E3); contradiction|].
      destruct (starts (bs ++ x) dline) eqn:E4; [apply starts_iff, prefix_of_app in E4; contradiction|reflexivity].
Qed.
Lemma not_matches ks l : forallb (fun k => negb (starts k l)) ks = true -> ~ matches (Some ks) l.
Proof.
  intros H (_ & ks' & k & [= <-] & I & _ & P). rewrite forallb_forall in H. specialize (H k I). apply starts_iff in P. rewrite P in H. discriminate.
Qed.
Definition data_view (d : nat) : view := sample_view T_MULTI_DATA_WO_PREFIX (Some (s2b "+D")) (Some (sample_data d)).
Lemma plain_dline : plain_line sample_tokens (s2b "+D:4").
Proof. split; [intros [Q|Q]; revert Q; [intros (_ & ks & k & Q & _); discriminate|apply not_matches; reflexivity]|apply not_matches; reflexivity]. Qed.
Lemma data_view_expected d : announcements_expected (data_view d).
Proof.
  intros f bs st start k bs' _ E F. inversion E; subst. unfold sample_data in F. destruct (starts dline bs) eqn:E1; [|destruct (starts bs dline); discriminate].
  inversion F; subst. apply starts_iff in E1. destruct E1 as (r & ->). exists (s2b "+D:4"), 13%N, (10%N :: r). split; [reflexivity|].
  split; [repeat constructor; intros [Q|[Q|Q]]; discriminate|]. split; [right; left; reflexivity|].
  split; [intros p Q; inversion Q; subst; split; [discriminate|cbn; lia]|].
  split; [|split; [reflexivity|exact plain_dline]].
  split; [intros (ks & Q & I); inversion Q; subst; destruct I as [I|[]]; discriminate|]. split; [discriminate|].
  intros _. eexists. split; [reflexivity|]. exists (s2b ":4"). reflexivity.
Qed.
Lemma data_env_ok d : d <> 0%nat -> stream_env (always (data_view d)).
Proof.
  intros D t h. split; [reflexivity|]. cbn. repeat split; try exact sample_tables; try (intros k Q; inversion Q; subst; cbn; lia); try discriminate.
  - inversion H; subst; discriminate.
  - inversion H; subst; cbn; lia.
  - intros f Q; inversion Q; subst. apply sample_data_stable; exact D.
  - apply data_view_expected.
Qed.
Lemma text_env_ok cmd prefix : prefix_usable prefix -> stream_env (always (sample_view cmd prefix None)).
Proof.
  intros P t h. split; [reflexivity|]. cbn. split; [reflexivity|]. split; [reflexivity|]. split; [reflexivity|]. split; [exact sample_tables|]. split; [exact P|]. split; [reflexivity|].
  split; [discriminate|]. intros f bs st start k bs' _ E. discriminate.
Qed.

(** ** C14 *)
Theorem c14_lines_are_classified_partial : forall tt cmd prefix l, prefix_usable prefix ->
  (getMsgType tt cmd l prefix = AT_SOLICITED <-> line_of_command tt cmd prefix l) /\
  (getMsgType tt cmd l prefix = AT_UNSOLICITED <-> line_is_urc tt cmd prefix l) /\
  (getMsgType tt cmd l prefix = AT_UNDEFINED <-> line_is_unexpected tt cmd l).
Proof. exact classification. Qed.
Print Assumptions c14_lines_are_classified_partial.
(** Missing: [prefixed] only counts lines of at most 256 bytes.  A longer URC is not recognised: *)
Theorem c14_long_line_refuted : exists l, prefix_form l /\ getMsgType sample_tokens T_NO_COMMAND l None = AT_UNDEFINED.
Proof.
  exists (s2b "+QIURC: " ++ repeat 65%N 260). split; [|vm_compute; reflexivity].
  exists (s2b "QIURC"), (32%N :: repeat 65%N 260). split; [reflexivity|]. repeat constructor; unfold prefix_char; cbn; lia.
Qed.
Print Assumptions c14_long_line_refuted.
Example c14_ex : getMsgType sample_tokens T_WITH_PREFIX (s2b "+CREG: 1") (Some (s2b "+CPIN")) = AT_UNSOLICITED /\
  getMsgType sample_tokens T_WITH_PREFIX (s2b "+CPIN: READY") (Some (s2b "+CPIN")) = AT_SOLICITED /\
  getMsgType sample_tokens T_NO_COMMAND (s2b "garbage") None = AT_UNDEFINED /\ prefix_usable (Some (s2b "+CPIN")).
Proof. repeat split; intros; inversion H; subst; cbn; try discriminate; lia. Qed.

(** ** C15 *)
(** [r] is the response under construction, [p] where the line lies. *)
Theorem c15_result_codes : forall tt p l r t, tables_ok tt ->
  (success_line tt l -> ProcessLine tt p l r t = Ok (PKT_OK, {| r_status := true; r_items := r_items r |})) /\
  (error_line tt l -> ProcessLine tt p l r t = Ok (PKT_OK, {| r_status := false; r_items := r_items r |})) /\
  (plain_line tt l -> ~ no_code_type t -> exists st r', ProcessLine tt p l r t = Ok (st, r') /\ st <> PKT_OK /\ r_status r' = r_status r) /\
  (success_line tt l \/ error_line tt l \/ plain_line tt l).
Proof.
  intros tt p l r t HT. pose proof (process_line_spec tt p l r t HT) as H.
  assert (XA : success_line tt l -> error_line tt l -> False) by (intros A [B _]; auto).
  assert (XB : success_line tt l -> plain_line tt l -> False) by (intros A [B _]; auto).
  assert (XC : error_line tt l -> plain_line tt l -> False) by (intros [_ A] [_ B]; auto).
  split; [|split; [|split]].
  - intro C. destruct H as [[C' H]|[[C' H]|[C' H]]]; [exact H|exfalso; eauto|exfalso; eauto].
  - intro C. destruct H as [[C' H]|[[C' H]|[C' H]]]; [exfalso; eauto|exact H|exfalso; eauto].
  - intros C NT. destruct H as [[C' H]|[[C' H]|[C' H]]]; [exfalso; eauto|exfalso; eauto|]. rewrite H.
    destruct t; cbn [processIntermediateResponse]; try (destruct (r_items r)); try (eexists _, _; split; [reflexivity|split; [discriminate|reflexivity]]).
    all: exfalso; apply NT; first [left; reflexivity|right; reflexivity].
  - destruct H as [[C' H]|[[C' H]|[C' H]]]; auto.
Qed.
Print Assumptions c15_result_codes.
Example c15_ex : success_line sample_tokens (s2b "OK") /\ error_line sample_tokens (s2b "+CME ERROR: 10") /\ plain_line sample_tokens (s2b "+D:4").
Proof.
  split; [|split; [|exact plain_dline]].
  - right. split; [split; [discriminate|cbn; lia]|]. exists [s2b "OK"], (s2b "OK"). split; [reflexivity|]. split; [left; reflexivity|].
    split; [split; [discriminate|cbn; lia]|exists []; reflexivity].
  - split.
    + intros [Q|Q]; revert Q; [intros (_ & ks & k & Q & _); discriminate|apply not_matches; reflexivity].
    + split; [split; [discriminate|cbn; lia]|]. eexists _, (s2b "+CME ERROR:"). split; [reflexivity|]. split; [right; left; reflexivity|].
      split; [split; [discriminate|cbn; lia]|]. exists (s2b " 10"). reflexivity.
Qed.

(** Without the mandatory tables no line completes a command: it goes to the handler of undefined lines instead, which decides. *)
Theorem c15_without_tables : forall cap v s line l, tk_error (v_tokens v) = None \/ tk_success (v_tokens v) = None -> v_handler v = true ->
  forall st mt ev s', handleMsgType cap v AT_SOLICITED s line l = Ok (st, mt, ev, s') ->
  (forall ok ls, ~ In (EvResp ok ls) ev) /\ hd_error ev = Some (EvUndef l) /\ mt = AT_UNDEFINED /\ (st = PKT_OK <-> v_undef v l = PKT_OK).
Proof.
  intros cap v s line l HT HH st mt ev s' E. unfold handleMsgType in E.
  assert (P : forall r t, ProcessLine (v_tokens v) line l r t = Ok (PKT_FAILURE, r)).
  { intros r t. unfold ProcessLine. destruct HT as [-> | ->]; [reflexivity|]. destruct (tk_error (v_tokens v)); reflexivity. }
  rewrite P in E. cbn [bind] in E. rewrite HH in E. destruct (v_undef v l); injection E as <- <- <- <-;
    (split; [intros ok ls I; cbn in I; repeat destruct I as [I|I]; try discriminate; destruct I|]; split; [reflexivity|]; split; [reflexivity|]; split; [auto; discriminate|auto; discriminate]).
Qed.
Print Assumptions c15_without_tables.
Example c15_without_tables_ex : exists s', handleMsgType 40
  {| v_inbuf := None; v_send := None; v_data := None; v_tokens := {| tk_error := None; tk_success := None; tk_urc_wo_prefix := None; tk_extra_success := None |};
     v_cmd := T_NO_RESULT; v_prefix := None; v_cmd2 := T_NO_RESULT; v_handler := true; v_undef := fun _ => PKT_INVALID_DATA |}
  AT_SOLICITED (rx0 40) 0 (s2b "OK") = Ok (PKT_INVALID_DATA, AT_UNDEFINED, [EvUndef (s2b "OK"); EvDrop], s').
Proof. eexists. vm_compute. reflexivity. Qed.

(** ** C16, C19: text streams *)
(** Whatever the chunking, the reader dispatches the non-empty lines of the stream, split at CR, LF and NUL, in order,
    each one according to [line_step] (URCs reported, intermediate lines collected, final result code delivering exactly the
    collected lines). *)
Theorem c16_lines_are_dispatched_partial : forall cap fuel env t cs t' h' s', stream_env env -> (forall h, v_data (env 0%nat h) = None) ->
  run cap fuel env t [] (rx0 cap) cs t' h' s' -> ~ In EvDrop h' ->
  exists a', lines_steps (env 0%nat) [] [] (fst (stream_lines [] (concat cs))) h' a'.
Proof. exact text_refines. Qed.
Print Assumptions c16_lines_are_dispatched_partial.
(** A response of a command taking several lines (or at most one for the single-line types), with URCs in between, is delivered
    with exactly its intermediate lines in order, and the URCs are reported in order. *)
Theorem c16_response_has_its_lines : forall v env ls us ps final (ok : bool), sorted_out v ls us ps ->
  line_of_command (v_tokens v) (v_cmd v) (v_prefix v) final -> (if ok then success_line (v_tokens v) final else error_line (v_tokens v) final) ->
  multi_line_type (v_cmd v) \/ single_line_type (v_cmd v) /\ (length ps <= 1)%nat ->
  forall h h' a', (forall us1, env (h ++ map EvUrc us1) = v) -> lines_steps env h [] (ls ++ [final]) h' a' ->
  h' = h ++ map EvUrc us ++ [EvResp ok ps] /\ a' = [].
Proof. intros. eapply (response_collect v env ls us ps final ok) with (a := []); eauto. Qed.
Print Assumptions c16_response_has_its_lines.
(** Missing: streams in which a line is refused (see C23), reads with a full buffer still holding unfinished input (C20); with
    commands that time out: [c16_lines_are_dispatched_over_time_partial] in Properties_Timed.v. *)

(** Two ways of cutting the same stream: the same dispatches up to the first refusal, and a refusal in one means a refusal in the
    other; with payloads. *)
Theorem c19_chunking_is_irrelevant_partial : forall cap fuel1 fuel2 env t1 t2 cs1 cs2 t1' t2' h1 h2 s1 s2, stream_env env -> concat cs1 = concat cs2 ->
  run cap fuel1 env t1 [] (rx0 cap) cs1 t1' h1 s1 -> run cap fuel2 env t2 [] (rx0 cap) cs2 t2' h2 s2 ->
  before_drop h1 = before_drop h2 /\ (In EvDrop h1 <-> In EvDrop h2).
Proof. exact chunking. Qed.
Print Assumptions c19_chunking_is_irrelevant_partial.
(** After a refusal the chunking decides what is lost: *)
Definition junk_then_urc : str := s2b "junk" ++ crlf ++ s2b "+CREG: 1" ++ crlf.
Theorem c19_chunking_matters_refuted : exists cs1 cs2 h1 h2 s1 s2 t1 t2, concat cs1 = concat cs2 /\
  run code_cap 2000 (always (sample_view T_NO_COMMAND None None)) 0 [] (rx0 code_cap) cs1 t1 h1 s1 /\
  run code_cap 2000 (always (sample_view T_NO_COMMAND None None)) 0 [] (rx0 code_cap) cs2 t2 h2 s2 /\
  In (EvUrc (s2b "+CREG: 1")) h2 /\ ~ In (EvUrc (s2b "+CREG: 1")) h1.
Proof.
  exists [junk_then_urc], [s2b "junk" ++ crlf; s2b "+CREG: 1" ++ crlf].
  eexists _, _, _, _, _, _. split; [reflexivity|]. split; [|split; [|split]].
  - change junk_then_urc with (chunk junk_then_urc (offered code_cap (rx0 code_cap))).
    eapply run_read; [apply chunk_contract|left; vm_compute; discriminate|vm_compute; reflexivity|apply run_nil].
  - change (s2b "junk" ++ crlf) with (chunk (s2b "junk" ++ crlf) (offered code_cap (rx0 code_cap))).
    eapply run_read; [apply chunk_contract|left; vm_compute; discriminate|vm_compute; reflexivity|].
    match goal with |- run _ _ _ _ _ ?s _ _ _ _ => change (s2b "+CREG: 1" ++ crlf) with (chunk (s2b "+CREG: 1" ++ crlf) (offered code_cap s)) end.
    eapply run_read; [apply chunk_contract|left; vm_compute; discriminate|vm_compute; reflexivity|apply run_nil].
  - vm_compute. tauto.
  - vm_compute. intros [Q|[Q|[]]]; discriminate.
Qed.
Print Assumptions c19_chunking_matters_refuted.

(** A run exists for sample data (hypotheses of the theorems above and of C22): three chunks cutting the announcement, the payload
    (which contains a line end) and the final result code. *)
Definition sample_chunks : list str := [crlf ++ s2b "+D"; s2b ":4" ++ crlf ++ s2b "a" ++ [13%N]; [10%N] ++ s2b "b" ++ crlf ++ s2b "OK" ++ crlf].
Example run_ex : exists t s, run code_cap 2000 (always (data_view 4)) 0 [] (rx0 code_cap) sample_chunks t
   [EvResp true [s2b "+D:4"; s2b "a" ++ crlf ++ s2b "b"]] s.
Proof.
  eexists _, _. unfold sample_chunks.
  change (crlf ++ s2b "+D") with (chunk (crlf ++ s2b "+D") (offered code_cap (rx0 code_cap))).
  eapply run_read; [apply chunk_contract|left; vm_compute; discriminate|vm_compute; reflexivity|].
  match goal with |- run _ _ _ _ _ ?s (?c :: _) _ _ _ => change c with (chunk c (offered code_cap s)) end.
  eapply run_read; [apply chunk_contract|left; vm_compute; discriminate|vm_compute; reflexivity|].
  match goal with |- run _ _ _ _ _ ?s (?c :: _) _ _ _ => change c with (chunk c (offered code_cap s)) end.
  eapply run_read; [apply chunk_contract|left; vm_compute; discriminate|vm_compute; reflexivity|].
  apply run_nil.
Qed.

(** ** C17 *)
(** An unprefixed line is taken as the response of a command that asked for a prefix. *)
Definition dispatched (r : res (nat * list event * rx)) : option (list event) := match r with Ok (_, h, _) => Some h | _ => None end.
Theorem c17_unprefixed_line_delivered_refuted :
  dispatched (reader code_cap 2000 (always (sample_view T_WITH_PREFIX (Some (s2b "+CPIN")) None)) 0 [] (rx0 code_cap)
    [chunk (s2b "hello" ++ crlf ++ s2b "OK" ++ crlf)]) = Some [EvResp true [s2b "hello"]].
Proof. vm_compute. reflexivity. Qed.
Print Assumptions c17_unprefixed_line_delivered_refuted.
(** What does hold: a line that carries a prefix is only taken for the command in flight if it is the requested one. *)
Theorem c17_prefixed_lines_carry_the_prefix_partial : forall tt cmd prefix l, prefix_usable prefix -> prefixed l ->
  getMsgType tt cmd l prefix = AT_SOLICITED -> exists p r, prefix = Some p /\ l = p ++ r.
Proof.
  intros tt cmd prefix l U P S. apply (classification tt cmd prefix l U) in S. destruct S as (_ & _ & S). destruct (S P) as (p & E & r & Q). eauto.
Qed.
Print Assumptions c17_prefixed_lines_carry_the_prefix_partial.

(** ** C18 *)
(** For every buffer size, every chunk sequence (never more than asked for), every interference of other threads between lines and
    every behaviour of the port callbacks within their contracts, the reader never performs an out-of-bounds access, a NULL access
    or a length wrap-around ([UB]) and never loops forever ([Diverge], more than cap passes per read). *)
Theorem c18_receive_path_is_safe_partial : forall cap fuel env inp, (cap < fuel)%nat ->
  (forall t h, view_contract (env t h) /\ announcements_expected (env t h)) -> Forall recv_contract inp ->
  exists t' h' s', reader cap fuel env 0 [] (rx0 cap) inp = Ok (t', h', s').
Proof.
  intros cap fuel env inp F HE HI. destruct (reader_safe cap env fuel HE F inp 0%nat [] (rx0 cap) (wf_rx0 cap) HI) as (t' & h' & s' & E & _). eauto.
Qed.
Print Assumptions c18_receive_path_is_safe_partial.
(** Missing: [announcements_expected].  A payload announced when no data command is in flight (its request timed out while the
    callback is installed) makes the reader store through a NULL response. *)
Theorem c18_late_data_refuted : exists env inp, (forall t h, view_contract (env t h)) /\ Forall recv_contract inp /\
  reader code_cap 2000 env 0 [] (rx0 code_cap) inp = UB.
Proof.
  exists (always (sample_view T_NO_COMMAND None (Some (sample_data 4)))), [chunk dline; chunk (s2b "abcd")].
  split; [|split; [repeat constructor; apply chunk_contract|vm_compute; reflexivity]].
  intros t h. split; [discriminate|]. split; [discriminate|]. split; [|exact sample_tables].
  intros f E. inversion E; subst. intros bs st start len bs' F. unfold sample_data in F.
  destruct (starts dline bs) eqn:S1; [|destruct (starts bs dline)]; inversion F; subst; (split; [reflexivity|]); intros d D; try discriminate.
  split; [reflexivity|]. eexists. split; [reflexivity|]. apply starts_iff in S1. destruct S1 as (r & ->). rewrite app_length. cbn. lia.
Qed.
Print Assumptions c18_late_data_refuted.
Example c18_ex : (forall t h, view_contract (always (data_view 4) t h) /\ announcements_expected (always (data_view 4) t h)).
Proof.
  intros t h. split; [|apply data_view_expected]. split; [discriminate|]. split; [discriminate|]. split; [|exact sample_tables].
  intros f E. inversion E; subst. intros bs st start len bs' F. unfold sample_data in F.
  destruct (starts dline bs) eqn:S1; [|destruct (starts bs dline)]; inversion F; subst; (split; [reflexivity|]); intros d D; try discriminate.
  split; [reflexivity|]. eexists. split; [reflexivity|]. apply starts_iff in S1. destruct S1 as (r & ->). rewrite app_length. cbn. lia.
Qed.

(** ** C20 *)
(** A response of 160 lines that fills the buffer, then a URC and the final result code: the first line delivered is the URC. *)
Definition full_response : str := concat (repeat (s2b "+A:12345" ++ crlf) 160).
Theorem c20_saved_lines_overwritten_refuted : exists rest,
  dispatched (reader code_cap 2000 (always (sample_view T_MULTI_WITH_PREFIX (Some (s2b "+A")) None)) 0 [] (rx0 code_cap)
    [chunk full_response; chunk []; chunk (s2b "+B:99999" ++ crlf ++ s2b "OK" ++ crlf)])
  = Some [EvUrc (s2b "+B:99999"); EvResp true (s2b "+B:99999" :: s2b "OK" :: rest)].
Proof. exists (repeat (s2b "+A:12345") 158). vm_compute. reflexivity. Qed.
Print Assumptions c20_saved_lines_overwritten_refuted.

(** An error status of the data callback also wipes lines already collected. *)
Definition failing_data : str -> pkt_status * option nat * option nat * str := fun bs =>
  if starts (s2b "+E") bs then (PKT_FAILURE, None, None, bs) else (PKT_PREFIX_MISMATCH, None, None, bs).
Theorem c20_callback_error_wipes_lines_refuted :
  dispatched (reader code_cap 2000 (always (sample_view T_MULTI_WO_PREFIX None (Some failing_data))) 0 [] (rx0 code_cap)
    [chunk (s2b "first line" ++ crlf ++ s2b "+E" ++ crlf); chunk (s2b "OK" ++ crlf)]) = Some [EvResp true [s2b "OK"]].
Proof. vm_compute. reflexivity. Qed.
Print Assumptions c20_callback_error_wipes_lines_refuted.
(** What holds: as long as no read happens with a full buffer still in use ([room], part of [run]), and the data callback reports
    no error, every execution delivers, byte for byte, the lines and payloads of the stream: [stream_steps] speaks about the bytes
    of the stream only, so the items of every [EvResp] are unaltered stream bytes; a refused line loses at most the rest of the
    chunk that completed it. *)
Theorem c20_delivered_bytes_are_stream_bytes_partial : forall cap fuel env t cs t' h' s', stream_env env ->
  run cap fuel env t [] (rx0 cap) cs t' h' s' -> chunks_processed (env 0%nat) [] [] 0%nat [] cs h'.
Proof. exact run_refines. Qed.
Print Assumptions c20_delivered_bytes_are_stream_bytes_partial.

(** ** C21 *)
(** 160 URCs that exactly fill the buffer: the next read returns 0 although 5 bytes are there. *)
Theorem c21_reader_stalls_refuted : exists s t h, 
  reader code_cap 2000 (always (sample_view T_NO_COMMAND None None)) 0 [] (rx0 code_cap) [chunk full_response] = Ok (t, h, s) /\
  rx_partial s = 0%nat /\ rx_resp s = None /\
  exists s', handleRxDataEvent code_cap 2000 (always (sample_view T_NO_COMMAND None None)) t h s (chunk (s2b "+B:1" ++ crlf)) = Ok (0%nat, t, h, s').
Proof.
  eexists _, _, _. split; [vm_compute; reflexivity|]. split; [reflexivity|]. split; [reflexivity|]. eexists. vm_compute. reflexivity.
Qed.
Print Assumptions c21_reader_stalls_refuted.
(** What holds: whenever the buffer has free space behind the read position, a read with pending bytes returns a non-zero count,
    and after a read that found no space the next one has the whole buffer. *)
Theorem c21_progress_partial : forall cap fuel env t h s recv k t' h' s', handleRxDataEvent cap fuel env t h s recv = Ok (k, t', h', s') ->
  (offered cap s <> 0%nat -> recv (offered cap s) <> [] -> k <> 0%nat) /\ (offered cap s = 0%nat -> offered cap s' = cap).
Proof.
  intros cap fuel env t h s recv k t' h' s'. unfold handleRxDataEvent, ReadLine, offered. fold (compacts s).
  destruct (compacts s) eqn:EC.
  - destruct (rd _ _ _) as [d| |]; cbn [bind]; try discriminate. destruct (wr _ 0 d) as [m| |]; cbn [bind]; try discriminate.
    destruct (st _ _ _) as [m1| |]; cbn [bind]; try discriminate. cbn [set_left set_buf rx_buf rx_partial rx_ptr].
    destruct (0 <? cap - rx_partial s - 0)%nat eqn:ES.
    + apply Nat.ltb_lt in ES. destruct (wr m1 _ _) as [m2| |]; cbn [bind]; try discriminate.
      destruct (0 <? length (recv (cap - rx_partial s - 0)))%nat eqn:EB.
      * apply Nat.ltb_lt in EB. destruct (st m2 _ _) as [m3| |]; cbn [bind]; try discriminate.
        match goal with |- context [(0 <? ?x)%nat] => assert (L : (0 < x)%nat) by lia; apply Nat.ltb_lt in L; rewrite L; apply Nat.ltb_lt in L end.
        intro E. assert (K : k <> 0%nat).
        { revert E. match goal with |- bind ?x _ = _ -> _ => destruct x as [[[? ?] ?]| |]; cbn [bind]; try discriminate end.
          destruct (0 <? n0)%nat; [|intro Q; inversion Q; subst; lia]. destruct (st _ _ 0%N); cbn [bind]; try discriminate.
          destruct (handleAllReceived _ _ _ _ _ _ _ _ _) as [[[? ?] ?]| |]; cbn [bind]; try discriminate. intro Q; inversion Q; subst; lia. }
        split; [intros; exact K|lia].
      * apply Nat.ltb_ge in EB. cbn [bind]. cbn [Nat.ltb Nat.leb]. intro E; inversion E; subst. split; [|lia].
        intros _ N. exfalso. apply N. destruct (recv _); [reflexivity|cbn [length] in EB; lia].
    + apply Nat.ltb_ge in ES. cbn [bind Nat.ltb Nat.leb]. intro E; inversion E; subst. split; [lia|]. intros _. cbn. lia.
  - cbn [bind]. set (o := match rx_ptr s with Some p => p | None => 0%nat end).
    destruct (0 <? cap - rx_partial s - o)%nat eqn:ES.
    + apply Nat.ltb_lt in ES. destruct (wr _ _ _) as [m2| |]; cbn [bind]; try discriminate.
      destruct (0 <? length (recv (cap - rx_partial s - o)))%nat eqn:EB.
      * apply Nat.ltb_lt in EB. destruct (st m2 _ _) as [m3| |]; cbn [bind]; try discriminate.
        match goal with |- context [(0 <? ?x)%nat] => assert (L : (0 < x)%nat) by lia; apply Nat.ltb_lt in L; rewrite L; apply Nat.ltb_lt in L end.
        intro E. assert (K : k <> 0%nat).
        { revert E. match goal with |- bind ?x _ = _ -> _ => destruct x as [[[? ?] ?]| |]; cbn [bind]; try discriminate end.
          destruct (0 <? n0)%nat; [|intro Q; inversion Q; subst; lia]. destruct (st _ _ 0%N); cbn [bind]; try discriminate.
          destruct (handleAllReceived _ _ _ _ _ _ _ _ _) as [[[? ?] ?]| |]; cbn [bind]; try discriminate. intro Q; inversion Q; subst; lia. }
        split; [intros; exact K|lia].
      * apply Nat.ltb_ge in EB. cbn [bind]. cbn [Nat.ltb Nat.leb]. intro E; inversion E; subst. split; [|lia].
        intros _ N. exfalso. apply N. destruct (recv _); [reflexivity|cbn [length] in EB; lia].
    + apply Nat.ltb_ge in ES. cbn [bind Nat.ltb Nat.leb]. intro E; inversion E; subst. split; [lia|]. intros _. cbn. lia.
Qed.
Print Assumptions c21_progress_partial.

(** ** C22 *)
(** Wherever in the stream the payload is announced: if its bytes are [pl], the response gets the announcing line and exactly [pl],
    whatever its bytes and however the stream was cut, and the rest [post] of the stream is processed as what follows. *)
Theorem c22_payload_is_exact_partial : forall cap fuel env t cs t' h' s' h a l e gap pl post, stream_env env ->
  run cap fuel env t [] (rx0 cap) cs t' h' s' -> l <> [] -> line_text l -> eol e ->
  stream_steps (env 0%nat) ([], [], 0%nat, concat cs) (h, a, 0%nat, (l ++ e :: gap) ++ pl ++ post) ->
  announces (env 0%nat h) ((l ++ e :: gap) ++ pl ++ post) (length (l ++ e :: gap)) (length pl) ->
  halted (env 0%nat) (h, a ++ [l; pl], 0%nat, post) h' \/
  exists a' lft', settled (env 0%nat h') (rx_dlen s') lft' /\ stream_steps (env 0%nat) (h, a ++ [l; pl], 0%nat, post) (h', a', rx_dlen s', lft').
Proof. exact payload_refines. Qed.
Print Assumptions c22_payload_is_exact_partial.
(** Missing: payloads that do not fit the buffer behind what it already holds (excluded by [room]), and payloads that start inside
    the announcing line: there the first line end of the payload is overwritten. *)
Definition inline_data : str -> pkt_status * option nat * option nat * str := fun bs =>
  if starts (s2b "+D:4,") bs then (PKT_OK, Some 5%nat, Some 4%nat, bs) else (PKT_PREFIX_MISMATCH, None, None, bs).
Theorem c22_inline_payload_refuted :
  dispatched (reader code_cap 2000 (always (sample_view T_MULTI_DATA_WO_PREFIX (Some (s2b "+D")) (Some inline_data))) 0 [] (rx0 code_cap)
    [chunk (s2b "+D:4,a" ++ [13%N] ++ s2b "bc" ++ crlf ++ s2b "OK" ++ crlf)]) = Some [EvResp true [s2b "+D:4,a"; s2b "a" ++ [0%N] ++ s2b "bc"]].
Proof. vm_compute. reflexivity. Qed.
Print Assumptions c22_inline_payload_refuted.

(** ** C23 *)
(** A refused line takes the rest of its chunk with it: *)
Theorem c23_refused_line_loses_the_next_refuted :
  dispatched (reader code_cap 2000 (always (sample_view T_NO_COMMAND None None)) 0 [] (rx0 code_cap) [chunk junk_then_urc])
  = Some [EvUndef (s2b "junk"); EvDrop].
Proof. vm_compute. reflexivity. Qed.
Print Assumptions c23_refused_line_loses_the_next_refuted.
(** and nothing else: [chunks_processed] (see C20) restarts with the next chunk.  In particular: *)
Theorem c23_later_chunks_survive_partial : forall cap fuel env t cs t' h' s', stream_env env ->
  run cap fuel env t [] (rx0 cap) cs t' h' s' -> chunks_processed (env 0%nat) [] [] 0%nat [] cs h'.
Proof. exact run_refines. Qed.
Print Assumptions c23_later_chunks_survive_partial.

(** ** C76 *)
(** A line that is neither a response nor a URC, with the undefined-response callback [cb]: if it accepts the line, reading goes on with
    the state unchanged; if there is none or it refuses, the line counts as invalid, the response under construction and the
    buffered input are dropped and reading starts afresh.  Whatever error the callback gives, the reader sees INVALID_DATA. *)
Theorem c76_undefined_line : forall cap v s line l cb, v_handler v = true -> v_undef v = handleUndefinedMessage cb ->
  prefix_usable (v_prefix v) -> line_is_unexpected (v_tokens v) (v_cmd v) l ->
  (forall f, cb = Some f -> f l = PKT_OK ->
     handleMsgType cap v (getMsgType (v_tokens v) (v_cmd v) l (v_prefix v)) s line l = Ok (PKT_OK, AT_UNDEFINED, [EvUndef l], s)) /\
  ((cb = None \/ exists f, cb = Some f /\ f l <> PKT_OK) -> exists s',
     handleMsgType cap v (getMsgType (v_tokens v) (v_cmd v) l (v_prefix v)) s line l = Ok (PKT_INVALID_DATA, AT_UNDEFINED, [EvUndef l; EvDrop], s') /\
     rx_resp s' = None /\ rx_ptr s' = None /\ rx_partial s' = 0%nat).
Proof.
  intros cap v s line l cb Hv Hu Hp Hl. destruct (classification (v_tokens v) (v_cmd v) (v_prefix v) l Hp) as (_ & _ & C). apply C in Hl. rewrite Hl.
  unfold handleMsgType. cbn. rewrite Hv, Hu. split.
  - intros f -> Hf. cbn. rewrite Hf. reflexivity.
  - intros [->|(f & -> & Hf)]; cbn.
    + eexists. split; [reflexivity|]. repeat split.
    + destruct (f l); try congruence; (eexists; split; [reflexivity|]; repeat split).
Qed.
Print Assumptions c76_undefined_line.
Example c76_ex : let v := sample_view T_NO_COMMAND None None in prefix_usable (v_prefix v) /\ v_handler v = true /\
  line_is_unexpected (v_tokens v) (v_cmd v) (s2b "garbage").
Proof.
  split; [|split; [reflexivity|]].
  - intros p H. discriminate.
  - apply (classification sample_tokens T_NO_COMMAND None (s2b "garbage")); [intros p H; discriminate|reflexivity].
Qed.

(** ** C69 *)
(** A 10-byte payload is announced and two bytes of it arrive; the request times out and a plain command is sent; its answer "OK" is
    taken for payload and never dispatched. *)
Definition timeout_env : environment := fun t _ =>
  match t with O => data_view 10 | _ => sample_view T_NO_RESULT None None end.
Theorem c69_answer_swallowed_refuted :
  dispatched (reader code_cap 2000 timeout_env 0 [] (rx0 code_cap) [chunk (dline ++ s2b "ab"); chunk (crlf ++ s2b "OK" ++ crlf)]) = Some [].
Proof. vm_compute. reflexivity. Qed.
Print Assumptions c69_answer_swallowed_refuted.

(** Properties C82-C84: from the bytes of the modem to the results of the API calls (models: Pktio.v, G3pp.v, Wire.v). *)
From Coq Require Import String List NArith ZArith Bool Arith Lia.
From Verif Require Import Bytes AtCore SpecAt Status Pktio SpecPktio SpecStream RegStatus SpecReg G3pp SpecG3ppApi Wire SpecWire WireProofs Properties_Pktio Properties_Reg.
From Verif Require Request.
Import ListNotations.
Local Open Scope string_scope.
Local Open Scope list_scope.

(** ** C82: API results are a function of the lines of the answers. *)

(** The bytes received, in whatever chunks, have lines that answer the call's requests as the modem [m] does, with URCs anywhere in
    between and anything afterwards.  Then the call, served by the reader, has the same result and outputs as with the answers of [m]:
    nothing of the fragmentation, blank lines, kind of line terminators or URCs is visible in it.
    Missing from the full claim: requests that time out (see Properties_Timed.v), requests with data, a read with a full buffer (C21). *)
Theorem c82_result_from_lines_partial : forall A f, api_function A f -> forall m x, f m = Ok x ->
  forall cap fuel env t cs t' h' s' ls rest r h, stream_env env -> (forall h, v_data (env 0%nat h) = None) ->
  run cap fuel env t [] (rx0 cap) cs t' h' s' ->
  stream_lines [] (concat cs) = (ls ++ rest, r) -> session (env 0%nat) m [] [] (sent x) ls h ->
  f (wire_modem h') = Ok x.
Proof.
  intros A f AF m x F cap fuel env t cs t' h' s' ls rest r h HE ND RUN SL SE.
  destruct (wire_history _ _ _ _ _ _ _ _ _ _ _ _ _ _ HE ND RUN SE SL) as (y & ->).
  apply (causal_api _ _ AF m); [exact F|]. intros h1 q t1 E. exact (session_answers _ _ _ _ _ _ _ SE eq_refl y h1 q t1 E).
Qed.

(** In particular two byte streams whose lines answer the call's requests alike give the same result, even with different URCs. *)
Theorem c82_fragmentation_partial : forall A f, api_function A f -> forall m x, f m = Ok x ->
  forall cap1 fuel1 env1 t1 cs1 t1' h1' s1' ls1 rest1 r1 h1 cap2 fuel2 env2 t2 cs2 t2' h2' s2' ls2 rest2 r2 h2,
  stream_env env1 -> (forall h, v_data (env1 0%nat h) = None) -> stream_env env2 -> (forall h, v_data (env2 0%nat h) = None) ->
  run cap1 fuel1 env1 t1 [] (rx0 cap1) cs1 t1' h1' s1' -> run cap2 fuel2 env2 t2 [] (rx0 cap2) cs2 t2' h2' s2' ->
  stream_lines [] (concat cs1) = (ls1 ++ rest1, r1) -> session (env1 0%nat) m [] [] (sent x) ls1 h1 ->
  stream_lines [] (concat cs2) = (ls2 ++ rest2, r2) -> session (env2 0%nat) m [] [] (sent x) ls2 h2 ->
  f (wire_modem h1') = f (wire_modem h2').
Proof.
  intros A f AF m x F cap1 fuel1 env1 t1 cs1 t1' h1' s1' ls1 rest1 r1 h1 cap2 fuel2 env2 t2 cs2 t2' h2' s2' ls2 rest2 r2 h2 E1 D1 E2 D2 R1 R2 L1 S1 L2 S2.
  rewrite (c82_result_from_lines_partial A f AF m x F _ _ _ _ _ _ _ _ _ _ _ _ E1 D1 R1 L1 S1).
  rewrite (c82_result_from_lines_partial A f AF m x F _ _ _ _ _ _ _ _ _ _ _ _ E2 D2 R2 L2 S2). reflexivity.
Qed.

(** Cellular_GetRegisteredNetwork: two requests; the answers come in five chunks with two URCs and a stray "RDY" in between, the first
    URC before any answer, and the next answer begins in the chunk that ends the first. *)
Definition ex_modem : modem := fun h => match h with [_] => Answered [] | _ => Answered [s2b "+COPS: 0,2,""26201"",7"] end.
Definition ex_lib : option lib_flags := Some {| bLibOpened := true; bLibShutdown := false; bLibClosing := false |}.
Definition ex_call : modem -> res (result (option plmn)) := fun m => GetRegisteredNetwork 32 ex_lib m true (Some {| p_mcc := repeat 7%N 4; p_mnc := repeat 7%N 4 |}).
Definition ex_env : environment := back_to_back sample_tokens (fun _ => PKT_INVALID_DATA) [req_cops32; req_cops].
Definition ex_chunks : list str :=
  [crlf ++ s2b "+CREG: 1" ++ crlf ++ s2b "O"; s2b "K" ++ crlf ++ s2b "+CO"; s2b "PS: 0,2,""262"; s2b "01"",7" ++ [13%N];
   [10%N] ++ s2b "RDY" ++ crlf ++ s2b "OK" ++ crlf ++ s2b "+CREG: 5" ++ crlf].
Ltac feed := match goal with |- run _ _ _ _ _ ?s (?c :: _) _ _ _ => change c with (chunk c (offered code_cap s)) end;
  eapply run_read; [apply chunk_contract|left; vm_compute; discriminate|vm_compute; reflexivity|].
Example c82_run : exists t h s, run code_cap 2000 ex_env 0 [] (rx0 code_cap) ex_chunks t h s /\
  ex_call (wire_modem h) = Ok {| sent := [req_cops32; req_cops]; ret := C_SUCCESS; out := Some {| p_mcc := s2b "262" ++ [0%N]; p_mnc := s2b "01" ++ [0%N; 0%N] |} |}.
Proof. eexists _, _, _. split; [unfold ex_chunks; do 5 feed; apply run_nil|]. vm_compute. reflexivity. Qed.
Lemma ex_stream_env : stream_env ex_env.
Proof.
  intros t h. split; [reflexivity|]. unfold ex_env, back_to_back. destruct (nth_error _ _) as [q|] eqn:E.
  - assert (Q : q = req_cops32 \/ q = req_cops) by (apply nth_error_In in E; destruct E as [E|[E|[]]]; auto).
    destruct Q as [-> | -> ]; cbn; (split; [reflexivity|]; split; [reflexivity|]; split; [reflexivity|]; split; [exact sample_tables|]; split;
      [intros p Q; inversion Q; subst; (split; [discriminate|cbn; lia])|]; split; [reflexivity|]; split; [discriminate|]; intros f bs st start k bs' _ Q; discriminate).
  - cbn. split; [reflexivity|]; split; [reflexivity|]; split; [reflexivity|]; split; [exact sample_tables|]; split; [intros p Q; discriminate|]; split; [reflexivity|]; split; [discriminate|].
    intros f bs st start k bs' _ Q; discriminate.
Qed.
Lemma not_success l : forallb (fun k => negb (starts k l)) [s2b "OK"] = true -> ~ success_line sample_tokens l.
Proof. intros H [(_ & ks & k & Q & _)|Q]; [discriminate|]. revert Q. apply not_matches. exact H. Qed.
Lemma ok_success : success_line sample_tokens (s2b "OK").
Proof. right. split; [split; [discriminate|cbn; lia]|]. exists [s2b "OK"], (s2b "OK"). split; [reflexivity|]. split; [left; reflexivity|]. split; [split; [discriminate|cbn; lia]|]. exists []. reflexivity. Qed.
Example c82_ex : exists ls rest r h, stream_lines [] (concat ex_chunks) = (ls ++ rest, r) /\ session (ex_env 0%nat) ex_modem [] [] [req_cops32; req_cops] ls h /\
  rest <> [] /\ (exists x, ex_call ex_modem = Ok x /\ sent x = [req_cops32; req_cops]).
Proof.
  exists [s2b "+CREG: 1"; s2b "OK"; s2b "+COPS: 0,2,""26201"",7"; s2b "RDY"; s2b "OK"], [s2b "+CREG: 5"], []. eexists. split; [vm_compute; reflexivity|]. split; [|split; [discriminate|]].
  - assert (NP : ~ prefixed (s2b "OK")).
    { intros [_ (a & b & E & _)]. discriminate. }
    assert (NU : forall l, (exists c t, l = c :: t /\ c <> 82%N) -> ~ in_table (tk_urc_wo_prefix sample_tokens) l).
    { intros l (c & t & -> & NC) (k & Q & I). injection Q as <-. destruct I as [I|[]]. inversion I; subst. apply NC. reflexivity. }
    eapply (se_cons _ _ _ _ _ _ [s2b "+CREG: 1"; s2b "OK"] [s2b "+COPS: 0,2,""26201"",7"; s2b "RDY"; s2b "OK"]); [|eapply (se_cons _ _ _ _ _ _ [s2b "+COPS: 0,2,""26201"",7"; s2b "RDY"; s2b "OK"] []); [|apply se_nil]].
    + eapply rp_urc.
      * right. split; [split; [split; [discriminate|cbn; lia]|]|right; cbn; intros (p & Q & _); discriminate].
        exists (s2b "CREG"), (s2b " 1"). split; [reflexivity|]. repeat constructor; unfold prefix_char; cbn; lia.
      * apply rp_success; [split; reflexivity| |exact ok_success]. split; [apply NU; eexists _, _; split; [reflexivity|discriminate]|]. split; [discriminate|]. intro P. contradiction.
    + eapply rp_line; [split; reflexivity| | |right; split; [right; reflexivity|reflexivity]|].
      * split; [apply NU; eexists _, _; split; [reflexivity|discriminate]|]. split; [discriminate|]. intros _. eexists. split; [reflexivity|]. exists (s2b ": 0,2,""26201"",7"). reflexivity.
      * split; [apply not_success; reflexivity|apply not_matches; reflexivity].
      * eapply rp_urc; [left; eexists; split; [reflexivity|left; reflexivity]|].
        apply rp_success; [split; reflexivity| |exact ok_success]. split; [apply NU; eexists _, _; split; [reflexivity|discriminate]|]. split; [discriminate|]. intro P. contradiction.
  - eexists. split; [vm_compute; reflexivity|]. reflexivity.
Qed.

(** Where the code violates the claim: a read that finds the buffer full.  The same byte stream (a URC, an eDRX line, URCs, another
    eDRX line, "OK"), cut differently: once both settings are reported; once, when one read fills the buffer, the next read finds no
    space (nothing is read) and the following one overwrites the line already collected: the call fails.  If no further bytes
    announce themselves after the read that found no space, the rest stays unread and the call times out. *)
Definition edrx_stream1 : list str :=
  [s2b "+B:123456789012345678" ++ crlf ++ s2b "+"; s2b "CEDRXS: 4,""1001""" ++ crlf ++ concat (repeat (s2b "+A:12345" ++ crlf) 155) ++ s2b "+A:123" ++ crlf;
   s2b "+CEDRXS: 5,""0011""" ++ crlf ++ s2b "OK" ++ crlf].
Definition edrx_stream2 : list str := [nth 0 edrx_stream1 [] ++ nth 1 edrx_stream1 []; []; nth 2 edrx_stream1 []].
Definition edrx_env : environment := always (sample_view T_MULTI_WITH_PREFIX (Some (s2b "+CEDRXS")) None).
Definition edrx_request : req := {| rq_cmd := s2b "AT+CEDRXS?"; rq_type := T_MULTI_WITH_PREFIX; rq_prefix := Some (s2b "+CEDRXS") |}.
Definition read_chunks (cs : list str) : option (list event) := dispatched (reader code_cap 2000 edrx_env 0 [] (rx0 code_cap) (map chunk cs)).
Theorem c82_full_buffer_refuted : concat edrx_stream1 = concat edrx_stream2 /\ exists h1 h2 h3,
  read_chunks edrx_stream1 = Some h1 /\ read_chunks edrx_stream2 = Some h2 /\ read_chunks (firstn 1 edrx_stream2 ++ skipn 2 edrx_stream2) = Some h3 /\
  GetEidrxSettings 32 ex_lib (wire_modem h1) (Some edrx0) =
    Ok {| sent := [edrx_request]; ret := C_SUCCESS; out := Some {| e_list := [(4, 9); (5, 3); (0, 0); (0, 0)]%Z; e_count := 2 |} |} /\
  GetEidrxSettings 32 ex_lib (wire_modem h2) (Some edrx0) = Ok {| sent := [edrx_request]; ret := C_INTERNAL_FAILURE; out := Some edrx0 |} /\
  GetEidrxSettings 32 ex_lib (wire_modem h3) (Some edrx0) = Ok {| sent := [edrx_request]; ret := C_TIMEOUT; out := Some edrx0 |}.
Proof.
  split; [vm_compute; reflexivity|]. eexists _, _, _. split; [vm_compute; reflexivity|]. split; [vm_compute; reflexivity|]. split; [vm_compute; reflexivity|].
  split; [vm_compute; reflexivity|]. split; vm_compute; reflexivity.
Qed.

(** ** C83: Cellular_ATCommandRaw. *)


(** Exactly the caller's command goes out, once, with the caller's type and prefix, if the library is open and the command can be
    sent; otherwise nothing, with an error, and the caller's data is untouched. *)
Theorem c83_raw_sends_the_command : forall A lib m prefix payload t cb (a : A) x, ATCommandRaw lib m prefix payload t cb a = Ok x ->
  (lib_ok lib /\ (exists cmd, payload = Some cmd /\ sendable cmd t prefix) ->
   exists cmd, payload = Some cmd /\ sent x = [{| rq_cmd := cmd; rq_type := t; rq_prefix := prefix |}]) /\
  (~ (lib_ok lib /\ (exists cmd, payload = Some cmd /\ sendable cmd t prefix)) -> sent x = [] /\ ret x <> C_SUCCESS /\ out x = a) /\
  (lib_ok lib -> (ret x = C_BAD_PARAMETER <-> payload = None)) /\ (~ lib_ok lib -> ret x = CheckLibraryStatus lib).
Proof.
  intros A lib m prefix payload t cb a x H. unfold ATCommandRaw in H. unfold lib_ok.
  destruct (CheckLibraryStatus lib) eqn:L; try (injection H as <-; (split; [intros [Q _]; discriminate|]); (split; [intros _; split; [reflexivity|split; [discriminate|reflexivity]]|]); (split; [intro Q; discriminate|reflexivity])).
  destruct payload as [cmd|].
  2:{ injection H as <-. split; [intros [_ (c & Q & _)]; discriminate|]. split; [intros _; split; [reflexivity|split; [discriminate|reflexivity]]|]. split; [intros _; split; reflexivity|]. intro Q; contradiction. }
  assert (SC : sendable cmd t prefix <-> exists e, Request.send_check cmd t prefix = inr e).
  { unfold sendable, Request.send_check, needs_prefix. destruct (N.ltb_spec 200 (N.of_nat (length cmd))) as [Q|Q].
    - split; [intros [K _]; lia|intros (e & K); discriminate].
    - assert (K : length cmd <= 200) by lia. destruct t, prefix; (split; [intros (_ & NC & NP); first [destruct NC; reflexivity | exfalso; apply NP; auto; fail | eexists; reflexivity]|
        intros (e & Z); first [discriminate Z | split; [exact K|]; split; [discriminate|]; intros [Y|[Y|Y]]; first [discriminate Y | discriminate]]]). }
  destruct (Request.send_check cmd t prefix) as [e|e] eqn:S.
  - assert (NS : ~ sendable cmd t prefix) by (rewrite SC; intros (z & Q); discriminate). injection H as <-.
    split; [intros [_ (c & [= <-] & Q)]; contradiction|]. split; [intros _; cbn [sent ret out]|].
    + split; [reflexivity|]. split; [|reflexivity]. unfold Request.send_check in S. destruct (_ <? _)%N; [injection S as <-; discriminate|].
      destruct t, prefix; try discriminate S; injection S as <-; discriminate.
    + split; [|intro Q; contradiction]. intros _. cbn [ret]. split; [|discriminate]. destruct e; discriminate.
  - split; [|split; [|split]].
    + intros _. exists cmd. split; [reflexivity|]. unfold finish, request in H. cbn [app] in H. destruct (m _) as [tm| |ls]; try (injection H as <-; reflexivity).
      destruct (match cb with Some f => f | None => no_callback end ls a) as [[st a']| |]; cbn [bind] in H; try discriminate. injection H as <-. reflexivity.
    + intro Q. exfalso. apply Q. split; [reflexivity|]. exists cmd. split; [reflexivity|]. apply SC. eauto.
    + intros _. split; [|discriminate]. intro Q. exfalso. unfold finish, request in H. destruct (m _) as [tm| |ls]; try (injection H as <-; revert Q; cbn; destruct tm; discriminate); try (injection H as <-; discriminate).
      destruct (match cb with Some f => f | None => no_callback end ls a) as [[st a']| |]; cbn [bind] in H; try discriminate. injection H as <-. revert Q. cbn. destruct st; discriminate.
    + intro Q. contradiction.
Qed.

(** The outcome, from the bytes: the lines of the received bytes, in whatever chunks, answer the command.  With an error result code
    the call fails and the callback is not run; with success it is run once, on exactly the lines of the answer, and its verdict
    decides: SUCCESS when there is none or it accepts. *)
Theorem c83_raw_outcome_partial : forall A lib prefix cmd t (cb : list str -> A -> res (pkt_status * A)) (a : A), lib_ok lib -> sendable cmd t prefix ->
  forall cap fuel env t0 cs t' h' s' ls rest r h ans, stream_env env -> (forall h, v_data (env 0%nat h) = None) ->
  run cap fuel env t0 [] (rx0 cap) cs t' h' s' -> stream_lines [] (concat cs) = (ls ++ rest, r) ->
  reply (env 0%nat) {| rq_cmd := cmd; rq_type := t; rq_prefix := prefix |} [] [] ls ans h ->
  (ans = Refused -> exists x y, ATCommandRaw lib (wire_modem h') prefix (Some cmd) t (Some cb) a = Ok x /\ ret x = C_INTERNAL_FAILURE /\ out x = a /\
                    ATCommandRaw lib (wire_modem h') prefix (Some cmd) t None a = Ok y /\ ret y = C_INTERNAL_FAILURE /\ out y = a) /\
  (forall lines, ans = Answered lines ->
     (forall st a', cb lines a = Ok (st, a') -> exists x, ATCommandRaw lib (wire_modem h') prefix (Some cmd) t (Some cb) a = Ok x /\ ret x = TranslatePktStatus st /\ out x = a') /\
     (exists y, ATCommandRaw lib (wire_modem h') prefix (Some cmd) t None a = Ok y /\ ret y = C_SUCCESS /\ out y = a)).
Proof.
  intros A lib prefix cmd t cb a LO SD cap fuel env t0 cs t' h' s' ls rest r h ans HE ND RUN SL RP.
  set (q := {| rq_cmd := cmd; rq_type := t; rq_prefix := prefix |}) in *.
  assert (SE : session (env 0%nat) (fun _ => ans) [] [] [q] ls h).
  { rewrite <- (app_nil_r ls). eapply se_cons; [exact RP|apply se_nil]. }
  destruct (wire_history _ _ _ _ _ _ _ _ _ _ _ _ _ _ HE ND RUN SE SL) as (z & ->).
  pose proof (session_answers _ _ _ _ _ _ _ SE eq_refl z [] q [] eq_refl) as W. cbn [app] in W.
  assert (SC : exists e, Request.send_check cmd t prefix = inr e).
  { destruct SD as (L & NC & NP). unfold Request.send_check, needs_prefix in *. destruct (N.ltb_spec 200 (N.of_nat (length cmd))) as [Q|Q]; [lia|].
    destruct t, prefix; first [destruct NC; reflexivity | exfalso; apply NP; auto; fail | eexists; reflexivity]. }
  destruct SC as (e & SC). unfold ATCommandRaw. unfold lib_ok in LO. rewrite LO, SC. unfold finish, request. cbn [app]. fold q. rewrite W. split.
  - intros ->. eexists _, _. repeat split.
  - intros lines ->. split; [intros st a' ->; eexists; repeat split|eexists; repeat split].
Qed.
Example c83_ex : sendable (s2b "AT+COPS?") T_WITH_PREFIX (Some (s2b "+COPS")) /\ lib_ok ex_lib /\
  ATCommandRaw ex_lib (fun _ => Answered [s2b "+COPS: 0"]) (Some (s2b "+COPS")) (Some (s2b "AT+COPS?")) T_WITH_PREFIX (Some (fun ls _ => Ok (PKT_OK, ls))) [] =
  Ok {| sent := [req_cops]; ret := C_SUCCESS; out := [s2b "+COPS: 0"] |}.
Proof. split; [split; [cbn; lia|split; discriminate]|]. split; reflexivity. Qed.

(** Where the code violates the claim: with a read that finds the buffer full the callback runs on other lines than those of the
    answer: a URC and part of the result code in place of the first two. *)
Theorem c83_full_buffer_refuted : exists h, 
  dispatched (reader code_cap 2000 (always (sample_view T_MULTI_WITH_PREFIX (Some (s2b "+A")) None)) 0 [] (rx0 code_cap)
    [chunk full_response; chunk []; chunk (s2b "+B:99999" ++ crlf ++ s2b "OK" ++ crlf)]) = Some h /\
  fst (stream_lines [] (full_response ++ s2b "+B:99999" ++ crlf ++ s2b "OK" ++ crlf)) = repeat (s2b "+A:12345") 160 ++ [s2b "+B:99999"; s2b "OK"] /\
  ATCommandRaw ex_lib (wire_modem h) (Some (s2b "+A")) (Some (s2b "AT+A?")) T_MULTI_WITH_PREFIX (Some (fun ls _ => Ok (PKT_OK, ls))) [] =
  Ok {| sent := [{| rq_cmd := s2b "AT+A?"; rq_type := T_MULTI_WITH_PREFIX; rq_prefix := Some (s2b "+A") |}]; ret := C_SUCCESS;
        out := s2b "+B:99999" :: s2b "OK" :: repeat (s2b "+A:12345") 158 |}.
Proof. eexists. split; [vm_compute; reflexivity|]. split; vm_compute; reflexivity. Qed.

(** ** C84: the current access technology. *)

(** After any history of registration URCs and query answers, complete or malformed, the query gives the access technology of the last
    report that has one, unless a later report without one says that the device is not registered (then "invalid"); a NULL pointer is
    refused.  Missing: lines with numbers outside the range of int32_t (C13). *)
Theorem c84_current_rat_partial : forall bits cb l d lib v, (32 <= bits)%Z -> lib_ok lib -> reports bits cb at_data0 l d ->
  GetCurrentRat lib d (Some v) = (C_SUCCESS, Some (technology l)) /\ GetCurrentRat lib d None = (C_BAD_PARAMETER, None).
Proof.
  intros bits cb l d lib v HB LO R. unfold GetCurrentRat. unfold lib_ok in LO. rewrite LO. split; [|reflexivity]. f_equal. f_equal.
  assert (REC : forall rt vs d0 r, d_rat d0 = r -> d_rat (recorded rt vs d0) = match given rt vs F_ACT with Some v => known_act v | None => if not_registered rt vs then 255%Z else r end).
  { intros rt vs d0 r E. unfold recorded. cbn [d_rat]. destruct (given rt vs F_ACT); cbn [option_map or_else]; [reflexivity|]. unfold reset_or. rewrite E. reflexivity. }
  assert (G : forall d0, reports bits cb d0 l d -> forall r, d_rat d0 = r ->
    d_rat d = fold_left (fun r x => match given (fst x) (snd x) F_ACT with Some v => known_act v | None => if not_registered (fst x) (snd x) then 255%Z else r end) l r).
  { clear R. intros d0 R. induction R as [|d0 urc rt raw pre ts vs extra st d1 ev l d' RT LE RL FT TN EX U R IH|d0 urc rt raw pre ts vs f bad after st d1 ev l d' RT LE RL FT NF FB NE U R IH]; intros r E; [exact E| |].
    - cbn [fold_left fst snd]. apply IH. rewrite (c36_report_is_recorded_partial bits cb rt urc raw pre ts vs extra d0 HB RT LE RL FT TN EX) in U. injection U as <- <- <-. apply REC, E.
    - cbn [fold_left fst snd]. apply IH. rewrite (c36_bad_field_is_refused bits cb rt urc raw pre ts vs f bad after d0 HB RT LE RL FT NF FB NE) in U. injection U as <- <- <-. apply REC, E. }
  unfold technology. apply (G at_data0 R). reflexivity.
Qed.
Example c84_ex : technology [(REG_CREG, [1; 65534; 54637837; 8]%Z); (REG_CEREG, [1]%Z)] = 8%Z /\ technology [(REG_CREG, [1; 65534; 54637837; 8]%Z); (REG_CEREG, [0]%Z)] = 255%Z.
Proof. split; reflexivity. Qed.
(** A complete URC followed by a malformed one that says "not registered" before its unacceptable area code. *)
Example c84_reports_ex : exists d, reports 32 true at_data0 [(REG_CREG, [1; 65534; 54637837; 8]%Z); (REG_CREG, [0]%Z)] d /\ d_rat d = 255%Z.
Proof.
  eexists. split.
  - eapply (rs_good _ _ _ true _ sample_raw [] sample_texts _ []); [discriminate|constructor|rewrite app_nil_r; exact sample_line|exact sample_fields|discriminate|left; reflexivity| |].
    + apply (c36_urc_is_recorded_partial 32 true REG_CREG sample_raw sample_texts [1; 65534; 54637837; 8]%Z [] at_data0); try lia; try discriminate; try exact sample_fields; [|left; reflexivity].
      rewrite app_nil_r. exact sample_line.
    + eapply (rs_bad _ _ _ true REG_CREG (s2b "0,10000") [] [s2b "0"] [0%Z] F_AREA (s2b "10000") []); [discriminate|constructor| | |reflexivity| |left; discriminate|vm_compute; reflexivity|apply rs_nil].
      * split; [split; [discriminate|cbn; lia]|]. split; [unfold no_nul; cbn; lia|]. split; [cbn; without_tac|repeat constructor; cbn; lia].
      * repeat constructor; cbn [field_base field_range s2b]; unfold int32_range; try lia. numeral [0]%N.
      * right. exists 65536%Z. split; [cbn; numeral [1;0;0;0;0]%N|]. unfold int32_range. cbn [field_range]. lia.
  - reflexivity.
Qed.

(** Where the code violates the claim.  A report that leaves the optional area and cell fields empty, as the standard allows, carries a
    technology (8) the query does not give: the one before the report stays. *)
Theorem c84_technology_behind_empty_fields_refuted : forall bits cb lib v, (32 <= bits)%Z -> lib_ok lib -> exists d ev,
  report_line (s2b "1,,,8") [s2b "1"; []; []; s2b "8"] /\ field_text F_ACT (s2b "8") 8 /\
  UrcProcessReg bits cb REG_CREG (Some (s2b "1,,,8")) at_data0 = Ok (PKT_FAILURE, d, ev) /\
  GetCurrentRat lib d (Some v) = (C_SUCCESS, Some 255%Z).
Proof.
  intros bits cb lib v HB LO. destruct (c36_empty_optional_field_refuted bits cb at_data0 HB) as (d & ev & E & R). exists d, ev.
  split; [|split; [|split; [exact E|]]].
  - split; [split; [discriminate|cbn; lia]|]. split; [unfold no_nul; cbn; lia|]. split; [cbn; without_tac|repeat constructor; cbn; lia].
  - split; [cbn [field_base]; numeral [8]%N|]. split; [unfold int32_range; lia|cbn; lia].
  - unfold GetCurrentRat. unfold lib_ok in LO. rewrite LO, R. reflexivity.
Qed.
(** Where long has 64 bits, a number outside the range of int32_t is taken modulo 2^32 (C13): a report of technology 4294967303, which
    does not exist, is accepted as LTE (7). *)
Theorem c84_number_out_of_range_refuted : forall cb lib v, lib_ok lib -> exists d ev,
  report_line (s2b "1,a,b,4294967303") [s2b "1"; s2b "a"; s2b "b"; s2b "4294967303"] /\ starts_with_numeral 10 (s2b "4294967303") 4294967303 /\
  UrcProcessReg 64 cb REG_CREG (Some (s2b "1,a,b,4294967303")) at_data0 = Ok (PKT_OK, d, ev) /\
  GetCurrentRat lib d (Some v) = (C_SUCCESS, Some 7%Z).
Proof.
  intros cb lib v LO. destruct cb; eexists _, _; (split; [|split; [|split; [vm_compute; reflexivity|unfold GetCurrentRat; unfold lib_ok in LO; rewrite LO; reflexivity]]]).
  all: try (split; [split; [discriminate|cbn; lia]|]; split; [unfold no_nul; cbn; lia|]; split; [cbn; without_tac|repeat constructor; cbn; lia]).
  all: numeral [4;2;9;4;9;6;7;3;0;3]%N.
Qed.

Print Assumptions c82_result_from_lines_partial.
Print Assumptions c82_fragmentation_partial.
Print Assumptions c83_raw_sends_the_command.
Print Assumptions c83_raw_outcome_partial.
Print Assumptions c84_current_rat_partial.
Print Assumptions c84_technology_behind_empty_fields_refuted.
Print Assumptions c84_number_out_of_range_refuted.
Print Assumptions c82_full_buffer_refuted.
Print Assumptions c83_full_buffer_refuted.

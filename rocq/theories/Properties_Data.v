(** C20, C22, C23 and C69 while requests come and go: what the reader sees may change at every moment. *)
From Coq Require Import String List NArith ZArith Bool Arith Lia.
From Verif Require Import Bytes AtCore Status SpecAt Pktio SpecPktio PktioLine PktioSafe SpecStream PktioStream G3pp Wire SpecWire SpecTimed PktioTimed SpecData PktioData Properties_Pktio.
Import ListNotations.
Local Open Scope string_scope. Local Open Scope list_scope.

Lemma parked_start cap : parked cap (rx0 cap) [] [].
Proof. apply fresh_parked, fresh0. Qed.
Lemma keep_nil cap : keep cap [] = [].
Proof. unfold keep. destruct (length [] =? cap)%nat; reflexivity. Qed.

(** ** C20, C23 *)
(** Every execution of the reader, while the command in flight, its prefix, the callbacks and the tokens change in any way from one
    moment to the next: the items of every response are, byte for byte, lines and payloads of the stream; a line is judged by what is
    in flight at its moment; a refused line loses the rest of the chunk that completed it and what was collected, nothing else. *)
Theorem c20_changing_requests_partial : forall cap fuel env t cs t' h' s', changing_env env ->
  execution cap fuel env t [] (rx0 cap) cs t' h' s' -> data_processed cap env t [] [] 0%nat [] cs t' h'.
Proof.
  intros cap fuel env t cs t' h' s' HE RUN. pose proof (execution_data cap env HE _ _ _ _ _ _ _ _ RUN [] [] (parked_start cap)) as X.
  rewrite keep_nil in X. exact X.
Qed.
Print Assumptions c20_changing_requests_partial.

(** ** C22, C69 *)
(** A payload is announced and not complete after the chunks [cs1]; [got] are the bytes of it received so far, the last bytes of the
    stream.  Whatever is in flight from then on: as long as fewer bytes than announced have come nothing at all is dispatched; when
    they have, exactly the announced number of bytes is taken, the very next bytes of the stream, wherever the chunks end, and the
    byte after the last of them is the first byte of the next line.  So the answers of later commands are lost exactly as far as they
    lie within the announced length. *)
Theorem c69_only_the_payload_is_taken_partial : forall cap fuel env t cs1 t1 h1 s1 cs2 t2 h2 s2, changing_env env ->
  execution cap fuel env t [] (rx0 cap) cs1 t1 h1 s1 -> rx_dlen s1 <> 0%nat -> execution cap fuel env t1 h1 s1 cs2 t2 h2 s2 ->
  exists seen got a, concat cs1 = seen ++ got /\ (length got < rx_dlen s1)%nat /\
   (((length (got ++ concat cs2) < rx_dlen s1)%nat /\ h2 = h1) \/
    exists before c1 c2 after k, (t1 <= k)%nat /\ cs2 = before ++ (c1 ++ c2) :: after /\ length (got ++ concat before ++ c1) = rx_dlen s1 /\
      data_processed cap env k h1 (a ++ [got ++ concat before ++ c1]) 0%nat [] (c2 :: after) t2 h2).
Proof.
  intros cap fuel env t cs1 t1 h1 s1 cs2 t2 h2 s2 HE R1 DN R2.
  destruct (execution_unfinished cap env HE _ _ _ _ _ _ _ _ R1 [] [] (parked_start cap)) as (got & a & seen & PK & E & LG); [cbn; congruence|].
  exists seen, got, a. split; [exact E|]. split; [exact (LG DN)|].
  exact (execution_payload cap env HE _ _ _ _ _ _ _ _ R2 got a PK DN (LG DN)).
Qed.
Print Assumptions c69_only_the_payload_is_taken_partial.

(** The hypotheses are met by the history that refutes C69: a 10-byte payload announced, two bytes of it received, then a plain command
    whose answer "OK" comes in: "ab", a line end and "OK" are the payload's first six bytes; with four more bytes the next answer is
    dispatched. *)
Lemma timeout_env_ok : changing_env timeout_env.
Proof. intros [|t]; [apply data_env_ok; discriminate|apply text_env_ok; intros p H; discriminate]. Qed.
Example c69_ex : exists t1 s1 t2 s2, execution code_cap 2000 timeout_env 0 [] (rx0 code_cap) [dline ++ s2b "ab"] t1 [] s1 /\ rx_dlen s1 <> 0%nat /\
  execution code_cap 2000 timeout_env t1 [] s1 [crlf ++ s2b "OK" ++ crlf; crlf ++ crlf ++ s2b "OK" ++ crlf] t2 [EvResp true [s2b "+D:4"; s2b "ab" ++ crlf ++ s2b "OK" ++ crlf ++ crlf]] s2.
Proof.
  eexists _, _, _, _. split; [|split].
  - change (dline ++ s2b "ab") with (chunk (dline ++ s2b "ab") (offered code_cap (rx0 code_cap))).
    eapply ex_read; [apply chunk_contract|left; vm_compute; discriminate|vm_compute; reflexivity|apply ex_nil].
  - vm_compute. discriminate.
  - match goal with |- execution _ _ _ _ _ ?s (?c :: _) _ _ _ => change c with (chunk c (offered code_cap s)) end.
    eapply ex_read; [apply chunk_contract|left; vm_compute; discriminate|vm_compute; reflexivity|].
    match goal with |- execution _ _ _ _ _ ?s (?c :: _) _ _ _ => change c with (chunk c (offered code_cap s)) end.
    eapply ex_read; [apply chunk_contract|left; vm_compute; discriminate|vm_compute; reflexivity|apply ex_nil].
Qed.

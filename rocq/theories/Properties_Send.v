(** Property theorems: sending commands and data (C24-C26). *)
From Coq Require Import String List NArith ZArith Bool Arith Lia.
From Verif Require Import Bytes AtCore SpecAt Status Pktio SendCmd SendProofs.
Import ListNotations.
Local Open Scope string_scope.
Local Open Scope list_scope.

(** A freshly initialised context. *)
Definition tx0 : tx := {| tx_sendbuf := repeat 0%N 201; tx_prefixbuf := repeat 0%N 32; tx_use_prefix := false; tx_type := T_NO_COMMAND |}.
Lemma tx0_wf : tx_wf tx0.
Proof. split; reflexivity. Qed.

(** ** C24 *)
(** For every command: if it can be sent, exactly one block is handed to the comm interface, the command followed by CR, and
    every buffer access is inside its array; otherwise nothing is handed over and nothing changes. *)
Theorem c24_command_is_sent_exactly : forall s send c t prefix, tx_wf s ->
  (sendable c t prefix ->
     exists s', PktioSendAtCmd (Some s) (Some send) (Some c) t prefix = Ok (PKT_OK, [c ++ [13%N]], Some s') /\ tx_wf s' /\ tx_type s' = t) /\
  (~ sendable c t prefix -> PktioSendAtCmd (Some s) (Some send) (Some c) t prefix = Ok (PKT_BAD_PARAM, [], Some s)).
Proof.
  intros s send c t prefix W. destruct (send_spec s send c t prefix W) as [A B]. split; [|exact B].
  intro H. destruct (A H) as (s' & E & W' & T & _). exists s'. auto.
Qed.
Print Assumptions c24_command_is_sent_exactly.
Theorem c24_null_arguments_send_nothing : forall s send c t prefix,
  PktioSendAtCmd None (Some send) c t prefix = Ok (PKT_INVALID_HANDLE, [], None) /\
  PktioSendAtCmd (Some s) None c t prefix = Ok (PKT_INVALID_HANDLE, [], Some s) /\
  PktioSendAtCmd (Some s) (Some send) None t prefix = Ok (PKT_BAD_PARAM, [], Some s).
Proof. intros. repeat split. Qed.
Print Assumptions c24_null_arguments_send_nothing.
Example c24_ex : sendable (s2b "AT+CPIN?") T_WITH_PREFIX (Some (s2b "+CPIN")) /\ ~ sendable (repeat 65%N 201) T_NO_RESULT None /\
  ~ sendable (s2b "AT") T_WITH_PREFIX None.
Proof.
  split; [split; [discriminate|split; [discriminate|cbn; lia]]|]. split; [intros (_ & _ & L); cbn in L; lia|].
  intros (_ & R & _). apply R; [left; reflexivity|reflexivity].
Qed.

(** ** C25 *)
(** A prefix of at most 31 bytes is stored faithfully: lines are then compared with exactly that prefix (or with none, for
    command types without one). *)
Theorem c25_prefix_is_stored_partial : forall s send c t prefix s' blocks, tx_wf s ->
  (forall p, prefix = Some p -> no_nul p /\ (length p <= 31)%nat) ->
  PktioSendAtCmd (Some s) (Some send) (Some c) t prefix = Ok (PKT_OK, blocks, Some s') ->
  exists e, resp_prefix s' = Ok e /\ expectation t prefix e.
Proof.
  intros s send c t prefix s' blocks W P E. destruct (send_spec s send c t prefix W) as [A B].
  assert (D : sendable c t prefix \/ ~ sendable c t prefix).
  { unfold sendable, prefix_required. destruct (le_lt_dec (length c) 200); [|right; lia].
    destruct t; destruct prefix; try (left; split; [discriminate|split; [discriminate|assumption]]);
      try (left; split; [discriminate|split; [intros [Q|[Q|Q]]; discriminate|assumption]]);
      right; intros (X & Y & Z); first [apply X; reflexivity|apply Y; [tauto|reflexivity]]. }
  destruct D as [D|D]; [|rewrite (B D) in E; discriminate]. destruct (A D) as (s1 & E1 & _ & _ & X). rewrite E1 in E. injection E as _ <-.
  unfold resp_prefix. destruct X as [(X1 & p & -> & -> & ->)|(-> & X2)].
  - destruct (P p eq_refl) as [NN L]. rewrite stored_prefix_short by (assumption || lia). exists (Some p). split; [reflexivity|].
    split; [reflexivity|]. intro Q. contradiction.
  - exists None. split; [reflexivity|]. split; [intro Q; symmetry; auto|reflexivity].
Qed.
Print Assumptions c25_prefix_is_stored_partial.
(** Missing: every prefix of 32 bytes or more is stored without a terminator, so comparing the next line with it reads past the
    array. *)
Theorem c25_long_prefix_refuted : forall s send c t p, tx_wf s -> no_nul p -> (32 <= length p)%nat -> (length c <= 200)%nat ->
  prefix_required t \/ prefix_optional t ->
  exists s', PktioSendAtCmd (Some s) (Some send) (Some c) t (Some p) = Ok (PKT_OK, [c ++ [13%N]], Some s') /\ resp_prefix s' = UB.
Proof.
  intros s send c t p W NN L LC T. destruct (send_spec s send c t (Some p) W) as [A _].
  destruct A as (s' & E & _ & _ & X).
  - split; [intros ->; destruct T as [[Q|[Q|Q]]|[Q|Q]]; discriminate|]. split; [discriminate|exact LC].
  - exists s'. split; [exact E|]. unfold resp_prefix. destruct X as [(X1 & q & [= <-] & -> & ->)|(-> & X2)]; [|discriminate (X2 T)].
    rewrite stored_prefix_long by assumption. reflexivity.
Qed.
Print Assumptions c25_long_prefix_refuted.
Example c25_ex : exists s', PktioSendAtCmd (Some tx0) (Some (@length N)) (Some (s2b "AT+CPIN?")) T_WITH_PREFIX (Some (s2b "+CPIN")) =
  Ok (PKT_OK, [s2b "AT+CPIN?" ++ [13%N]], Some s') /\ resp_prefix s' = Ok (Some (s2b "+CPIN")).
Proof. eexists. split; vm_compute; reflexivity. Qed.

(** ** C26 *)
(** A command of which nothing at all was transmitted is reported as sent, whatever the command: *)
Theorem c26_short_command_send_refuted : forall s c t prefix, tx_wf s -> sendable c t prefix ->
  exists s' blocks, PktioSendAtCmd (Some s) (Some (fun _ => 0%nat)) (Some c) t prefix = Ok (PKT_OK, blocks, Some s') /\
    on_the_wire (fun _ => 0%nat) blocks = [].
Proof.
  intros s c t prefix W H. destruct (send_spec s (fun _ => 0%nat) c t prefix W) as [A _]. destruct (A H) as (s' & E & _).
  exists s', [c ++ [13%N]]. split; [exact E|reflexivity].
Qed.
Print Assumptions c26_short_command_send_refuted.
(** NULL context, no comm interface or NULL data: nothing is sent and the length is 0. *)
Theorem c26_null_data_send : forall ctx comm data, ctx = None \/ comm = None \/ data = None -> PktioSendData ctx comm data = (0%nat, []).
Proof. intros [c|] [m|] [d|] [H|[H|H]]; try discriminate; reflexivity. Qed.
Print Assumptions c26_null_data_send.
(** The data phase of a data-send request is checked: it goes on to wait for an answer only if everything was transmitted, and
    *pSentDataLength is what the comm interface reported. *)
Theorem c26_short_data_send_is_reported_partial : forall s send data endp st n blocks,
  DataSend_transmit (Some s) (Some send) data endp = (st, n, blocks) ->
  n = send data /\ (st = PKT_OK \/ st = PKT_SEND_ERROR) /\
  (st = PKT_OK -> on_the_wire send blocks = data ++ match endp with Some e => e | None => [] end) /\
  (send data <> length data -> st = PKT_SEND_ERROR) /\
  (forall e, endp = Some e -> send e <> length e -> st = PKT_SEND_ERROR).
Proof.
  intros s send data endp st n blocks. unfold DataSend_transmit. cbn [PktioSendData].
  destruct (Nat.eqb_spec (send data) (length data)) as [E|E]; cbn [negb].
  - destruct endp as [e|].
    + destruct (Nat.eqb_spec (send e) (length e)) as [F|F]; cbn [negb]; intros [= <- <- <-].
      * split; [reflexivity|]. split; [left; reflexivity|]. split; [intros _; unfold on_the_wire; cbn [map concat app]; rewrite E, F, !firstn_all, app_nil_r; reflexivity|].
        split; [contradiction|]. intros e' [= <-]. contradiction.
      * split; [reflexivity|]. split; [right; reflexivity|]. split; [discriminate|]. split; [reflexivity|]. reflexivity.
    + intros [= <- <- <-]. split; [reflexivity|]. split; [left; reflexivity|].
      split; [intros _; unfold on_the_wire; cbn [map concat]; rewrite E, firstn_all; reflexivity|]. split; [contradiction|discriminate].
  - intros [= <- <- <-]. split; [reflexivity|]. split; [right; reflexivity|]. split; [discriminate|]. split; reflexivity.
Qed.
Print Assumptions c26_short_data_send_is_reported_partial.
Example c26_ex : DataSend_transmit (Some tx0) (Some (@length N)) (s2b "hello") (Some [26%N]) = (PKT_OK, 5%nat, [s2b "hello"; [26%N]]) /\
  DataSend_transmit (Some tx0) (Some (fun _ => 3%nat)) (s2b "hello") None = (PKT_SEND_ERROR, 3%nat, [s2b "hello"]).
Proof. split; reflexivity. Qed.

(** Proofs about the transmit path. *)
From Coq Require Import List NArith ZArith Bool Arith Lia.
From Verif Require Import Bytes AtCore SpecAt Status Pktio SendCmd.
Import ListNotations.

(** ** Vocabulary of the statements *)
(** Command types whose answer must carry a prefix, may carry one, or carries none. *)
Definition prefix_required (t : at_type) : Prop := t = T_WITH_PREFIX \/ t = T_MULTI_WITH_PREFIX \/ t = T_WITH_PREFIX_NO_RESULT_CODE.
Definition prefix_optional (t : at_type) : Prop := t = T_MULTI_WO_PREFIX \/ t = T_MULTI_DATA_WO_PREFIX.
(** A request the library can send: a real command type, a prefix where one is required, at most 200 bytes. *)
Definition sendable (c : str) (t : at_type) (prefix : option str) : Prop :=
  t <> T_NO_COMMAND /\ (prefix_required t -> prefix <> None) /\ (length c <= 200)%nat.
(** The sizes of the arrays. *)
Definition tx_wf (s : tx) : Prop := length (tx_sendbuf s) = 201%nat /\ length (tx_prefixbuf s) = 32%nat.
(** The expectation a request sets up. *)
Definition expectation (t : at_type) (prefix : option str) (e : option str) : Prop :=
  (prefix_required t \/ prefix_optional t -> e = prefix) /\ (~ (prefix_required t \/ prefix_optional t) -> e = None).

(** ** Lemmas *)
Lemma strncpy_bytes_length src n : length (strncpy_bytes src n) = n.
Proof. unfold strncpy_bytes. rewrite app_length, firstn_length, repeat_length. lia. Qed.
Lemma wr_ok m p bs : (p + length bs <= length m)%nat -> wr m p bs = Ok (firstn p m ++ bs ++ skipn (p + length bs) m).
Proof. intro H. unfold wr. destruct (Nat.leb_spec (p + length bs) (length m)); [reflexivity|lia]. Qed.
Lemma upd_app a x b v : upd (a ++ x :: b) (length a) v = a ++ v :: b.
Proof. induction a as [|y a IH]; cbn; [reflexivity|]. rewrite IH. reflexivity. Qed.
Lemma cstr_none p : ~ In 0%N p -> cstr_list p = None.
Proof. induction p as [|c p IH]; cbn; [reflexivity|]. intro H. destruct (N.eqb_spec c 0); [exfalso; apply H; left; congruence|]. rewrite IH; [reflexivity|tauto]. Qed.
Lemma cstr_some p post : ~ In 0%N p -> cstr_list (p ++ 0%N :: post) = Some p.
Proof. induction p as [|c p IH]; cbn; [reflexivity|]. intro H. destruct (N.eqb_spec c 0); [exfalso; apply H; left; congruence|]. rewrite IH; [reflexivity|tauto]. Qed.
Lemma notin_firstn n (p : list N) x : ~ In x p -> ~ In x (firstn n p).
Proof. intros H I. apply H. rewrite <- (firstn_skipn n p). apply in_or_app. left. exact I. Qed.

(** Storing a prefix. *)
Lemma store_prefix b p : length b = 32%nat -> strncpy_m b p (N.to_nat MAX_PREFIX_STRING_LENGTH) = Ok (strncpy_bytes p 32).
Proof.
  intro L. unfold strncpy_m. change (N.to_nat MAX_PREFIX_STRING_LENGTH) with 32%nat. rewrite wr_ok by (rewrite strncpy_bytes_length; lia).
  rewrite strncpy_bytes_length. cbn [firstn app Nat.add]. rewrite skipn_all2 by lia. rewrite app_nil_r. reflexivity.
Qed.
Lemma stored_prefix_short p : ~ In 0%N p -> (length p < 32)%nat -> cstr_get (strncpy_bytes p 32) 0 = Some p.
Proof.
  intros H L. unfold cstr_get, strncpy_bytes. rewrite firstn_all2 by lia. change (skipn 0 ?l) with l.
  destruct (32 - length p)%nat eqn:E; [lia|]. cbn [repeat]. apply cstr_some. exact H.
Qed.
Lemma stored_prefix_long p : ~ In 0%N p -> (32 <= length p)%nat -> cstr_get (strncpy_bytes p 32) 0 = None.
Proof.
  intros H L. unfold cstr_get, strncpy_bytes. replace (32 - length p)%nat with 0%nat by lia. change (skipn 0 ?l) with l. cbn [repeat]. rewrite app_nil_r.
  apply cstr_none. apply notin_firstn. exact H.
Qed.

(** Outcome of _setPrefixByAtCommandType. *)
Lemma set_prefix_spec s t prefix : tx_wf s ->
  (t <> T_NO_COMMAND -> (prefix_required t -> prefix <> None) ->
     exists b u, setPrefixByAtCommandType s t prefix = Ok (PKT_OK, {| tx_sendbuf := tx_sendbuf s; tx_prefixbuf := b; tx_use_prefix := u; tx_type := tx_type s |}) /\
       length b = 32%nat /\
       ((prefix_required t \/ prefix_optional t) /\ (exists p, prefix = Some p /\ u = true /\ b = strncpy_bytes p 32) \/
        u = false /\ (prefix_required t \/ prefix_optional t -> prefix = None))) /\
  (t = T_NO_COMMAND \/ prefix_required t /\ prefix = None -> setPrefixByAtCommandType s t prefix = Ok (PKT_BAD_PARAM, s)).
Proof.
  intros [W1 W2]. split.
  - intros T R. unfold setPrefixByAtCommandType.
    assert (N1 : forall t, t = T_NO_RESULT \/ t = T_WO_PREFIX \/ t = T_WO_PREFIX_NO_RESULT_CODE -> ~ (prefix_required t \/ prefix_optional t)).
    { intros x [->|[->| ->]]; intros [[Q|[Q|Q]]|[Q|Q]]; discriminate. }
    destruct t; try (exfalso; apply T; reflexivity).
    all: try (exists (tx_prefixbuf s), false; split; [reflexivity|]; split; [exact W2|]; right; split; [reflexivity|]; intro Q; exfalso; revert Q; apply N1; tauto).
    all: destruct prefix as [p|].
    all: try (rewrite (store_prefix (tx_prefixbuf s) p W2); cbn [bind]; exists (strncpy_bytes p 32), true; split; [reflexivity|]; split; [apply strncpy_bytes_length|];
      left; split; [unfold prefix_required, prefix_optional; tauto|exists p; repeat split]).
    all: try (exfalso; apply R; [unfold prefix_required; tauto|reflexivity]).
    all: exists (tx_prefixbuf s), false; split; [reflexivity|]; split; [exact W2|]; right; split; [reflexivity|reflexivity].
  - intros [->|[[->|[->| ->]] ->]]; reflexivity.
Qed.

Lemma send_bytes (b : list N) (c : str) : length b = 201%nat -> (length c <= 200)%nat ->
  exists b', strncpy_m b c (length c) = Ok (c ++ skipn (length c) b) /\ Bytes.st (c ++ skipn (length c) b) (length c) 13%N = Ok b' /\
    rd b' 0 (length c + 1) = Ok (c ++ [13%N]) /\ length b' = 201%nat.
Proof.
  intros L C. assert (S : strncpy_bytes c (length c) = c).
  { unfold strncpy_bytes. rewrite firstn_all, Nat.sub_diag. apply app_nil_r. }
  destruct (skipn (length c) b) as [|x r] eqn:E.
  { exfalso. apply (f_equal (@length N)) in E. rewrite skipn_length in E. cbn in E. lia. }
  assert (LR : length r = (200 - length c)%nat) by (apply (f_equal (@length N)) in E; rewrite skipn_length in E; cbn [length] in E; lia).
  exists (c ++ 13%N :: r). split; [|split; [|split]].
  - unfold strncpy_m. rewrite S, wr_ok by lia. cbn [firstn app Nat.add]. rewrite E. reflexivity.
  - unfold Bytes.st. destruct (Nat.ltb_spec (length c) (length (c ++ x :: r))) as [H|H]; [rewrite upd_app; reflexivity|rewrite app_length in H; cbn [length] in H; lia].
  - unfold rd. destruct (Nat.leb_spec (0 + (length c + 1)) (length (c ++ 13%N :: r))) as [H|H]; [|rewrite app_length in H; cbn [length] in H; lia].
    cbn [skipn]. f_equal. change (13%N :: r) with ([13%N] ++ r). rewrite app_assoc. rewrite firstn_app, app_length. cbn [length].
    rewrite Nat.sub_diag. cbn [firstn]. rewrite app_nil_r. apply firstn_all2. rewrite app_length. cbn [length]. lia.
  - rewrite app_length. cbn [length]. lia.
Qed.

Lemma not_sendable c t prefix : ~ sendable c t prefix -> t = T_NO_COMMAND \/ (prefix_required t /\ prefix = None) \/ (200 < length c)%nat.
Proof.
  intro H. destruct (le_lt_dec (length c) 200) as [L|L]; [|tauto].
  assert (D : t = T_NO_COMMAND \/ t <> T_NO_COMMAND) by (destruct t; (left; reflexivity) || (right; discriminate)).
  destruct D as [D|D]; [tauto|]. right. left.
  assert (R : prefix_required t \/ ~ prefix_required t).
  { unfold prefix_required. destruct t; try (left; tauto); right; intros [Q|[Q|Q]]; discriminate. }
  destruct R as [R|R]; [split; [exact R|]|exfalso; apply H; repeat split; tauto].
  destruct prefix; [|reflexivity]. exfalso. apply H. split; [exact D|]. split; [discriminate|exact L].
Qed.

Lemma send_spec s send c t prefix : tx_wf s ->
  (sendable c t prefix ->
     exists s', PktioSendAtCmd (Some s) (Some send) (Some c) t prefix = Ok (PKT_OK, [c ++ [13%N]], Some s') /\ tx_wf s' /\ tx_type s' = t /\
       ((prefix_required t \/ prefix_optional t) /\ (exists p, prefix = Some p /\ tx_use_prefix s' = true /\ tx_prefixbuf s' = strncpy_bytes p 32) \/
        tx_use_prefix s' = false /\ (prefix_required t \/ prefix_optional t -> prefix = None))) /\
  (~ sendable c t prefix -> PktioSendAtCmd (Some s) (Some send) (Some c) t prefix = Ok (PKT_BAD_PARAM, [], Some s)).
Proof.
  intro W. destruct (set_prefix_spec s t prefix W) as [P1 P2]. destruct W as [W1 W2]. split.
  - intros (T & R & L). destruct (P1 T R) as (b & u & E & LB & X). unfold PktioSendAtCmd.
    replace (WRITE_BUFFER_SIZE <? N.of_nat (length c))%N with false by (symmetry; apply N.ltb_ge; unfold WRITE_BUFFER_SIZE; lia).
    rewrite E. cbn [bind tx_sendbuf]. destruct (send_bytes (tx_sendbuf s) c W1 L) as (b' & E1 & E2 & E3 & L').
    rewrite E1. cbn [bind]. rewrite E2. cbn [bind]. rewrite E3. cbn [bind tx_prefixbuf tx_use_prefix].
    eexists. split; [reflexivity|]. cbn. split; [split; assumption|]. split; [reflexivity|exact X].
  - intro H. unfold PktioSendAtCmd. destruct (WRITE_BUFFER_SIZE <? N.of_nat (length c))%N eqn:L; [reflexivity|].
    apply N.ltb_ge in L. unfold WRITE_BUFFER_SIZE in L. apply not_sendable in H. destruct H as [H|[H|H]]; [..|exfalso; lia].
    all: rewrite P2 by tauto; reflexivity.
Qed.

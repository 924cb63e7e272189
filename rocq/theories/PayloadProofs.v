(** Receiving payloads through the whole request path: proofs. *)
From Coq Require Import List NArith ZArith Bool Arith Lia.
From Verif Require Import Bytes AtCore Status SpecAt AtProofs AtProofs3 Pktio SpecPktio PktioLine PktioSafe SpecStream PktioStream PktioText.
From Verif Require Import Request SpecRequest SpecAnswers RequestInv Whole SpecWhole WholeProofs Payload SpecPayload.
Import ListNotations.

Definition flat (ps : list piece) : list N := flat_map bytes_of ps.
Lemma flat_app a b : flat (a ++ b) = flat a ++ flat b. Proof. apply flat_map_app. Qed.
Lemma sent_app a b : sent_bytes (a ++ b) = sent_bytes a ++ sent_bytes b. Proof. apply flat_map_app. Qed.

Lemma cut_more cbs a a' ps us m : (forall y, In y a -> In y a') -> well_cut cbs a ps us m -> well_cut cbs a' ps us m.
Proof. intros I H. induction H; econstructor; eauto. Qed.

(** Skipping line ends. *)
Lemma cut_skips cbs a ps us S : well_cut cbs a ps us None ->
  exists qs, well_cut cbs a (ps ++ qs) us None /\ S = flat qs ++ drop_eol S /\ forall bs, ~ In (Lost bs) qs.
Proof.
  intro H. revert ps H. induction S as [|c S IH]; intros ps H.
  - exists []. rewrite app_nil_r. repeat split; auto.
  - cbn [drop_eol]. destruct (is_eol c) eqn:E.
    + destruct (IH (ps ++ [Skip c])) as (qs & A & B & D); [apply wc_skip; [exact H|apply is_eol_iff; exact E]|].
      exists (Skip c :: qs). rewrite <- app_assoc in A. split; [exact A|]. split; [change (c :: S = c :: (flat qs ++ drop_eol S)); rewrite <- B; reflexivity|].
      intros bs [Q|Q]; [discriminate|exact (D bs Q)].
    + exists []. rewrite app_nil_r. repeat split; auto.
Qed.

(** ** What is collected *)
(** How the groups up to now became responses and the current response, by what the reader is doing. *)
Definition between (c : Request.state) (us : list (list (list N))) : Prop := exists cur b, collected_as us (responses_given c) cur b /\ concat cur = texts c.
Definition judged (c : Request.state) (us : list (list (list N))) : Prop :=
  match rd c with
  | RIdle | RCrashed => between c us
  | RGot l | RPtr l _ | RMsg l _ | RTyp l _ => exists u0, us = u0 ++ [[l_text l]] /\ between c u0
  | RUndef l | RDone _ _ l | RHandle _ _ l | RCall _ l => exists u0 cur, us = u0 ++ [[l_text l]] /\ collected_as us (responses_given c) cur false /\ concat cur = texts c
  | RInCB _ _ l => collected_as us (responses_given c) [] true
  | RPost _ l _ _ => collected_as us (responses_given c) [] true \/
                     exists u0 cur, us = u0 ++ [[l_text l]] /\ collected_as us (responses_given c) cur false
  end.
(** Data has been announced and not arrived. *)
Definition awaiting (c : Request.state) (us : list (list (list N))) : Prop :=
  exists u0 l cur b, us = u0 ++ [[l]] /\ collected_as u0 (responses_given c) cur b /\ concat cur ++ [l] = texts c.
Lemma given_record id ls l c : responses_given (record (Delivered id ls l) c) = responses_given c ++ [(map l_text ls, l_text l)].
Proof. unfold responses_given, record. cbn [set_log log rev]. rewrite flat_map_app. reflexivity. Qed.
Lemma given_same c c' : log c' = log c -> responses_given c' = responses_given c.
Proof. unfold responses_given. intros ->. reflexivity. Qed.
Lemma given_returned c c' k st o : log c' = Returned k st o :: log c -> responses_given c' = responses_given c.
Proof. unfold responses_given. intros ->. cbn [rev]. rewrite flat_map_app. cbn. apply app_nil_r. Qed.

Section P.
Variable cap : nat.
Variable tt : token_table.
Variable cbs : callbacks.
Hypothesis TK : tables_ok (tokens_now tt None).

Lemma app_log a c c' : app_label a = true -> exec tt a c = Some c' -> responses_given c' = responses_given c.
Proof.
  intros A E. destruct a as [i r|i|i|i|i| |st|a k|l|g]; try discriminate A; cbn [exec] in E.
  - destruct (nth_error (ths c) i) as [[]|]; try discriminate. destruct (rq_kind r) as [|[t|]| | |]; injection E as <-; try (apply given_same; reflexivity).
    eapply given_returned. reflexivity.
  - unfold thread_step in E. destruct (nth_error (ths c) i) as [p|]; [|discriminate].
    destruct p; try discriminate; repeat match goal with H : match ?x with _ => _ end = Some _ |- _ => destruct x; try discriminate end; injection E as <-;
      repeat match goal with |- context [match ?x with _ => _ end] => destruct x end; first [apply given_same; reflexivity|eapply given_returned; reflexivity].
  - destruct (nth_error (ths c) i) as [[]|]; try discriminate; injection E as <-; apply given_same; reflexivity.
  - destruct (nth_error (ths c) i) as [[]|]; try discriminate; injection E as <-; apply given_same; reflexivity.
  - destruct (nth_error (ths c) i) as [[]|]; try discriminate; injection E as <-; apply given_same; reflexivity.
  - injection E as <-; apply given_same; reflexivity.
Qed.

Lemma judged_step a c c' us : exec tt a c = Some c' -> rd c <> RIdle -> (a = LReader \/ (exists st, a = LCbReturns st) \/ exists b k, a = LUndef b k) ->
  (forall ls l, rd c = RCall ls l -> resp c = Some ls) -> judged c us -> judged c' us.
Proof.
  intros E NI AA RS J.
  destruct AA as [->|[(st & ->)|(b & k & ->)]]; cbn [exec] in E.
  - unfold reader_step, reader_process in E. unfold judged in J. destruct (rd c) as [|l|l u|l mt|l t|l|ok ls l|ok ls l|ls l|id ls l|st l ok b|] eqn:RD; try congruence; try discriminate.
    + injection E as <-. exact J.
    + injection E as <-. exact J.
    + destruct mt; injection E as <-; unfold judged; cbn [rd set_rd]; try exact J.
      * destruct J as (u0 & -> & cur & b & T & Q). exists cur, false. split; [eapply ca_other; exact T|exact Q].
      * destruct J as (u0 & -> & cur & b & T & Q). exists u0, cur. split; [reflexivity|]. split; [eapply ca_other; exact T|exact Q].
    + destruct (ProcessLine _ _ _ _ _) as [[st r]| |]; try discriminate.
      match type of E with context [if (?a =? ?b)%nat then ?x else ?y] => set (ls' := if (a =? b)%nat then x else y) in E end.
      destruct J as (u0 & -> & cur & b & T & Q).
      assert (N : forall s', resp s' = Some ls' -> log s' = log c -> exists cur', collected_as (u0 ++ [[l_text l]]) (responses_given s') cur' false /\ concat cur' = texts s').
      { intros s' R L. rewrite (given_same _ _ L). unfold texts. rewrite R. unfold ls', texts in *. destruct (_ =? _)%nat.
        - exists cur. split; [eapply ca_other; exact T|]. rewrite Q. destruct (resp c); reflexivity.
        - exists (cur ++ [[l_text l]]). split; [eapply ca_item; exact T|]. rewrite concat_app, Q, map_app. destruct (resp c); reflexivity. }
      destruct st; injection E as <-; unfold judged; cbn [rd set_rd];
        first [ exists u0; match goal with |- exists cur, _ /\ collected_as _ (responses_given ?s) _ _ /\ _ => destruct (N s eq_refl eq_refl) as (cur' & N1 & N2); exists cur'; auto end
              | match goal with |- between ?s _ => destruct (N s eq_refl eq_refl) as (cur' & N1 & N2); exists cur', false; auto end ].
    + injection E as <-. exact J.
    + destruct ok; [destruct (cb c)|]; injection E as <-; unfold judged; cbn [rd set_rd]; try exact J; right; destruct J as (u0 & cur & J1 & J2 & _); exists u0, cur; auto.
    + destruct J as (u0 & cur & -> & T & Q). destruct (cb c) as [id|]; injection E as <-; unfold judged; cbn [rd set_rd record set_log].
      * change (collected_as (u0 ++ [[l_text l]]) (responses_given (record (Delivered id ls l) (set_rd (RInCB id ls l) c))) [] true). rewrite given_record.
        replace (map l_text ls) with (concat cur) by (rewrite Q; unfold texts; rewrite (RS ls l eq_refl); reflexivity). apply ca_given. exact T.
      * exists cur, false. split; [exact T|exact Q].
    + assert (X : forall s', rd s' = RIdle -> resp s' = None -> log s' = log c -> judged s' us).
      { intros s' R1 R2 R3. unfold judged. rewrite R1. exists [], true. rewrite (given_same _ _ R3). unfold texts. rewrite R2. split; [|reflexivity].
        destruct J as [T|(u0 & cur & -> & T)]; [exact T|]. eapply ca_dropped. exact T. }
      destruct (queue c); injection E as <-; apply X; reflexivity.
  - unfold judged in J. destruct (rd c) eqn:RD; try discriminate. injection E as <-. unfold judged. cbn [rd set_rd]. left. exact J.
  - unfold judged in J. destruct (rd c) eqn:RD; try discriminate. destruct J as (u0 & cur & -> & T & Q). destruct b; injection E as <-; unfold judged; cbn [rd set_rd].
    + exists cur, false. split; [exact T|exact Q].
    + exists [], true. split; [eapply ca_dropped; exact T|reflexivity].
Qed.
Lemma judged_frame c c' us : rd c' = rd c -> resp c' = resp c -> responses_given c' = responses_given c -> judged c us -> judged c' us.
Proof. intros A B C. unfold judged, between, texts. rewrite A, B, C. intro H. exact H. Qed.
Lemma between_idle c us : rd c = RIdle -> judged c us <-> between c us.
Proof. intro R. unfold judged. rewrite R. reflexivity. Qed.

(** ** The invariant *)
Definition hist (lbs : list plabel) (p : pay) (m : option nat) (unread : list N) (J : list (list (list N)) -> Prop) : Prop :=
  exists ps us, sent_bytes lbs = flat ps ++ unread ++ w_fifo (p_whole p) /\ well_cut cbs (p_asked p) ps us m /\ J us /\ (none_refused lbs -> forall bs, ~ In (Lost bs) ps).
Definition undata (w : whole) : whole := {| w_core := w_core w; w_rx := set_dlen (w_rx w) 0; w_fifo := w_fifo w; w_at := w_at w |}.

Inductive PI (lbs : list plabel) (p : pay) : Prop :=
| PI_idle rest : p_copy p = None -> w_at (p_whole p) = Waiting -> rx_dlen (w_rx (p_whole p)) = 0%nat -> rd (w_core (p_whole p)) = RIdle ->
    parked cap (w_rx (p_whole p)) rest (texts (w_core (p_whole p))) -> hist lbs p None rest (between (w_core (p_whole p))) -> PI lbs p
| PI_line rest : p_copy p = None -> w_at (p_whole p) <> Waiting -> PInv cap (p_whole p) rest -> hist lbs p None rest (judged (w_core (p_whole p))) -> PI lbs p
| PI_copy b line n rest : p_copy p = Some b -> w_at (p_whole p) = Scanning line n -> PInv cap (p_whole p) rest -> drop_eol rest = rest -> rest <> [] ->
    hist lbs p None rest (between (w_core (p_whole p))) -> PI lbs p
| PI_data rest : p_copy p = None -> w_at (p_whole p) = Waiting -> rx_dlen (w_rx (p_whole p)) <> 0%nat -> rd (w_core (p_whole p)) = RIdle ->
    parked cap (w_rx (p_whole p)) rest (texts (w_core (p_whole p))) -> (length rest < rx_dlen (w_rx (p_whole p)))%nat ->
    hist lbs p (Some (rx_dlen (w_rx (p_whole p)))) rest (awaiting (w_core (p_whole p))) -> PI lbs p
| PI_announced line n i L c e g rest id : p_copy p = None -> w_at (p_whole p) = Working line n i -> rx_dlen (w_rx (p_whole p)) <> 0%nat ->
    PInv cap (undata (p_whole p)) (g ++ rest) -> p_sod p = Some (line + length (l_text L ++ c :: g))%nat ->
    l_text L <> [] -> line_text (l_text L) -> eol e -> In (ForData id (l_text L ++ c :: g ++ rest)) (p_asked p) ->
    cb_data cbs id (l_text L ++ c :: g ++ rest) = (PKT_OK, Some (length (l_text L ++ c :: g)), Some (rx_dlen (w_rx (p_whole p))), l_text L ++ e :: g ++ rest) ->
    of_data_command tt (w_core (p_whole p)) (l_text L) ->
    (rd (w_core (p_whole p)) = RGot L \/ rd (w_core (p_whole p)) = RPtr L (puse (w_core (p_whole p))) \/ rd (w_core (p_whole p)) = RMsg L AT_SOLICITED \/
     rd (w_core (p_whole p)) = RTyp L T_MULTI_DATA_WO_PREFIX) ->
    hist lbs p None (l_text L ++ c :: g ++ rest) (between (w_core (p_whole p))) -> PI lbs p.

Lemma refused_before lbs lb : none_refused (lbs ++ [lb]) -> none_refused lbs.
Proof. intros NR k I. apply (NR k). apply in_or_app. left. exact I. Qed.
Lemma hist_move lbs lb p p' m u u' (J J' : list (list (list N)) -> Prop) : hist lbs p m u J -> sent_bytes [lb] = [] -> u' ++ w_fifo (p_whole p') = u ++ w_fifo (p_whole p) -> p_asked p' = p_asked p ->
  (forall us, J us -> J' us) -> hist (lbs ++ [lb]) p' m u' J'.
Proof.
  intros (ps & us & A & B & C & D) S F K H. exists ps, us. rewrite sent_app, S, app_nil_r, F, K. split; [exact A|]. split; [exact B|]. split; [exact (H _ C)|].
  intros NR. apply D. eapply refused_before. exact NR.
Qed.
Lemma hist_more lbs lb p p' m u (J J' : list (list (list N)) -> Prop) : hist lbs p m u J -> sent_bytes [lb] = [] -> w_fifo (p_whole p') = w_fifo (p_whole p) -> p_asked p' = p_asked p ->
  (forall us, J us -> J' us) -> hist (lbs ++ [lb]) p' m u J'.
Proof. intros H S F K Q. eapply hist_move; [exact H|exact S|rewrite F; reflexivity|exact K|exact Q]. Qed.
End P.

(** The line-level reader of Request.v agrees with the buffer-level reader of Pktio.v (supports C27-C32, C81, C85, C86, whose
    models treat the input as a sequence of lines). *)
From Coq Require Import String List NArith ZArith Bool Arith Lia.
From Verif Require Import Bytes AtCore Status SpecAt AtProofs Pktio Request SpecRequest RequestInv Properties_Request.
Import ListNotations.
Local Open Scope string_scope.
Local Open Scope list_scope.

(** The collected lines are those the response shows. *)
Definition same_response (s : Request.state) (x : Pktio.rx) : Prop :=
  match resp s, rx_resp x with
  | None, None => True
  | Some ls, Some r => deliver (rx_buf x) (r_items r) = Ok (map l_text ls)
  | _, _ => False
  end.
(** Some number of steps of the line-level reader alone. *)
Inductive reader_steps (tt : token_table) : Request.state -> Request.state -> Prop :=
| rs_refl s : reader_steps tt s s
| rs_step s s1 s2 : reader_step tt s = Some s1 -> reader_steps tt s1 s2 -> reader_steps tt s s2.
Lemma deliver_len m l cs : deliver m l = Ok cs -> length cs = length l.
Proof.
  revert cs. induction l as [|i l IH]; intros cs E; cbn in E; [injection E as <-; reflexivity|].
  destruct (item_content m i); try discriminate. cbn in E. destruct (deliver m l) eqn:D; try discriminate. injection E as <-. cbn. f_equal. apply IH. reflexivity.
Qed.
Lemma deliver_snoc m l i cs c : deliver m l = Ok cs -> item_content m i = Ok c -> deliver m (l ++ [i]) = Ok (cs ++ [c]).
Proof.
  revert cs. induction l as [|j l IH]; intros cs E C; cbn in *; [injection E as <-; rewrite C; reflexivity|].
  destruct (item_content m j); try discriminate. cbn in *. destruct (deliver m l) eqn:D; try discriminate. injection E as <-. rewrite (IH _ eq_refl C). reflexivity.
Qed.
Lemma process_agrees tk p x r t ls st r' : length (r_items r) = length ls -> ProcessLine tk p x r t = Ok (st, r') ->
  exists r2, ProcessLine tk 0 x (dummy_response ls) t = Ok (st, r2) /\ (st = PKT_OK -> r_status r2 = r_status r') /\
    (r_items r' = r_items r /\ length (r_items r2) = length ls \/ r_items r' = r_items r ++ [{| it_ptr := p; it_raw := None |}] /\ length (r_items r2) = S (length ls)).
Proof.
  intros L E. unfold ProcessLine in *. assert (DL : length (r_items (dummy_response ls)) = length ls) by (cbn; apply map_length).
  destruct (tk_error tk), (tk_success tk); try (injection E as <- <-; eexists; split; [reflexivity|]; split; [discriminate|left; auto]; fail).
  destruct (check_tokens x (tk_extra_success tk)) as [b1| |]; cbn [bind] in *; try discriminate.
  destruct (if b1 then Ok true else check_tokens x (Some l0)) as [b2| |]; cbn [bind] in *; try discriminate.
  destruct b2; [injection E as <- <-; eexists; split; [reflexivity|]; split; [reflexivity|left; auto]|].
  destruct (check_tokens x (Some l)) as [b3| |]; cbn [bind] in *; try discriminate.
  destruct b3; [injection E as <- <-; eexists; split; [reflexivity|]; split; [reflexivity|left; auto]|].
  unfold processIntermediateResponse, saveATData, saveData in *.
  destruct t; try (injection E as <- <-; eexists; split; [reflexivity|]; split; [try reflexivity; discriminate|]; first [left; split; [reflexivity|exact DL]|right; split; [reflexivity|cbn; rewrite app_length, map_length; cbn; lia]]; fail).
  all: destruct (r_items r) eqn:R; destruct ls as [|y ls]; try discriminate L.
  all: injection E as <- <-; eexists; split; [reflexivity|]; split; [discriminate|]; first [left; split; [cbn; congruence|cbn; rewrite ?map_length; reflexivity]|right; split; [cbn; congruence|reflexivity]].
Qed.

(** One line [l], found at offset [line] of the receive buffer by the buffer-level reader [x] and as the taken line by the line-level
    reader [s], with the same command type, prefix and token tables, and the same response collected so far: whatever
    _getMsgType/_handleMsgType do with it (no undefined behaviour, C18), the line-level reader reaches by its own steps, without
    touching anything else, the state with the same effect: a URC dispatched, the line added to the response, the response complete with
    the same status and the same contents, or the undefined-message handler called (whose refusal discards the response). *)
Theorem request_reader_agrees : forall cap tt s x v l line st mt ev x',
  v_tokens v = tokens_now tt (extra s) -> v_cmd v = typ s -> v_cmd2 v = typ s -> v_prefix v = (if puse s then Some (pbuf s) else None) -> v_handler v = true ->
  rd s = RGot l -> cstr_get (rx_buf x) line = Some (l_text l) -> same_response s x ->
  handleMsgType cap v (getMsgType (v_tokens v) (v_cmd v) (l_text l) (v_prefix v)) x line (l_text l) = Ok (st, mt, ev, x') ->
  exists s', reader_steps tt s s' /\ typ s' = typ s /\ puse s' = puse s /\ ths s' = ths s /\ queue s' = queue s /\ log s' = log s /\ wire s' = wire s /\
    ( ev = [EvUrc (l_text l)] /\ rd s' = RIdle /\ same_response s' x'
    \/ ev = [] /\ rd s' = RIdle /\ same_response s' x'
    \/ (exists ok ls, ev = [EvResp ok (map l_text ls)] /\ rd s' = RDone ok ls l /\ rx_resp x' = None)
    \/ ev = [EvUndef (l_text l)] /\ rd s' = RUndef l /\ v_undef v (l_text l) = PKT_OK /\ same_response s' x'
    \/ ev = [EvUndef (l_text l); EvDrop] /\ rd s' = RUndef l /\ v_undef v (l_text l) <> PKT_OK /\ rx_resp x' = None).
Proof.
  intros cap tt s x v l line st mt ev x' VT VC VC2 VP VH RD CS SR E. rewrite VT, VC, VP in E.
  replace (getMsgType (tokens_now tt (extra s)) (typ s) (l_text l) (if puse s then Some (pbuf s) else None)) with (getMsgType tt (typ s) (l_text l) (if puse s then Some (pbuf s) else None)) in E by reflexivity.
  set (m := getMsgType tt _ _ _) in E.
  assert (P1 : forall s', reader_steps tt (set_rd (RMsg l m) s) s' -> reader_steps tt s s').
  { intros s' R. eapply rs_step; [unfold reader_step; rewrite RD; reflexivity|]. eapply rs_step; [reflexivity|]. exact R. }
  set (GOAL := exists s', _).
  (* the undefined-message handler *)
  assert (U : forall s1 x1 st0, reader_steps tt s s1 -> rd s1 = RUndef l -> typ s1 = typ s -> puse s1 = puse s -> ths s1 = ths s -> queue s1 = queue s -> log s1 = log s -> wire s1 = wire s -> same_response s1 x1 ->
    (match v_undef v (l_text l) with PKT_OK => Ok (PKT_OK, AT_UNDEFINED, [EvUndef (l_text l)], x1) | _ => Ok (PKT_INVALID_DATA, AT_UNDEFINED, [EvUndef (l_text l)] ++ [EvDrop], Pktio.set_resp (reset_buf cap x1) None) end) = Ok st0 ->
    st0 = (st, mt, ev, x') -> GOAL).
  { intros s1 x1 st0 R A1 A2 A3 A4 A5 A6 A7 A8 EE ->. exists s1. repeat (split; [assumption|]).
    destruct (v_undef v (l_text l)) eqn:VU; injection EE as _ _ <- <-.
    all: first [right; right; right; left; repeat (split; [first [reflexivity|assumption]|]); exact A8
               |right; right; right; right; split; [reflexivity|]; split; [exact A1|]; split; [discriminate|reflexivity]]. }
  unfold handleMsgType in E. rewrite VH, VC2, VT in E. destruct m eqn:M; cbn [bind] in E.
  - (* part of a response *)
    set (r0 := match rx_resp x with Some r => r | None => AtResponseNew end) in E.
    set (ls := match resp s with Some ls => ls | None => [] end).
    assert (DE : deliver (rx_buf x) (r_items r0) = Ok (map l_text ls)).
    { unfold same_response in SR. unfold r0, ls. destruct (resp s), (rx_resp x); try contradiction; [exact SR|reflexivity]. }
    assert (LE : length (r_items r0) = length ls) by (rewrite <- (deliver_len _ _ _ DE), map_length; reflexivity).
    destruct (ProcessLine (tokens_now tt (extra s)) line (l_text l) r0 (typ s)) as [[st1 r1]| |] eqn:PL; cbn [bind] in E; try discriminate.
    destruct (process_agrees _ _ _ _ _ _ _ _ LE PL) as (r2 & PL2 & ST & IT).
    set (ls' := if (length (r_items r2) =? length ls)%nat then ls else ls ++ [l]).
    assert (DE' : deliver (rx_buf x) (r_items r1) = Ok (map l_text ls')).
    { unfold ls'. destruct IT as [(-> & ->)|(-> & ->)].
      - rewrite Nat.eqb_refl. exact DE.
      - rewrite (proj2 (Nat.eqb_neq _ _)) by lia. rewrite map_app. apply deliver_snoc; [exact DE|]. unfold item_content. cbn [it_raw it_ptr]. rewrite CS. reflexivity. }
    set (s1 := set_rd (RTyp l (typ s)) (set_rd (RMsg l AT_SOLICITED) s)).
    assert (STEP : forall s', reader_process tt s1 l (typ s) = Some s' -> reader_steps tt s s').
    { intros s' Q. apply P1. eapply rs_step; [reflexivity|]. eapply rs_step; [|apply rs_refl]. exact Q. }
    unfold reader_process in STEP. change (resp s1) with (resp s) in STEP. change (extra s1) with (extra s) in STEP. fold ls in STEP. rewrite PL2 in STEP. fold ls' in STEP.
    destruct st1; cbn [bind] in E.
    1: { rewrite DE' in E. cbn [bind] in E. injection E as _ _ <- <-. eexists. split; [apply STEP; reflexivity|]. repeat (split; [reflexivity|]).
         right. right. left. exists (r_status r2), ls'. split; [rewrite (ST eq_refl); reflexivity|]. split; reflexivity. }
    all: try (injection E as _ _ <- <-; eexists; split; [apply STEP; reflexivity|]; repeat (split; [reflexivity|]); right; left; split; [reflexivity|]; split; [reflexivity|exact DE']).
    all: eapply (U _ (Pktio.set_resp x (Some r1)) _ (STEP _ eq_refl)); [reflexivity..|exact DE'|exact E|reflexivity].
  - injection E as _ _ <- <-. exists (set_rd RIdle s). split; [apply P1; eapply rs_step; [reflexivity|apply rs_refl]|]. repeat (split; [reflexivity|]). left. split; [reflexivity|]. split; [reflexivity|exact SR].
  - eapply (U (set_rd (RUndef l) s)); [apply P1; eapply rs_step; [reflexivity|apply rs_refl]|reflexivity..|exact SR|exact E|reflexivity].
Qed.
Print Assumptions request_reader_agrees.

(** The hypotheses are met: "OK" after one collected line of a "+CSQ" command; the response is complete with that line. *)
Definition ag_state : Request.state :=
  let l1 := {| l_text := s2b "+CSQ: 7"; l_from := None; l_last := false |} in
  set_rd (RGot {| l_text := s2b "OK"; l_from := None; l_last := true |}) (Request.set_resp (Some [l1]) (set_puse true (set_pbuf (s2b "+CSQ") (set_typ T_WITH_PREFIX (init 1))))).
Definition ag_rx : Pktio.rx :=
  {| rx_buf := s2b "+CSQ: 7" ++ [0%N] ++ s2b "OK" ++ repeat 0%N 30; rx_ptr := Some 0%nat; rx_partial := 0; rx_dlen := 0;
     rx_resp := Some {| r_status := false; r_items := [{| it_ptr := 0; it_raw := None |}] |} |}.
Definition ag_view : view :=
  {| v_inbuf := None; v_send := None; v_data := None; v_tokens := tokens_now tt0 None; v_cmd := T_WITH_PREFIX; v_prefix := Some (s2b "+CSQ");
     v_cmd2 := T_WITH_PREFIX; v_handler := true; v_undef := fun _ => PKT_FAILURE |}.
Example request_reader_agrees_ex :
  v_tokens ag_view = tokens_now tt0 (extra ag_state) /\ v_cmd ag_view = typ ag_state /\ v_prefix ag_view = (if puse ag_state then Some (pbuf ag_state) else None) /\
  Request.rd ag_state = RGot {| l_text := s2b "OK"; l_from := None; l_last := true |} /\ cstr_get (rx_buf ag_rx) 8 = Some (s2b "OK") /\ same_response ag_state ag_rx /\
  exists x', handleMsgType 40 ag_view (getMsgType (v_tokens ag_view) (v_cmd ag_view) (s2b "OK") (v_prefix ag_view)) ag_rx 8 (s2b "OK") = Ok (PKT_OK, AT_SOLICITED, [EvResp true [s2b "+CSQ: 7"]], x').
Proof. repeat (split; [vm_compute; reflexivity|]). eexists. vm_compute. reflexivity. Qed.

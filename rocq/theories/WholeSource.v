(** Whatever the modem sends: where the lines in the system come from (C100).  Every line that a thread, the reader, the response, the
    queue or the history holds is one that was found in the receive buffer, hence a piece of what the modem sent. *)
From Coq Require Import List NArith ZArith Bool Arith Lia.
From Verif Require Import Bytes AtCore Status SpecAt AtProofs Pktio SpecPktio PktioSafe PktioLine SpecStream PktioStream Request SpecRequest SpecAnswers RequestInv.
From Verif Require Import Whole SpecWhole WholeProofs SpecWholeSource.
Import ListNotations.

Section From.
Variable tt : token_table.
Variable P : line -> Prop.
Definition good_item (q : qitem) : Prop := P (q_line q) /\ q_st q = verdict_of q.
Definition good_out (st : pkt_status) (o : option qitem) : Prop := match o with Some q => good_item q /\ st = q_st q | None => st <> PKT_OK end.
Definition good_thread (p : tpc) : Prop := match p with Reset _ st o | Unhook _ st o | DataReset _ st o | Release _ st o => good_out st o | _ => True end.
Definition good_reader (r : rpc) : Prop :=
  match r with
  | RIdle | RCrashed => True
  | RGot l | RPtr l _ | RMsg l _ | RTyp l _ | RUndef l => P l
  | RDone _ ls l | RHandle _ ls l | RCall ls l | RInCB _ ls l => Forall P ls /\ P l
  | RPost st l ok b => P l /\ st = verdict_of {| q_st := st; q_line := l; q_ok := ok; q_cb := b |}
  end.
Definition good_entry (e : entry) : Prop := match e with Returned _ st o => good_out st o | Delivered _ ls l => Forall P ls /\ P l end.
Record good (s : state) : Prop := {
  g_rd : good_reader (rd s);
  g_resp : forall ls, resp s = Some ls -> Forall P ls;
  g_wire : Forall P (wire s);
  g_queue : forall q, queue s = Some q -> good_item q;
  g_ths : Forall good_thread (ths s);
  g_log : Forall good_entry (log s) }.
Lemma good_set_nth ps i p : Forall good_thread ps -> good_thread p -> Forall good_thread (set_nth ps i p).
Proof. intros H G. revert i. induction H as [|q ps Q H IH]; intros [|i]; cbn; try constructor; auto. Qed.
Lemma good_nth s i p : good s -> nth_error (ths s) i = Some p -> good_thread p.
Proof. intros G E. apply nth_error_In in E. exact (proj1 (Forall_forall _ _) (g_ths _ G) p E). Qed.
Lemma good_init n : good (init n).
Proof. constructor; cbn; auto; try discriminate. induction n; cbn; constructor; [exact I|exact IHn]. Qed.
Ltac fin G := let X := fresh in destruct G as [? ? ? ? ? ?]; constructor; cbn in *; try assumption; try (intros ? X; discriminate X); auto.
Lemma thread_good i s s' : good s -> thread_step i s = Some s' -> good s'.
Proof.
  intros G E. unfold thread_step in E. destruct (nth_error (ths s) i) as [p|] eqn:EP; [|discriminate]. pose proof (good_nth _ _ _ G EP) as GP.
  assert (GO : forall s1 p', good s1 -> good_thread p' -> good (goto i p' s1)) by (intros s1 p' [? ? ? ? ? ?] GP'; constructor; cbn; try assumption; apply good_set_nth; assumption).
  destruct p as [|c|c|c|c|c|c|c st o|c st o|c|c|c|c st o|c st o]; try discriminate; cbn in GP.
  - destruct (mtx s); [discriminate|]. injection E as <-. apply GO; [fin G|exact I].
  - injection E as <-. apply GO; [destruct (rq_kind (c_req c)); try exact G; fin G|exact I].
  - destruct (rq_cmd (c_req c)); injection E as <-; apply GO; try exact G; try exact I; [fin G|cbn; discriminate].
  - destruct (rq_cmd (c_req c)) as [cmd|]; [|discriminate]. destruct (send_check cmd (rq_type (c_req c)) (rq_prefix (c_req c))) as [st|e] eqn:SC; injection E as <-.
    + apply GO; [exact G|]. cbn. intro Q. subst st. unfold send_check in SC. destruct (_ <? _)%N; [discriminate|]. destruct (rq_type (c_req c)); try discriminate; destruct (rq_prefix (c_req c)); discriminate.
    + apply GO; [destruct e; fin G|exact I].
  - injection E as <-. apply GO; [fin G|exact I].
  - destruct (queue s) as [q|] eqn:Q; [|discriminate]. injection E as <-. apply GO; [fin G|]. cbn. split; [exact (g_queue _ G q Q)|reflexivity].
  - injection E as <-. apply GO; [fin G|exact GP].
  - injection E as <-. apply GO; [destruct (rq_kind (c_req c)); try exact G; fin G|]. unfold after_command. destruct (data_of (rq_kind (c_req c))); [|exact GP]. destruct st; try exact GP; exact I.
  - destruct (data_of (rq_kind (c_req c))) as [d|]; [|discriminate]. destruct (d_data d); injection E as <-; apply GO; try exact G; try exact I; [fin G|cbn; discriminate].
  - injection E as <-. apply GO; [fin G|exact I].
  - destruct (queue s) as [q|] eqn:Q; [|discriminate]. injection E as <-. apply GO; [fin G|]. cbn. split; [exact (g_queue _ G q Q)|reflexivity].
  - injection E as <-. apply GO; [fin G|exact GP].
  - injection E as <-. pose proof (GO (set_mtx None s) Idle ltac:(fin G) I) as [? ? ? ? ? ?]. constructor; try assumption. cbn. constructor; [exact GP|]. exact (g_log _ G).
Qed.
Lemma reader_good s s' : good s -> reader_step tt s = Some s' -> good s'.
Proof.
  intros G E. pose proof (g_rd _ G) as GR. unfold reader_step in E. destruct (rd s) as [|l|l u|l mt|l t|l|ok ls l|ok ls l|ls l|id ls l|st l ok b|] eqn:RD; try discriminate; cbn in GR.
  - destruct (wire s) as [|l w] eqn:W; [discriminate|]. injection E as <-. pose proof (g_wire _ G) as GW. rewrite W in GW. inversion GW; subst. fin G.
  - injection E as <-. fin G.
  - injection E as <-. fin G.
  - destruct mt; injection E as <-; fin G.
  - unfold reader_process in E. destruct (ProcessLine _ _ _ _ _) as [[st r]| |]; try discriminate. 
    set (ls := match resp s with Some x => x | None => [] end) in *.
    assert (GL : Forall P ls) by (unfold ls; destruct (resp s) eqn:R; [exact (g_resp _ G _ R)|constructor]).
    assert (GL' : Forall P (if (length (r_items r) =? length ls)%nat then ls else ls ++ [l])) by (destruct (_ =? _)%nat; [exact GL|apply Forall_app; split; [exact GL|constructor; [exact GR|constructor]]]).
    destruct st; injection E as <-; destruct G as [? ? ? ? ? ?]; constructor; cbn; try assumption; auto; intros ? [= <-]; exact GL'.
  - injection E as <-. fin G.
  - destruct ok; [destruct (cb s)|]; injection E as <-; fin G; destruct GR; split; auto.
  - destruct (cb s) as [id|]; injection E as <-; [|fin G]. destruct G as [? ? ? ? ? ?]; constructor; cbn; try assumption. constructor; assumption.
  - destruct (queue s) as [q|] eqn:Q; injection E as <-.
    + fin G.
    + destruct G as [? ? ? ? ? ?]; constructor; cbn; try assumption; try exact I; try discriminate. intros q [= <-]. exact GR.
Qed.
Lemma exec_good a s s' : (forall l, a = LEmit l -> P l) -> good s -> exec tt a s = Some s' -> good s'.
Proof.
  intros EM G E. destruct a as [i r|i|i|i|i| |st|a k|l|g]; cbn [exec] in E.
  - destruct (nth_error (ths s) i) as [[]|]; try discriminate.
    assert (C : forall c, good (goto i (Called c) (set_next (Datatypes.S (next s)) s))) by (intro c; destruct G as [? ? ? ? ? ?]; constructor; cbn; try assumption; apply good_set_nth; [assumption|exact I]).
    destruct (rq_kind r) as [|[t|]| | |]; injection E as <-; try apply C. destruct G as [? ? ? ? ? ?]; constructor; cbn; try assumption. constructor; [cbn; discriminate|assumption].
  - exact (thread_good i s s' G E).
  - destruct (nth_error (ths s) i) as [[]|]; try discriminate; injection E as <-; destruct G as [? ? ? ? ? ?]; constructor; cbn; try assumption; apply good_set_nth; try assumption; cbn; discriminate.
  - destruct (nth_error (ths s) i) as [[]|]; try discriminate; injection E as <-; destruct G as [? ? ? ? ? ?]; constructor; cbn; try assumption; apply good_set_nth; try assumption; exact I.
  - destruct (nth_error (ths s) i) as [[]|]; try discriminate; injection E as <-; destruct G as [? ? ? ? ? ?]; constructor; cbn; try assumption; apply good_set_nth; try assumption; cbn; discriminate.
  - exact (reader_good s s' G E).
  - pose proof (g_rd _ G) as GR. destruct (rd s) eqn:RD; try discriminate. injection E as <-. cbn in GR. fin G. destruct GR. split; [assumption|reflexivity].
  - destruct (rd s) eqn:RD; try discriminate. destruct a; injection E as <-; [fin G|]. destruct G as [? ? ? ? ? ?]; constructor; cbn; try assumption; try exact I; try discriminate.
    rewrite <- (firstn_skipn k) in g_wire0. apply Forall_app in g_wire0. apply g_wire0.
  - injection E as <-. destruct G as [? ? ? ? ? ?]; constructor; cbn; try assumption. apply Forall_app. split; [assumption|constructor; [apply EM; reflexivity|constructor]].
  - injection E as <-. fin G.
Qed.
End From.
Lemma good_mono (P Q : line -> Prop) s : (forall l, P l -> Q l) -> good P s -> good Q s.
Proof.
  intros H [A B C D E F].
  assert (FA : forall ls, Forall P ls -> Forall Q ls) by (intros ls; apply Forall_impl; exact H).
  assert (GI : forall q, good_item P q -> good_item Q q) by (intros q (X & Y); split; auto).
  assert (GO : forall st o, good_out P st o -> good_out Q st o) by (intros st [q|]; cbn; [intros (X & Y); split; auto|auto]).
  constructor.
  - destruct (rd s); cbn in *; auto; destruct A; split; auto.
  - intros ls L. apply FA, B, L.
  - apply FA, C.
  - intros q L. apply GI, D, L.
  - eapply Forall_impl; [|exact E]. intros p. destruct p; cbn; auto.
  - eapply Forall_impl; [|exact F]. intros e. destruct e; cbn; auto. intros (X & Y). split; auto.
Qed.

(** ** On bytes *)
Lemma modem_app a b : modem_bytes (a ++ b) = modem_bytes a ++ modem_bytes b.
Proof. apply flat_map_app. Qed.
Lemma refused_app a b : refused_once a -> refused_once (a ++ b).
Proof. intros (k & H). exists k. apply in_or_app. auto. Qed.
Lemma sent_app a b l : sent_as_line a l -> sent_as_line (a ++ b) l.
Proof.
  intros (A & B & x & e & y & C & D & E). split; [exact A|]. split; [exact B|]. exists x, e, (y ++ modem_bytes b). rewrite modem_app, C, <- app_assoc. cbn. rewrite <- app_assoc.
  split; [reflexivity|]. split; [exact D|]. destruct E as [E|[E|E]]; auto. right. right. apply refused_app. exact E.
Qed.
(** Where a new line may begin. *)
Definition at_start (wl : list wlabel) (pre : list N) : Prop := pre = [] \/ (exists b c, pre = b ++ [c] /\ eol c) \/ refused_once wl.
Lemma start_app a b pre : at_start a pre -> at_start (a ++ b) pre.
Proof. intros [H|[H|H]]; [left|right; left|right; right]; auto. apply refused_app. exact H. Qed.
Lemma start_ends wl pre ends : at_start wl pre -> Forall eol ends -> at_start wl (pre ++ ends).
Proof.
  intros H E. destruct ends as [|c ends _] using rev_ind; [rewrite app_nil_r; exact H|]. right. left. exists (pre ++ ends), c. rewrite <- app_assoc. split; [reflexivity|].
  apply Forall_app in E. destruct E as (_ & E). inversion E. assumption.
Qed.
Lemma skip_split S : exists ends, S = ends ++ drop_eol S /\ Forall eol ends.
Proof.
  induction S as [|c S (ends & A & B)]; [exists []; repeat split; constructor|]. cbn [drop_eol]. destruct (is_eol c) eqn:E.
  - exists (c :: ends). split; [cbn; rewrite <- A; reflexivity|]. constructor; [apply is_eol_iff; exact E|exact B].
  - exists []. split; [reflexivity|constructor].
Qed.
Section Source.
Variable cap : nat.
Variable tt : token_table.
Hypothesis TK : tables_ok (tokens_now tt None).
Theorem source_any n wl w : wrun cap tt (any_bytes cap) (winit cap n) wl w ->
  exists pre rest, PInv cap w rest /\ small (w_core w) /\ wire (w_core w) = [] /\ modem_bytes wl = pre ++ rest ++ w_fifo w /\ at_start wl pre /\
    good (fun l => sent_as_line wl (l_text l)) (w_core w).
Proof.
  intro WR. remember (winit cap n) as w0 eqn:E0. induction WR as [w|w wl w1 x w2 WR IH OK E].
  - subst w. exists [], []. split; [apply init_pinv|]. split; [apply init_small|]. split; [reflexivity|]. split; [reflexivity|]. split; [left; reflexivity|apply good_init].
  - subst w. specialize (IH eq_refl). destruct IH as (pre & rest & PV & SM & WI & MB & ST & GD). destruct OK as (RM & OK).
    destruct (wstep cap tt x w1 rest _ TK SM PV RM E) as (w' & rest' & Q & PV' & EF). injection Q as <-.
    assert (GD1 : good (fun l => sent_as_line (wl ++ [x]) (l_text l)) (w_core w1)) by (eapply good_mono; [|exact GD]; intros l H; cbv beta in *; apply sent_app; exact H).
    assert (ST1 : at_start (wl ++ [x]) pre) by (apply start_app; exact ST).
    destruct x as [a|bs g|k| |a]; cbn [effect] in EF.
    + destruct EF as (AL & EX & -> & F2). exists pre, rest. split; [exact PV'|]. split; [eapply exec_small; [exact SM| |exact EX]; intros i r ->; exact OK|].
      split; [destruct (app_frame tt a _ _ AL EX) as (_ & _ & F3); congruence|]. split; [rewrite modem_app, MB, F2; cbn; apply app_nil_r|]. split; [exact ST1|].
      eapply exec_good; [|exact GD1|exact EX]. intros l ->. discriminate AL.
    + destruct EF as (EX & -> & F2). subst g. injection EX as EX. exists pre, rest. rewrite <- EX. split; [exact PV'|]. split; [exact SM|]. split; [exact WI|].
      split; [rewrite modem_app, MB, F2; cbn; rewrite app_nil_r, <- !app_assoc; reflexivity|]. split; [exact ST1|exact GD1].
    + destruct EF as (EC & EF). exists pre, rest'. rewrite EC. split; [exact PV'|]. split; [exact SM|]. split; [exact WI|]. split; [rewrite modem_app, MB, EF; cbn; apply app_nil_r|]. split; [exact ST1|exact GD1].
    + destruct EF as (EFF & RI & [(EC & ->)|(l & e & DE & LN & LT & EE & EC)]); destruct (skip_split rest) as (ends & SP & FE).
      * exists (pre ++ ends), (drop_eol rest). rewrite EC. split; [exact PV'|]. split; [exact SM|]. split; [exact WI|].
        split; [rewrite modem_app, MB, EFF; cbn; rewrite app_nil_r; rewrite SP at 1; rewrite <- !app_assoc; reflexivity|]. split; [apply start_ends; assumption|exact GD1].
      * assert (MB' : modem_bytes (wl ++ [WScan]) = (pre ++ ends) ++ l ++ e :: rest' ++ w_fifo w2).
        { rewrite modem_app, MB, EFF. cbn. rewrite app_nil_r. rewrite SP, DE. rewrite <- !app_assoc. reflexivity. }
        exists ((pre ++ ends) ++ l ++ [e]), rest'. split; [exact PV'|]. rewrite EC. split; [exact SM|]. cbn [wire set_rd set_wire]. rewrite WI. split; [reflexivity|].
        split; [rewrite MB'; rewrite <- !app_assoc; reflexivity|]. split; [right; left; exists ((pre ++ ends) ++ l), e; split; [rewrite app_assoc; reflexivity|exact EE]|].
        destruct GD1 as [? ? ? ? ? ?]. constructor; cbn; try assumption; [|rewrite ?WI; constructor].
        unfold found. rewrite WI. cbn. split; [exact LN|]. split; [exact LT|]. exists (pre ++ ends), e, (rest' ++ w_fifo w2). split; [exact MB'|]. split; [exact EE|]. apply start_ends; assumption.
    + destruct EF as (NI & EX & F2 & RR & AA).
      assert (G2 : good (fun l => sent_as_line (wl ++ [WLine a]) (l_text l)) (w_core w2)) by (eapply exec_good; [|exact GD1|exact EX]; intros l ->; destruct AA as [Q|[(st & Q)|(b & k & Q)]]; discriminate).
      assert (S2 : small (w_core w2)) by (eapply exec_small; [exact SM| |exact EX]; intros i r ->; destruct AA as [Q|[(st & Q)|(b & k & Q)]]; discriminate).
      assert (W2 : wire (w_core w2) = []).
      { destruct AA as [->|[(st & ->)|(b & k & ->)]].
        - rewrite <- WI. eapply reader_wire; [exact EX|exact NI].
        - cbn in EX. destruct (rd (w_core w1)); try discriminate. injection EX as <-. exact WI.
        - cbn in EX. destruct (rd (w_core w1)); try discriminate. destruct b; injection EX as <-; cbn; rewrite ?WI; [reflexivity|destruct k; reflexivity]. }
      destruct RR as [->|(k & l & -> & RU)].
      * exists pre, rest. split; [exact PV'|]. split; [exact S2|]. split; [exact W2|]. split; [rewrite modem_app, MB, F2; cbn; apply app_nil_r|]. split; [exact ST1|exact G2].
      * exists (pre ++ rest), rest'. split; [exact PV'|]. split; [exact S2|]. split; [exact W2|].
        assert (R0 : rest' = []).
        { cbn [wexec] in E. destruct (w_at w1); try discriminate. unfold line_action in E. rewrite RU in E. injection E as <-. destruct PV' as (_ & PV'). cbn in PV'.
          destruct PV' as ((_ & _ & Q & _) & _). cbn in Q. symmetry. exact Q. }
        rewrite R0. split; [rewrite modem_app, MB, F2; cbn; rewrite app_nil_r, <- app_assoc; reflexivity|]. split; [right; right; exists k; apply in_or_app; right; left; reflexivity|exact G2].
Qed.
End Source.

(** Property theorems: liveness on bytes (C102). *)
From Coq Require Import String List NArith ZArith Bool Arith Lia.
From Verif Require Import Bytes AtCore Status SpecAt AtProofs Pktio SpecPktio PktioLine PktioSafe SpecStream PktioStream PktioText PktioTimed Request SpecRequest SpecAnswers RequestInv RequestLive RequestTidy RequestFull.
From Verif Require Import Properties_Request Properties_Answers Whole SpecWhole WholeProofs Properties_Whole SpecLive.
Import ListNotations.
Local Open Scope string_scope.
Local Open Scope list_scope.

(** ** Reads *)
Lemma read_fifo cap k w w' : read_bytes cap k w = Ok w' -> w_fifo w' = skipn (length (firstn (Nat.min k (offered cap (w_rx w))) (w_fifo w))) (w_fifo w).
Proof.
  unfold read_bytes. intro E. destruct (ReadLine _ _ _) as [[[pl b] s1]| |]; cbn [bind] in E; try discriminate.
  destruct (0 <? b)%nat; [|injection E as <-; reflexivity]. destruct pl as [p|]; [|discriminate].
  destruct (if negb (rx_dlen s1 =? 0)%nat then handleData (Some p) s1 p b else Ok (p, b, s1)) as [[[x y] z]| |]; cbn [bind] in E; try discriminate.
  destruct (0 <? y)%nat; [|injection E as <-; reflexivity]. destruct (Bytes.st _ _ _) as [m| |]; cbn [bind] in E; try discriminate. injection E as <-. reflexivity.
Qed.
Lemma read_nothing cap k w w' : rx_partial (w_rx w) = 0%nat -> offered cap (w_rx w) = 0%nat -> read_bytes cap k w = Ok w' ->
  w_at w' = Waiting /\ offered cap (w_rx w') = cap /\ w_fifo w' = w_fifo w.
Proof.
  intros P0 O0 E. pose proof (read_fifo _ _ _ _ E) as FF. rewrite O0, Nat.min_0_r in FF. cbn [firstn length skipn] in FF.
  assert (CM : compacts (w_rx w) = false) by (unfold compacts; rewrite P0; cbn [Nat.eqb negb]; rewrite andb_false_r; reflexivity).
  unfold offered in O0. rewrite CM in O0. unfold read_bytes, ReadLine in E. fold (compacts (w_rx w)) in E. rewrite CM in E. cbn [bind] in E. rewrite O0 in E. cbn [Nat.ltb Nat.leb bind] in E.
  injection E as <-. cbn [w_at w_rx]. split; [reflexivity|]. split; [|exact FF]. unfold offered, set_left. cbn. lia.
Qed.

(** ** Lines *)
Lemma lines_more A B : fst (stream_lines [] A) <> [] -> fst (stream_lines [] (A ++ B)) <> [].
Proof. intro N. rewrite lines_app. destruct (fst (stream_lines [] A)); [congruence|discriminate]. Qed.
Lemma pinv_unique cap w r1 r2 : PInv cap w r1 -> PInv cap w r2 -> r1 = r2.
Proof.
  unfold PInv, parked, holds. intros (_ & A) (_ & B). destruct (w_at w).
  - destruct A as ((_ & _ & <- & _) & _), B as ((_ & _ & B & _) & _). exact B.
  - destruct A as ((_ & _ & <- & _) & _), B as ((_ & _ & B & _) & _). exact B.
  - destruct A as (_ & _ & _ & <- & _), B as (_ & _ & _ & B & _). exact B.
Qed.

(** ** What is ahead of the reader *)
(** Lines up to the last one tagged [g]. *)
Fixpoint ahead (g : tag) (w : list line) : nat :=
  match w with
  | [] => 0
  | x :: r => match ahead g r with
              | O => match l_from x with Some h => if tag_eqb h g then 1 else 0 | None => 0 end
              | m => S m
              end
  end.
Lemma ahead_in g w l : In l w -> l_from l = Some g -> (0 < ahead g w)%nat.
Proof.
  induction w as [|x w IH]; intros I0 F; [destruct I0|]. cbn [ahead]. destruct I0 as [->|I0].
  - rewrite F, tag_eqb_refl. destruct (ahead g w); lia.
  - specialize (IH I0 F). destruct (ahead g w); lia.
Qed.
Lemma ahead_other g w x : l_from x <> Some g -> ahead g (w ++ [x]) = ahead g w.
Proof.
  intro N. induction w as [|y w IH]; cbn [app ahead].
  - destruct (l_from x) as [h|] eqn:F; [|reflexivity]. destruct (tag_eqb h g) eqn:Q; [|reflexivity]. apply tag_eqb_eq in Q. congruence.
  - rewrite IH. reflexivity.
Qed.
Lemma ahead_tl g x w : (0 < ahead g (x :: w))%nat -> (ahead g w < ahead g (x :: w))%nat.
Proof. cbn [ahead]. destruct (ahead g w); lia. Qed.
Definition phase (p : rpc) : nat :=
  match p with
  | RIdle | RCrashed => 0 | RGot _ => 11 | RPtr _ _ => 10 | RMsg _ _ => 9 | RTyp _ _ => 8 | RUndef _ => 7
  | RDone _ _ _ => 6 | RHandle _ _ _ => 5 | RCall _ _ => 4 | RInCB _ _ _ => 3 | RPost _ _ _ _ => 2
  end.
Definition load (g : tag) (s : state) : nat := (12 * ahead g (wire s) + phase (rd s))%nat.
Lemma phase_down tt s s' : reader_step tt s = Some s' -> rd s <> RIdle -> (phase (rd s') < phase (rd s))%nat.
Proof.
  intros E NI. unfold reader_step, reader_process in E. destruct (rd s) as [|l|l u|l mt|l t|l|ok ls l|ok ls l|ls l|id ls l|st l ok c|] eqn:RD; try discriminate; try congruence.
  all: repeat match goal with H : match ?x with _ => _ end = Some _ |- _ => destruct x eqn:?; try discriminate end.
  all: injection E as <-; cbn; try lia.
Qed.

(** ** Waiting *)
Section Wait.
Variable cap : nat.
Variable tt : token_table.
Variable pfxs : list str.
Variable n : nat.
Variable st : nat -> whole.
Variable act : nat -> wlabel.
Hypothesis CP : (0 < cap)%nat.
Hypothesis TK : tables_ok (tokens_now tt None).
Hypothesis PX : forall q, In q pfxs -> at_len_ok q.
Hypothesis EX : byte_execution cap tt pfxs n st act.
Hypothesis RR : reader_runs st act.
Hypothesis RD : reads_deliver st act.
Hypothesis TR : threads_run cap tt st act.

Lemma past_S k : past act (S k) = past act k ++ [act k].
Proof. unfold past. rewrite seq_S, map_app. reflexivity. Qed.
Lemma past_run k : wrun cap tt (conforming_bytes cap tt pfxs) (winit cap n) (past act k) (st k).
Proof.
  destruct EX as (E0 & ES). induction k as [|k IH]; [cbn; rewrite E0; constructor|]. rewrite past_S. destruct (ES k) as (OK & E). econstructor; eassumption.
Qed.
Lemma one k rest : PInv cap (st k) rest -> exists rest', PInv cap (st (S k)) rest' /\ effect tt (act k) (st k) rest (st (S k)) rest'.
Proof.
  intro PV. destruct EX as (_ & ES). destruct (ES k) as ((RM & _) & E).
  destruct (simulation cap tt pfxs TK PX n _ _ (past_run k)) as (lbs & rest0 & _ & _ & _ & SM & _).
  destruct (wstep cap tt _ _ rest _ TK SM PV RM E) as (w' & rest' & Q & P' & EF). injection Q as <-. eauto.
Qed.
Lemma here k : exists rest, PInv cap (st k) rest /\ stream_lines [] (rest ++ w_fifo (st k)) = (map l_text (wire (w_core (st k))), []).
Proof. destruct (simulation cap tt pfxs TK PX n _ _ (past_run k)) as (lbs & rest & _ & _ & A & _ & B). eauto. Qed.
Lemma not_undef k l : rd (w_core (st k)) <> RUndef l.
Proof. apply (c99_no_undefined_behaviour cap tt pfxs n _ _ TK PX (past_run k)). Qed.

Variables (i : nat) (p : tpc) (g : tag) (body : list line) (l : line).
Hypothesis AW : awaits p g.
Hypothesis LL : l_last l = true.
Definition waits (k : nat) : Prop := nth_error (ths (w_core (st k))) i = Some p /\ answered (past act k) g = body ++ [l].
Definition taken (k : nat) : Prop := exists k', (k <= k')%nat /\ act k' = WApp (LThread i) /\ waits k'.
Lemma taken_later k k' : (k <= k')%nat -> taken k' -> taken k.
Proof. intros L (m & A & B). exists m. split; [lia|exact B]. Qed.

(** The modem says nothing more in answer to [g]. *)
Lemma not_again k bs x : answered (past act k) g = body ++ [l] -> act k = WSend bs (Some x) -> l_from x <> Some g.
Proof.
  intros AN A F. destruct EX as (_ & ES). destruct (ES k) as ((_ & OK) & _). rewrite A in OK. destruct OK as (y & [= <-] & _ & (HO & _) & _). cbn in HO. rewrite F in HO. destruct HO as (tr & I0 & G & _).
  destruct (simulation cap tt pfxs TK PX n _ _ (past_run k)) as (lbs & rest & R & (_ & SE & _) & _). destruct (run_full tt pfxs TK PX n lbs _ R) as (_ & _ & _ & EM & _).
  apply (e_closed _ _ EM g l) with (tr := tr); try assumption. rewrite SE, AN. apply in_or_app. right. left. reflexivity.
Qed.
Lemma answered_stays k : answered (past act k) g = body ++ [l] -> answered (past act (S k)) g = body ++ [l].
Proof.
  intro AN. rewrite past_S, answered_app, AN. replace (answered [act k] g) with (@nil line); [apply app_nil_r|]. cbn. destruct (act k) as [a|bs [x|]|m| |a] eqn:A; try reflexivity.
  destruct (l_from x) as [h|] eqn:F; [|reflexivity]. destruct (tag_eqb h g) eqn:Q; [|reflexivity]. apply tag_eqb_eq in Q. subst h. elim (not_again k bs x AN A F).
Qed.
(** The waiting thread moves only to take the answer. *)
Lemma step_waits k : waits k -> waits (S k) \/ act k = WApp (LThread i).
Proof.
  intros (EP & AN). pose proof (answered_stays k AN) as AN'. destruct (here k) as (rest & PV & _). destruct (one k rest PV) as (rest' & _ & EF).
  assert (NI : p <> Idle) by (destruct AW as (c & [(-> & _)|(-> & _)]); discriminate).
  assert (OT : forall a, ~ own i a -> exec tt a (w_core (st k)) = Some (w_core (st (S k))) -> waits (S k)) by (intros a NO E; split; [eapply other_step; eassumption|exact AN']).
  destruct (act k) as [a|bs x|m| |a] eqn:A; cbn [effect] in EF.
  - destruct EF as (AL & E & _). destruct (own_dec i a) as [O|O]; [|left; apply (OT a O E)]. right. f_equal.
    destruct a as [j r|j|j|j|j| |s|b q|x|h]; try contradiction; cbn in O; subst j; [reflexivity| | |].
    + exfalso. destruct EX as (_ & ES). destruct (ES k) as ((_ & OK) & _). rewrite A in OK. destruct OK as ((_ & _ & TT) & _). cbn in TT.
      destruct (simulation cap tt pfxs TK PX n _ _ (past_run k)) as (lbs & rest0 & R & (_ & SE & _) & _). destruct (run_full tt pfxs TK PX n lbs _ R) as (V & TD & _ & _ & F).
      assert (NR : no_residue (w_core (st k)) g) by (destruct AW as (c & [(-> & ->)|(-> & ->)]); apply TT; exact EP).
      assert (exists tr, cur_of p = Some tr /\ tr_tag tr = g /\ holding p = true) as (tr & CO & G & HO) by (destruct AW as (c & [(-> & ->)|(-> & ->)]); eexists; split; reflexivity || (split; reflexivity)).
      pose proof (cur_at _ i p V EP HO) as CU. pose proof (t_core _ _ _ TD) as CR. rewrite CU, CO in CR.
      pose proof (silent_open tt pfxs n lbs _ p tr g CR G (f_now _ _ _ _ _ F i p tr EP CO) NR) as Q. rewrite SE, AN in Q. destruct body; discriminate.
    + exfalso. cbn in E. rewrite EP in E. destruct AW as (c & [(-> & _)|(-> & _)]); discriminate.
    + exfalso. cbn in E. rewrite EP in E. destruct AW as (c & [(-> & _)|(-> & _)]); discriminate.
  - left. destruct EF as (E & _). destruct x as [x|]; [apply (OT (LEmit x)); [exact (fun H => H)|exact E]|]. injection E as E. split; [rewrite <- E; exact EP|exact AN'].
  - left. destruct EF as (E & _). split; [rewrite E; exact EP|exact AN'].
  - left. destruct EF as (_ & _ & [(E & _)|(? & ? & _ & _ & _ & _ & E)]); (split; [rewrite E; exact EP|exact AN']).
  - left. destruct EF as (_ & E & _ & _ & Q). apply (OT a); [|exact E]. destruct Q as [->|[(s & ->)|(b & q & ->)]]; exact (fun H => H).
Qed.
(** If the answer has been posted, it is taken. *)
Lemma posted k : waits k -> queue (w_core (st k)) <> None -> taken k.
Proof.
  intros W Q. assert (EN : exists w, wexec cap tt (WApp (LThread i)) (st k) = Some (Ok w)).
  { destruct W as (EP & _). cbn [wexec app_label exec]. unfold thread_step. rewrite EP. destruct (queue (w_core (st k))); [|congruence]. destruct AW as (c & [(-> & _)|(-> & _)]); eauto. }
  destruct (TR k i EN) as (k' & a & LE & A & O). clear EN Q. remember (k' - k)%nat as d eqn:D. revert k W LE D. induction d as [|d IH]; intros k W LE D.
  - assert (k' = k) by lia. subst k'. destruct (step_waits k W) as [W'|T]; [|exists k; auto]. exists k. split; [lia|]. split; [|exact W].
    (* an own action that leaves the thread where it is *)
    exfalso. destruct (here k) as (rest & PV & _). destruct (one k rest PV) as (rest' & _ & EF). rewrite A in EF. destruct EF as (_ & E & _). destruct W as (EP & _), W' as (EP' & _).
    destruct (own_step tt a i _ _ p O E EP) as (p' & TS & RK & _). rewrite TS, (nth_set_eq _ _ _ _ EP) in EP'. injection EP' as ->. lia.
  - destruct (step_waits k W) as [W'|T]; [|exists k; auto]. apply (taken_later k (S k)); [lia|]. apply IH; [exact W'|lia|lia].
Qed.

(** What the reader has before it does not change until it acts. *)
Definition same (k k' : nat) : Prop :=
  rd (w_core (st k')) = rd (w_core (st k)) /\ w_at (st k') = w_at (st k) /\ w_rx (st k') = w_rx (st k) /\ ahead g (wire (w_core (st k'))) = ahead g (wire (w_core (st k))) /\
  (exists more, w_fifo (st k') = w_fifo (st k) ++ more) /\ forall rest, PInv cap (st k) rest -> PInv cap (st k') rest.
Lemma same_refl k : same k k.
Proof. repeat (split; [reflexivity|]). split; [exists []; symmetry; apply app_nil_r|auto]. Qed.
Lemma same_trans a b c : same a b -> same b c -> same a c.
Proof.
  intros (A1 & A2 & A3 & A4 & (m & A5) & A6) (B1 & B2 & B3 & B4 & (m' & B5) & B6). repeat (split; [congruence|]). split; [exists (m ++ m'); rewrite B5, A5, app_assoc; reflexivity|auto].
Qed.
Lemma reader_dec lb : {reader_action lb} + {~ reader_action lb}.
Proof. destruct lb as [| | | |[]]; cbn; auto. Qed.
Lemma step_same k : answered (past act k) g = body ++ [l] -> ~ reader_action (act k) -> same k (S k).
Proof.
  intros AN NR. destruct (here k) as (rest & PV & _). destruct (one k rest PV) as (rest' & PV' & EF). destruct EX as (_ & ES). destruct (ES k) as ((_ & OK) & E).
  assert (GO : rest' = rest -> rd (w_core (st (S k))) = rd (w_core (st k)) -> w_at (st (S k)) = w_at (st k) -> w_rx (st (S k)) = w_rx (st k) -> ahead g (wire (w_core (st (S k)))) = ahead g (wire (w_core (st k))) ->
     (exists more, w_fifo (st (S k)) = w_fifo (st k) ++ more) -> same k (S k)).
  { intros -> A1 A2 A3 A4 A5. repeat (split; [assumption|]). intros r0 P0. rewrite (pinv_unique _ _ _ _ P0 PV). exact PV'. }
  destruct (act k) as [a|bs x|m| |a] eqn:A; cbn [effect] in EF; try (elim NR; exact I).
  - destruct EF as (AL & E1 & ER & F). destruct (app_frame tt a _ _ AL E1) as (F1 & F2 & F3). cbn [wexec] in E. rewrite AL, E1 in E. injection E as E. rewrite <- E in *. apply GO; cbn; try congruence; try reflexivity. exists []. rewrite app_nil_r. reflexivity.
  - destruct OK as (y & -> & _). destruct EF as (E1 & ER & F). cbn in E1. injection E1 as E1. cbn in E. injection E as E. rewrite <- E in *. apply GO; cbn; try reflexivity; [exact ER| |eauto].
    apply ahead_other. eapply not_again; eassumption.
  - exfalso. destruct EF as (_ & E1 & _ & _ & [->|[(s & ->)|(b & q & ->)]]); try (elim NR; exact I). cbn in E1. pose proof (not_undef k) as NU. destruct (rd (w_core (st k))); try discriminate. eapply NU. reflexivity.
Qed.
Lemma reader_comes k : waits k -> reader_busy (st k) -> taken k \/ exists k', (k <= k')%nat /\ waits k' /\ same k k' /\ reader_action (act k').
Proof.
  intros W BZ. destruct (RR k BZ) as (k' & LE & A). clear BZ. remember (k' - k)%nat as d eqn:D. revert k W LE D. induction d as [|d IH]; intros k W LE D.
  - assert (k' = k) by lia. subst k'. right. exists k. split; [lia|]. split; [exact W|]. split; [apply same_refl|exact A].
  - destruct (reader_dec (act k)) as [B|B]; [right; exists k; split; [lia|]; split; [exact W|]; split; [apply same_refl|exact B]|].
    destruct (step_waits k W) as [W'|T]; [|left; exists k; auto]. pose proof (step_same k (proj2 W) B) as S1.
    destruct (IH (S k) W' ltac:(lia) ltac:(lia)) as [T|(k2 & L2 & W2 & S2 & A2)]; [left; apply (taken_later k (S k)); [lia|exact T]|]. right. exists k2. split; [lia|]. split; [exact W2|]. split; [eapply same_trans; eassumption|exact A2].
Qed.

(** A prefix of the undelivered bytes that completes a line, and how much reading it takes. *)
Definition stage_cost (w : whole) : nat := match w_at w with Scanning _ _ => 2 | Waiting => if (offered cap (w_rx w) =? 0)%nat then 1 else 0 | Working _ _ _ => 0 end.
Definition reading (k b : nat) : Prop :=
  exists rest old new, PInv cap (st k) rest /\ w_fifo (st k) = old ++ new /\ fst (stream_lines [] (rest ++ old)) <> [] /\ (4 * length old + stage_cost (st k) <= b)%nat.
Lemma still_ahead k : waits k -> queue (w_core (st k)) = None -> rd (w_core (st k)) = RIdle -> (0 < ahead g (wire (w_core (st k))))%nat.
Proof.
  intros (EP & AN) Q R0. destruct (simulation cap tt pfxs TK PX n _ _ (past_run k)) as (lbs & rest & R & (_ & SE & _) & _). rewrite <- SE in AN.
  assert (IL : In l (emitted lbs g)) by (rewrite AN; apply in_or_app; right; left; reflexivity). apply emitted_from in IL.
  destruct (ahead g (wire (w_core (st k)))) eqn:AH; [|lia]. exfalso.
  apply (answered_when_read tt pfxs n lbs _ i p g body l TK PX R EP AW AN LL R0); [|exact Q]. intro I0. pose proof (ahead_in g _ l I0 IL). lia.
Qed.
Lemma start_reading k : (0 < ahead g (wire (w_core (st k))))%nat -> exists b, reading k b.
Proof.
  intro AH. destruct (here k) as (rest & PV & SL). eexists. exists rest, (w_fifo (st k)), []. split; [exact PV|]. split; [symmetry; apply app_nil_r|]. split; [|apply Nat.le_refl].
  rewrite SL. cbn [fst]. destruct (wire (w_core (st k))); [cbn in AH; lia|discriminate].
Qed.
Lemma reading_same k k' b : same k k' -> reading k b -> reading k' b.
Proof.
  intros (A1 & A2 & A3 & A4 & (m & A5) & A6) (rest & old & new & PV & FI & SL & LE). exists rest, old, (new ++ m). split; [auto|]. split; [rewrite A5, FI, app_assoc; reflexivity|]. split; [exact SL|].
  unfold stage_cost. rewrite A2, A3. exact LE.
Qed.
Lemma busy k b : waits k -> (rd (w_core (st k)) = RIdle -> reading k b) -> reader_busy (st k).
Proof.
  intros W RB. unfold reader_busy. destruct (w_at (st k)) eqn:HA; try exact I. destruct (here k) as (rest0 & PV0 & _). pose proof PV0 as (_ & PP). rewrite HA in PP. destruct PP as (_ & R0 & LT).
  destruct (RB R0) as (rest & old & new & PV & FI & SL & _). rewrite (pinv_unique _ _ _ _ PV PV0) in SL. intro Q. rewrite FI in Q. apply app_eq_nil in Q. destruct Q as (-> & _). rewrite app_nil_r, lines_rest in SL by exact LT. apply SL. reflexivity.
Qed.
(** A reader action brings the answer closer. *)
Lemma scan_parks w line m w' : scan w line m = Ok w' -> rd (w_core w') = RIdle -> w_at w' = Waiting.
Proof.
  unfold scan. intros E R0. destruct (skip_eol _ _ _) as [[l1 n1]| |]; cbn [bind] in E; try discriminate. destruct (n1 =? 0)%nat; [injection E as <-; reflexivity|].
  destruct (find_eol _ _ _) as [[j|]| |]; cbn [bind] in E; try discriminate; [|injection E as <-; reflexivity].
  destruct (Bytes.st _ _ _) as [q| |]; cbn [bind] in E; try discriminate. destruct (cstr_get q l1); [|discriminate]. injection E as <-. discriminate.
Qed.
Lemma closer k b : waits k -> reader_action (act k) -> (rd (w_core (st k)) = RIdle -> (0 < ahead g (wire (w_core (st k))))%nat /\ reading k b) ->
  (load g (w_core (st (S k))) < load g (w_core (st k)))%nat \/
  rd (w_core (st k)) = RIdle /\ load g (w_core (st (S k))) = load g (w_core (st k)) /\ exists b', (b' < b)%nat /\ reading (S k) b'.
Proof.
  intros W RA RB. destruct (here k) as (rest & PV & _). destruct (one k rest PV) as (rest' & PV' & EF). destruct EX as (_ & ES). destruct (ES k) as ((RM & OK) & E).
  destruct (act k) as [a|bs x|m| |a] eqn:A; cbn [effect reader_action] in *; try contradiction.
  - (* a read *)
    cbn [wexec] in E. destruct (w_at (st k)) eqn:HA; try discriminate. injection E as E. destruct EF as (EC & EF). pose proof PV as (_ & PP). rewrite HA in PP. destruct PP as (PK & R0 & LT).
    destruct (RB R0) as (AH & (rest0 & old & new & PV0 & FI & SL & LE)). rewrite (pinv_unique _ _ _ _ PV0 PV) in SL. clear rest0 PV0. right. split; [exact R0|]. split; [rewrite EC; reflexivity|].
    assert (ON : old <> []) by (intros ->; rewrite app_nil_r, lines_rest in SL by exact LT; apply SL; reflexivity).
    pose proof (read_fifo _ _ _ _ E) as FF. destruct (offered cap (w_rx (st k))) as [|o] eqn:OF.
    + destruct RM as [RM|(P0 & RN)]; [congruence|]. destruct (read_nothing cap m _ _ P0 OF E) as (B1 & B2 & B3).
      rewrite B3 in EF. apply app_inv_tail in EF. subst rest'. exists (4 * length old)%nat. split; [unfold stage_cost in LE; rewrite HA, OF in LE; cbn [Nat.eqb] in LE; lia|].
      exists rest, old, new. split; [exact PV'|]. split; [congruence|]. split; [exact SL|]. unfold stage_cost. rewrite B1, B2. destruct cap; [lia|cbn [Nat.eqb]; lia].
    + assert (MN : m <> 0%nat) by (apply (RD k m A); rewrite FI; destruct old; [congruence|discriminate]).
      set (got := firstn (Nat.min m (S o)) (w_fifo (st k))) in *.
      assert (GL : (1 <= length got)%nat) by (unfold got; rewrite firstn_length, FI, app_length; destruct old; [congruence|cbn [length]; lia]).
      pose proof (take_rest (Nat.min m (S o)) (w_fifo (st k))) as GT. fold got in GT. rewrite <- FF in GT. rewrite <- GT, app_assoc in EF. apply app_inv_tail in EF. subst rest'.
      assert (OL : (0 < length old)%nat) by (destruct old; [congruence|cbn; lia]).
      exists (4 * (length old - length got) + 2)%nat. split; [lia|].
      exists (rest ++ got), (skipn (length got) old), (skipn (length got - length old) new). split; [exact PV'|]. split; [rewrite FF, FI, skipn_app; reflexivity|]. split.
      * rewrite <- app_assoc. destruct (Nat.le_ge_cases (length got) (length old)) as [GO|GO].
        -- replace (got ++ skipn (length got) old) with old; [exact SL|].
           assert (GE : got = firstn (length got) old).
           { assert (Q : firstn (length got) (got ++ w_fifo (st (S k))) = firstn (length got) (old ++ new)) by congruence.
             rewrite firstn_app, Nat.sub_diag, firstn_all, firstn_O, app_nil_r in Q. rewrite firstn_app in Q. replace (length got - length old)%nat with 0%nat in Q by lia. rewrite firstn_O, app_nil_r in Q. exact Q. }
           rewrite GE at 1. symmetry. apply firstn_skipn.
        -- rewrite skipn_all2 by lia. rewrite app_nil_r.
           assert (GE : got = old ++ firstn (length got - length old) new).
           { assert (Q : firstn (length got) (got ++ w_fifo (st (S k))) = firstn (length got) (old ++ new)) by congruence.
             rewrite firstn_app, Nat.sub_diag, firstn_all, firstn_O, app_nil_r in Q. rewrite firstn_app, (firstn_all2 old) in Q by lia. exact Q. }
           rewrite GE, app_assoc. apply lines_more. exact SL.
      * rewrite skipn_length. unfold stage_cost. destruct (w_at (st (S k))); [destruct (_ =? _)%nat| |]; lia.
  - (* looking for a line *)
    cbn [wexec] in E. destruct (w_at (st k)) as [|line q|] eqn:HA; try discriminate. injection E as E. destruct EF as (FF & R0 & EF). destruct (RB R0) as (AH & RG). destruct EF as [(EC & ->)|(t & e & DE & LN & LT & EE & EC)].
    + right. split; [exact R0|]. split; [rewrite EC; reflexivity|]. destruct RG as (rest0 & old & new & PV0 & FI & SL & LE). rewrite (pinv_unique _ _ _ _ PV0 PV) in SL.
      assert (HW : w_at (st (S k)) = Waiting) by (eapply scan_parks; [exact E|rewrite EC; exact R0]).
      unfold stage_cost in LE. rewrite HA in LE. exists (4 * length old + 1)%nat. split; [lia|]. exists (drop_eol rest), old, new. split; [exact PV'|]. split; [congruence|]. split; [rewrite lines_of_rest; exact SL|].
      unfold stage_cost. rewrite HW. destruct (_ =? _)%nat; lia.
    + left. rewrite EC. unfold load. cbn [wire set_rd set_wire rd phase]. rewrite R0. cbn [phase]. destruct (wire (w_core (st k))) as [|y wr]; [cbn in AH; lia|]. cbn [tl]. pose proof (ahead_tl g y wr AH). lia.
  - (* working on a line *)
    left. destruct EF as (NI & E1 & FF & _ & _). destruct a as [| | | | | |s| | |]; try contradiction.
    + cbn [exec] in E1. pose proof (phase_down tt _ _ E1 NI). unfold load. rewrite (reader_wire tt _ _ E1 NI). lia.
    + cbn [exec] in E1. destruct (rd (w_core (st k))) eqn:RQ; try discriminate. injection E1 as E1. rewrite <- E1. unfold load. rewrite RQ. cbn. lia.
Qed.
Lemma comes : forall L k, waits k -> load g (w_core (st k)) = L -> taken k.
Proof.
  induction L as [L IHL] using lt_wf_ind.
  assert (INNER : forall b k, waits k -> load g (w_core (st k)) = L -> (queue (w_core (st k)) = None -> rd (w_core (st k)) = RIdle -> reading k b) -> taken k).
  { induction b as [b IHb] using lt_wf_ind. intros k W LD RG. destruct (queue (w_core (st k))) eqn:Q; [apply posted; [exact W|congruence]|]. specialize (RG eq_refl).
    destruct (reader_comes k W (busy k b W RG)) as [T|(k1 & LE & W1 & SM & RA)]; [exact T|]. apply (taken_later k k1 LE).
    pose proof SM as (S1 & _ & _ & S4 & _ & _).
    assert (LD1 : load g (w_core (st k1)) = L) by (unfold load in *; rewrite S1, S4; exact LD).
    destruct (closer k1 b W1 RA) as [C|(R0 & C & b' & LB & RG')].
    - intro R0. rewrite S1 in R0. split; [rewrite S4; apply still_ahead; assumption|]. eapply reading_same; [exact SM|exact (RG R0)].
    - destruct (step_waits k1 W1) as [W2|T]; [|exists k1; auto]. apply (taken_later k1 (S k1)); [lia|]. eapply IHL; [|exact W2|reflexivity]. lia.
    - destruct (step_waits k1 W1) as [W2|T]; [|exists k1; auto]. apply (taken_later k1 (S k1)); [lia|]. apply (IHb b' LB (S k1) W2); [congruence|auto]. }
  intros k W LD. destruct (queue (w_core (st k))) eqn:Q; [apply posted; [exact W|congruence]|].
  assert (RDI : rd (w_core (st k)) = RIdle \/ rd (w_core (st k)) <> RIdle) by (destruct (rd (w_core (st k))); (left; reflexivity) || (right; discriminate)). destruct RDI as [R0|R0].
  - destruct (start_reading k (still_ahead k W Q R0)) as (b & RG). apply (INNER b k W LD). auto.
  - apply (INNER 0%nat k W LD). intros _ R1. congruence.
Qed.
End Wait.

(** ** C102 *)
(** Every complete answer is taken, without the help of a time-out: in every infinite execution on bytes with a modem that answers as
    announced, in which a reader with something to do keeps acting, reads deliver and threads that can act do: from every moment at which a
    thread waits for the answer to a transmission and the modem has sent all of it, the thread's next action comes, and it is to take the
    answer from the queue.  (No time-out strikes it: one would be tidy only if nothing of the answer had been sent.) *)
Theorem c102_answer_ends_the_wait : forall cap tt pfxs n st act k i p g body l, (0 < cap)%nat -> tables_ok (tokens_now tt None) -> (forall q, In q pfxs -> at_len_ok q) ->
  byte_execution cap tt pfxs n st act -> reader_runs st act -> reads_deliver st act -> threads_run cap tt st act ->
  nth_error (ths (w_core (st k))) i = Some p -> awaits p g -> answered (past act k) g = body ++ [l] -> l_last l = true ->
  exists k', (k <= k')%nat /\ act k' = WApp (LThread i) /\ nth_error (ths (w_core (st k'))) i = Some p /\ answered (past act k') g = body ++ [l].
Proof.
  intros cap tt pfxs n st act k i p g body l CP TK PX EX RR RD TR EP AW AN LL.
  destruct (comes cap tt pfxs n st act CP TK PX EX RR RD TR i p g body l AW LL (load g (w_core (st k))) k (conj EP AN) eq_refl) as (k' & LE & A & EP' & AN'). eauto 6.
Qed.
Print Assumptions c102_answer_ends_the_wait.

Section Return.
Variable cap : nat.
Variable tt : token_table.
Variable pfxs : list str.
Variable n : nat.
Variable st : nat -> whole.
Variable act : nat -> wlabel.
Hypothesis TK : tables_ok (tokens_now tt None).
Hypothesis PX : forall q, In q pfxs -> at_len_ok q.
Hypothesis EX : byte_execution cap tt pfxs n st act.
Hypothesis TR : threads_run cap tt st act.
Variable i : nat.
(** Positions in which only [LThread] moves the thread, and always can. *)
Definition walking (p : tpc) : Prop := match p with Reset _ _ _ | Unhook _ _ _ | DataReset _ _ _ | Release _ _ _ => True | _ => False end.
Lemma app_step k a : act k = WApp a -> exec tt a (w_core (st k)) = Some (w_core (st (S k))).
Proof.
  intro A. destruct (here cap tt pfxs n st act TK PX EX k) as (rest & PV & _). destruct (one cap tt pfxs n st act TK PX EX k rest PV) as (rest' & _ & EF). rewrite A in EF. apply EF.
Qed.
Lemma walk_on k p : nth_error (ths (w_core (st k))) i = Some p -> walking p -> nth_error (ths (w_core (st (S k)))) i = Some p \/ act k = WApp (LThread i).
Proof.
  intros EP WK. destruct (here cap tt pfxs n st act TK PX EX k) as (rest & PV & _). destruct (one cap tt pfxs n st act TK PX EX k rest PV) as (rest' & _ & EF).
  assert (NI : p <> Idle) by (intros ->; exact WK).
  destruct (act k) as [a|bs x|m| |a] eqn:A; cbn [effect] in EF.
  - destruct EF as (AL & E & _). destruct (own_dec i a) as [O|O]; [|left; eapply other_step; eassumption]. right. f_equal.
    destruct a as [j r|j|j|j|j| |s|b q|x|h]; try contradiction; cbn in O; subst j; [reflexivity| | |]; exfalso; cbn in E; rewrite EP in E; destruct p; try contradiction; discriminate.
  - left. destruct EF as (E & _). destruct x as [x|]; [eapply (other_step tt (LEmit x)); [exact (fun H => H)|exact E|exact EP|exact NI]|]. injection E as E. rewrite <- E. exact EP.
  - left. destruct EF as (E & _). rewrite E. exact EP.
  - left. destruct EF as (_ & _ & [(E & _)|(? & ? & _ & _ & _ & _ & E)]); rewrite E; exact EP.
  - left. destruct EF as (_ & E & _ & _ & Q). eapply other_step; [|exact E|exact EP|exact NI]. destruct Q as [->|[(s & ->)|(b & q & ->)]]; exact (fun H => H).
Qed.
Lemma walks k p : nth_error (ths (w_core (st k))) i = Some p -> walking p -> exists k', (k <= k')%nat /\ act k' = WApp (LThread i) /\ nth_error (ths (w_core (st k'))) i = Some p.
Proof.
  intros EP WK. assert (EN : exists w, wexec cap tt (WApp (LThread i)) (st k) = Some (Ok w)).
  { cbn [wexec app_label exec]. unfold thread_step. rewrite EP. destruct p; try contradiction; eauto. }
  destruct (TR k i EN) as (k' & a & LE & A & O). clear EN. remember (k' - k)%nat as d eqn:D. revert k EP LE D. induction d as [|d IH]; intros k EP LE D.
  - assert (k' = k) by lia. subst k'. destruct (walk_on k p EP WK) as [W'|T]; [|exists k; auto]. exfalso.
    destruct (own_step tt a i _ _ p O (app_step k a A) EP) as (p' & TS & RK & _). rewrite TS, (nth_set_eq _ _ _ _ EP) in W'. injection W' as ->. lia.
  - destruct (walk_on k p EP WK) as [W'|T]; [|exists k; auto]. destruct (IH (S k) W' ltac:(lia) ltac:(lia)) as (k2 & L2 & X). exists k2. split; [lia|exact X].
Qed.
Lemma next_pc k p p' s' : nth_error (ths (w_core (st k))) i = Some p -> act k = WApp (LThread i) -> thread_step i (w_core (st k)) = Some s' -> ths s' = set_nth (ths (w_core (st k))) i p' ->
  nth_error (ths (w_core (st (S k)))) i = Some p' /\ w_core (st (S k)) = s'.
Proof.
  intros EP A E TS. pose proof (app_step k _ A) as X. cbn [exec] in X. rewrite E in X. injection X as X. rewrite <- X, TS. split; [eapply nth_set_eq; exact EP|reflexivity].
Qed.
Lemma released k c s o : nth_error (ths (w_core (st k))) i = Some (Release c s o) -> exists k', (k <= k')%nat /\ In (Returned c s o) (log (w_core (st k'))).
Proof.
  intro EP. destruct (walks k _ EP I) as (k' & LE & A & EP'). exists (S k'). split; [lia|].
  destruct (next_pc k' _ Idle (record (Returned c s o) (goto i Idle (set_mtx None (w_core (st k'))))) EP' A) as (_ & ->); [unfold thread_step; rewrite EP'; reflexivity|reflexivity|left; reflexivity].
Qed.
Lemma unhooked k c s o : nth_error (ths (w_core (st k))) i = Some (Unhook c s o) -> data_of (rq_kind (c_req c)) = None -> exists k', (k <= k')%nat /\ In (Returned c s o) (log (w_core (st k'))).
Proof.
  intros EP DN. destruct (walks k _ EP I) as (k' & LE & A & EP').
  assert (E : exists s', thread_step i (w_core (st k')) = Some s' /\ ths s' = set_nth (ths (w_core (st k'))) i (Release c s o)).
  { unfold thread_step. rewrite EP'. eexists. split; [reflexivity|]. unfold after_command. rewrite DN. destruct (rq_kind (c_req c)); reflexivity. }
  destruct E as (s' & E & TS). destruct (next_pc k' _ _ _ EP' A E TS) as (EP2 & _). destruct (released _ _ _ _ EP2) as (k2 & L2 & X). exists k2. split; [lia|exact X].
Qed.
Lemma after_reset k c s o : nth_error (ths (w_core (st k))) i = Some (Reset c s o) -> data_of (rq_kind (c_req c)) = None -> exists k', (k <= k')%nat /\ In (Returned c s o) (log (w_core (st k'))).
Proof.
  intros EP DN. destruct (walks k _ EP I) as (k' & LE & A & EP').
  destruct (next_pc k' _ (Unhook c s o) (goto i (Unhook c s o) (set_typ T_NO_COMMAND (set_cb None (w_core (st k'))))) EP' A) as (EP2 & _); [unfold thread_step; rewrite EP'; reflexivity|reflexivity|].
  destruct (unhooked _ _ _ _ EP2 DN) as (k2 & L2 & X). exists k2. split; [lia|exact X].
Qed.
Lemma after_data k c s o : nth_error (ths (w_core (st k))) i = Some (DataReset c s o) -> exists k', (k <= k')%nat /\ In (Returned c s o) (log (w_core (st k'))).
Proof.
  intros EP. destruct (walks k _ EP I) as (k' & LE & A & EP').
  destruct (next_pc k' _ (Release c s o) (goto i (Release c s o) (set_typ T_NO_COMMAND (w_core (st k')))) EP' A) as (EP2 & _); [unfold thread_step; rewrite EP'; reflexivity|reflexivity|].
  destruct (released _ _ _ _ EP2) as (k2 & L2 & X). exists k2. split; [lia|exact X].
Qed.
Lemma answered_on g body l k k' : l_last l = true -> answered (past act k) g = body ++ [l] -> (k <= k')%nat -> answered (past act k') g = body ++ [l].
Proof. intros LL AN. induction 1 as [|m LE IH]; [exact AN|]. eapply answered_stays; eassumption. Qed.
End Return.

(** ... and the call returns, with the status that the answer (and the result of its response callback) determine: in the command phase of
    a call without data, and in the data phase. *)
Theorem c102_answered_call_returns : forall cap tt pfxs n st act k i p g body l c, (0 < cap)%nat -> tables_ok (tokens_now tt None) -> (forall q, In q pfxs -> at_len_ok q) ->
  byte_execution cap tt pfxs n st act -> reader_runs st act -> reads_deliver st act -> threads_run cap tt st act ->
  nth_error (ths (w_core (st k))) i = Some p -> awaits p g -> answered (past act k) g = body ++ [l] -> l_last l = true ->
  p = Wait c /\ data_of (rq_kind (c_req c)) = None \/ p = DataWait c ->
  exists k' s o, (k <= k')%nat /\ In (Returned c s o) (log (w_core (st k'))) /\
    (p = Wait c -> command_status cap tt pfxs n (past act k') (c_id c) (c_req c) s) /\ (p = DataWait c -> data_status tt (past act k') (c_id c) s).
Proof.
  intros cap tt pfxs n st act k i p g body l c CP TK PX EX RR RD TR EP AW AN LL SH.
  destruct (comes cap tt pfxs n st act CP TK PX EX RR RD TR i p g body l AW LL (load g (w_core (st k))) k (conj EP AN) eq_refl) as (k1 & LE & A & EP1 & AN1).
  pose proof (app_step cap tt pfxs n st act TK PX EX k1 _ A) as E1. cbn [exec] in E1.
  assert (RET : exists k2 s o, (k1 <= k2)%nat /\ In (Returned c s o) (log (w_core (st k2)))).
  { destruct SH as [(-> & DN)| ->]; unfold thread_step in E1; rewrite EP1 in E1; destruct (queue (w_core (st k1))) as [q|] eqn:Q; try discriminate; injection E1 as E1.
    - destruct (after_reset cap tt pfxs n st act TK PX EX TR i (S k1) c (q_st q) (Some q)) as (k2 & L2 & X); [rewrite <- E1; eapply nth_set_eq; exact EP1|exact DN|]. exists k2, (q_st q), (Some q). split; [lia|exact X].
    - destruct (after_data cap tt pfxs n st act TK PX EX TR i (S k1) c (q_st q) (Some q)) as (k2 & L2 & X); [rewrite <- E1; eapply nth_set_eq; exact EP1|]. exists k2, (q_st q), (Some q). split; [lia|exact X]. }
  destruct RET as (k2 & s & o & L2 & RT). exists k2, s, o. split; [lia|]. split; [exact RT|].
  pose proof (answered_on cap tt pfxs n st act TK PX EX g body l k1 k2 LL AN1 L2) as AN2.
  destruct (c99_calls_return_what_the_bytes_say cap tt pfxs n _ _ TK PX (past_run cap tt pfxs n st act EX k2) c s o RT) as (_ & MR).
  assert (NE : body ++ [l] <> []) by (destruct body; discriminate).
  split; intros ->.
  - destruct AW as (c' & [(Q & ->)|(Q & _)]); [injection Q as <-|discriminate]. destruct SH as [(_ & DN)|Q]; [|discriminate]. destruct MR; try congruence; assumption.
  - destruct AW as (c' & [(Q & _)|(Q & ->)]); [discriminate|injection Q as <-]. destruct MR; try congruence; assumption.
Qed.
Print Assumptions c102_answered_call_returns.

(** ** Non-triviality: an infinite execution that meets the hypotheses *)
(** A finite run continued by idling. *)
Fixpoint states_of (cap : nat) (tt : token_table) (lbs : list wlabel) (w : whole) (k : nat) : whole :=
  match k, lbs with
  | O, _ => w
  | S j, lb :: r => match wexec cap tt lb w with Some (Ok w1) => states_of cap tt r w1 j | _ => w end
  | S _, [] => w
  end.
Definition idle : wlabel := WApp (LGiveUp (9%nat, false)).
Lemma idling cap tt pfxs lbs w wf : walk cap tt (conforming_bytes cap tt pfxs) w lbs -> wexec_all cap tt lbs w = Some wf ->
  conforming_bytes cap tt pfxs wf idle -> wexec cap tt idle wf = Some (Ok wf) ->
  (forall k, conforming_bytes cap tt pfxs (states_of cap tt lbs w k) (nth k lbs idle) /\
    wexec cap tt (nth k lbs idle) (states_of cap tt lbs w k) = Some (Ok (states_of cap tt lbs w (S k)))) /\
  forall k, (length lbs <= k)%nat -> states_of cap tt lbs w k = wf.
Proof.
  intros W. revert wf. induction W as [w|w lb r w1 E O W IH]; intros wf X CI XI; cbn [wexec_all] in X.
  - injection X as <-. assert (ST : forall k, states_of cap tt [] w k = w) by (destruct k; reflexivity). split; [|auto]. intro k. rewrite !ST. destruct k; cbn [nth]; auto.
  - rewrite E in X. destruct (IH wf X CI XI) as (A & B). split.
    + intros [|k]; cbn [nth states_of]; rewrite E; [|apply A]. split; [exact O|]. destruct r; reflexivity.
    + intros [|k] LE; cbn [length] in LE; [lia|]. cbn [states_of]. rewrite E. apply B. lia.
Qed.
Definition run102 : list wlabel :=
  run99b ++ [WLine LReader; WApp (LCall 1 q_plain); WLine LReader; WLine LReader; WScan; WRead 1; WScan; WRead 4] ++ wreads 7 ++
  [WLine (LCbReturns PKT_OK); WLine LReader; WScan; WRead 9; WScan; WApp (LThread 0)] ++ map WApp (finish 0) ++
  map WApp (repeat (LThread 1) 5) ++ [says (ans "OK" 1 false true); WRead 40] ++ wreads 7 ++ [WScan; WApp (LThread 1)] ++ map WApp (finish 1).
Definition st102 : nat -> whole := states_of 40 tt0 run102 (winit 40 2).
Definition act102 (k : nat) : wlabel := nth k run102 idle.

Definition busyb (w : whole) : bool := match w_at w with Waiting => match w_fifo w with [] => false | _ => true end | _ => true end.
Lemma busyb_ok w : reader_busy w -> busyb w = true.
Proof. unfold reader_busy, busyb. destruct (w_at w); auto. destruct (w_fifo w); [congruence|auto]. Qed.
Definition idleb (i : nat) (w : whole) : bool := match nth_error (ths (w_core w)) i with Some Idle => true | _ => false end.
Definition check102 (k : nat) : bool :=
  ((k <=? 51)%nat || negb (busyb (st102 k))) && ((k <=? 35)%nat || idleb 0 (st102 k)) && (length (ths (w_core (st102 k))) =? 2)%nat &&
  match act102 k with WRead 0 => false | _ => true end.
Lemma checked102 : forallb check102 (seq 0 56) = true.
Proof. vm_compute. reflexivity. Qed.
Definition end102 : whole := Eval vm_compute in st102 56.
Lemma execution102 : (forall k, conforming_bytes 40 tt0 pfx0 (st102 k) (act102 k) /\ wexec 40 tt0 (act102 k) (st102 k) = Some (Ok (st102 (S k)))) /\ forall k, (56 <= k)%nat -> st102 k = end102.
Proof.
  apply (idling 40 tt0 pfx0 run102 (winit 40 2) end102).
  - let r := eval vm_compute in run102 in change run102 with r. let s0 := eval vm_compute in (winit 40 2) in change (winit 40 2) with s0.
    repeat (wstep_run; [bytes_ok|]). constructor.
  - vm_compute. reflexivity.
  - split; [exact I|]. split; [split; [exact I|split; exact I]|exact I].
  - vm_compute. reflexivity.
Qed.
(** Two calls: the first collects a line and OK, its bytes in five reads cut inside lines, one of them when the reader has only half of the
    OK; the second waits for the lock meanwhile and then gets an OK.  No time-out happens. *)
Example c102_ex : byte_execution 40 tt0 pfx0 2 st102 act102 /\ reader_runs st102 act102 /\ reads_deliver st102 act102 /\ threads_run 40 tt0 st102 act102 /\
  nth_error (ths (w_core (st102 11))) 0 = Some (Wait {| c_id := 0; c_req := q_multi |}) /\ awaits (Wait {| c_id := 0; c_req := q_multi |}) (0%nat, false) /\
  answered (past act102 11) (0%nat, false) = [ans "+COPS: 1" 0 false false] ++ [ans "OK" 0 false true] /\ queue (w_core (st102 11)) = None /\
  (forall k i, act102 k <> WApp (LTimeout i)) /\ length (log (w_core (st102 56))) = 3%nat.
Proof.
  destruct execution102 as (X & LATE).
  assert (CK : forall k, (k < 56)%nat -> check102 k = true) by (intros k L; pose proof checked102 as C; rewrite forallb_forall in C; apply C, in_seq; lia).
  assert (OVER : forall k, (56 <= k)%nat -> act102 k = idle) by (intros k L; unfold act102; apply nth_overflow; exact L).
  split; [split; [reflexivity|exact X]|]. split; [|split; [|split; [|split; [reflexivity|split; [eexists; left; split; reflexivity|split; [reflexivity|split; [reflexivity|split]]]]]]].
  - intros k B. apply busyb_ok in B. destruct (le_lt_dec 56 k) as [L|L]; [rewrite (LATE k L) in B; discriminate|]. apply CK in L. unfold check102 in L. rewrite B in L. cbn [negb] in L. rewrite orb_false_r, !andb_true_iff in L.
    destruct L as (((L & _) & _) & _). apply Nat.leb_le in L. exists 51%nat. split; [exact L|]. exact I.
  - intros k m A _ ->. destruct (le_lt_dec 56 k) as [L|L]; [rewrite (OVER k L) in A; discriminate|]. apply CK in L. unfold check102 in L. rewrite A in L. rewrite andb_false_r in L. discriminate.
  - intros k i (w & E). cbn [wexec app_label exec] in E.
    assert (EN : match nth_error (ths (w_core (st102 k))) i with Some Idle | None => False | _ => True end).
    { unfold thread_step in E. destruct (nth_error (ths (w_core (st102 k))) i) as [[]|]; try exact I; discriminate. }
    destruct (le_lt_dec 56 k) as [L|L]; [rewrite (LATE k L) in EN; exfalso; destruct i as [|[|i]]; cbn in EN; try contradiction; destruct i; contradiction|].
    pose proof (CK k L) as C. unfold check102 in C. rewrite !andb_true_iff in C. destruct C as (((_ & C1) & C2) & _). apply Nat.eqb_eq in C2.
    destruct i as [|[|i]].
    + apply orb_true_iff in C1. destruct C1 as [C1|C1]; [|unfold idleb in C1; destruct (nth_error (ths (w_core (st102 k))) 0) as [[]|]; try discriminate; contradiction].
      apply Nat.leb_le in C1. exists 35%nat, (LThread 0). split; [exact C1|]. split; reflexivity.
    + exists 55%nat, (LThread 1). split; [lia|]. split; reflexivity.
    + exfalso. rewrite (proj2 (nth_error_None _ _)) in EN by lia. exact EN.
  - intros k i A. destruct (le_lt_dec 56 k) as [L|L]; [rewrite (OVER k L) in A; discriminate|].
    assert (Q : forallb (fun lb => match lb with WApp (LTimeout _) => false | _ => true end) run102 = true) by (vm_compute; reflexivity).
    rewrite forallb_forall in Q. specialize (Q (act102 k) (nth_In run102 idle L)). rewrite A in Q. discriminate.
  - reflexivity.
Qed.

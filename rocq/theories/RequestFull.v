(** Proofs for C85: in runs with a conforming modem every call returns what the modem's complete answer says. *)
From Coq Require Import List NArith ZArith Bool Arith Lia.
From Verif Require Import Bytes AtCore Status SpecAt AtProofs AtProofs3 Pktio SpecPktio PktioLine SpecStream Request SpecRequest RequestInv RequestTidy RequestLive SpecAnswers.
Import ListNotations.

Lemma calls_app a b : calls (a ++ b) = calls a ++ calls b.
Proof. unfold calls. apply flat_map_app. Qed.
Lemma emitted_app a b g : emitted (a ++ b) g = emitted a g ++ emitted b g.
Proof. unfold emitted. apply flat_map_app. Qed.

(** ** Identities (any run) *)
Inductive shape (lb : label) (s s' : state) : Prop :=
| sh_accept i r : lb = LCall i r -> nth_error (ths s) i = Some Idle -> rq_kind r <> KToken None ->
    ths s' = set_nth (ths s) i (Called {| c_id := next s; c_req := r |}) -> log s' = log s -> next s' = S (next s) -> shape lb s s'
| sh_reject i r : lb = LCall i r -> rq_kind r = KToken None -> ths s' = ths s ->
    log s' = Returned {| c_id := next s; c_req := r |} PKT_BAD_PARAM None :: log s -> next s' = S (next s) -> shape lb s s'
| sh_move i p p' c : calls [lb] = [] -> nth_error (ths s) i = Some p -> call_of p = Some c -> call_of p' = Some c ->
    ths s' = set_nth (ths s) i p' -> log s' = log s -> next s' = next s -> (rank p' < rank p)%nat -> shape lb s s'
| sh_return i c st o : calls [lb] = [] -> nth_error (ths s) i = Some (Release c st o) ->
    ths s' = set_nth (ths s) i Idle -> log s' = Returned c st o :: log s -> next s' = next s -> shape lb s s'
| sh_none : calls [lb] = [] -> ths s' = ths s -> next s' = next s ->
    (log s' = log s \/ exists id ls l, rd s = RCall ls l /\ cb s = Some id /\ log s' = Delivered id ls l :: log s) -> shape lb s s'.

Lemma exec_shape tt lb s s' : exec tt lb s = Some s' -> shape lb s s'.
Proof.
  intro E. destruct lb as [i r|i|i|i|i| |st|a k|l|g]; cbn [exec] in E.
  - destruct (nth_error (ths s) i) as [[]|] eqn:EP; try discriminate.
    destruct (rq_kind r) as [|[t|]| | |] eqn:K; injection E as <-.
    all: first [eapply (sh_accept _ _ _ i r); [reflexivity|exact EP|congruence|reflexivity|reflexivity|reflexivity]
               |eapply (sh_reject _ _ _ i r); [reflexivity|exact K|reflexivity|reflexivity|reflexivity]].
  - unfold thread_step in E. destruct (nth_error (ths s) i) as [p|] eqn:EP; [|discriminate].
    destruct p as [|c|c|c|c|c|c|c st o|c st o|c|c|c|c st o|c st o]; try discriminate.
    all: repeat match goal with H : match ?x with _ => _ end = Some _ |- _ => destruct x eqn:?; try discriminate end.
    all: injection E as <-.
    all: try (eapply sh_move; [reflexivity|exact EP|reflexivity| |reflexivity|reflexivity|reflexivity|cbn; lia]; reflexivity).
    + destruct (rq_kind (c_req c)) eqn:K; (eapply (sh_move _ _ _ i _ (Setup c)); [reflexivity|exact EP|reflexivity|reflexivity|reflexivity|reflexivity|reflexivity|cbn; lia]).
    + destruct o as [o|]; (eapply (sh_move _ _ _ i _ (SendB c)); [reflexivity|exact EP|reflexivity|reflexivity|reflexivity|reflexivity|reflexivity|cbn; lia]).
    + assert (X : call_of (after_command c st o) = Some c) by (unfold after_command; destruct (data_of _), st; reflexivity).
      assert (Y : (rank (after_command c st o) < rank (Unhook c st o))%nat) by (unfold after_command; destruct (data_of _), st; cbn; lia).
      destruct (rq_kind (c_req c)) eqn:K; (eapply sh_move; [reflexivity|exact EP|reflexivity|exact X|reflexivity|reflexivity|reflexivity|exact Y]).
    + eapply sh_return; [reflexivity|exact EP|reflexivity|reflexivity|reflexivity].
  - destruct (nth_error (ths s) i) as [[]|] eqn:EP; try discriminate; injection E as <-; (eapply sh_move; [reflexivity|exact EP|reflexivity| |reflexivity|reflexivity|reflexivity|cbn; lia]; reflexivity).
  - destruct (nth_error (ths s) i) as [[]|] eqn:EP; try discriminate; injection E as <-; (eapply sh_move; [reflexivity|exact EP|reflexivity| |reflexivity|reflexivity|reflexivity|cbn; lia]; reflexivity).
  - destruct (nth_error (ths s) i) as [[]|] eqn:EP; try discriminate; injection E as <-; (eapply sh_move; [reflexivity|exact EP|reflexivity| |reflexivity|reflexivity|reflexivity|cbn; lia]; reflexivity).
  - unfold reader_step, reader_process in E. destruct (rd s) as [|l|l u|l mt|l t|l|ok ls l|ok ls l|ls l|id ls l|st l ok c|] eqn:RD; try discriminate.
    all: repeat match goal with H : match ?x with _ => _ end = Some _ |- _ => destruct x eqn:?; try discriminate end.
    all: injection E as <-; apply sh_none; try reflexivity; first [left; reflexivity|right; eauto 10].
  - destruct (rd s); try discriminate. injection E as <-. apply sh_none; try reflexivity. left; reflexivity.
  - destruct (rd s); try discriminate. destruct a; injection E as <-; (apply sh_none; try reflexivity; left; reflexivity).
  - injection E as <-. apply sh_none; try reflexivity. left; reflexivity.
  - injection E as <-. apply sh_none; try reflexivity. left; reflexivity.
Qed.

Record Ids (lbs : list label) (s : state) : Prop := {
  i_len : length (calls lbs) = next s;
  i_thr : forall i p c, nth_error (ths s) i = Some p -> call_of p = Some c -> nth_error (calls lbs) (c_id c) = Some (c_req c);
  i_uniq : forall i j p q c d, nth_error (ths s) i = Some p -> nth_error (ths s) j = Some q -> call_of p = Some c -> call_of q = Some d -> c_id c = c_id d -> i = j;
  i_ret : forall c st o, In (Returned c st o) (log s) -> nth_error (calls lbs) (c_id c) = Some (c_req c) /\
            forall i p d, nth_error (ths s) i = Some p -> call_of p = Some d -> c_id d <> c_id c;
  i_nd : NoDup (returned_ids (log s)) }.

Lemma in_returned id lg : In id (returned_ids lg) -> exists c st o, In (Returned c st o) lg /\ c_id c = id.
Proof.
  unfold returned_ids. intro H. apply in_flat_map in H. destruct H as (e & I & J). destruct e as [c st o|]; [|destruct J]. destruct J as [<-|[]]. eauto.
Qed.
Lemma nth_app_old {A} (l m : list A) k x : nth_error l k = Some x -> nth_error (l ++ m) k = Some x.
Proof. intro H. rewrite nth_error_app1; [exact H|]. apply nth_error_Some. congruence. Qed.
Lemma nth_set_cases {A} (l : list A) i j x y : nth_error (set_nth l i x) j = Some y -> (i = j /\ y = x) \/ (i <> j /\ nth_error l j = Some y).
Proof.
  intro H. destruct (Nat.eq_dec i j) as [<-|N]; [left|right; rewrite nth_set_neq in H by exact N; auto]. split; [reflexivity|].
  revert i H. induction l as [|a l IH]; intros [|i] H; cbn in H; try discriminate; [congruence|apply (IH i); exact H].
Qed.

Lemma exec_ids tt lbs lb s s' : Ids lbs s -> exec tt lb s = Some s' -> Ids (lbs ++ [lb]) s'.
Proof.
  intros [L T U R ND] E. apply exec_shape in E.
  assert (LT : forall i p c, nth_error (ths s) i = Some p -> call_of p = Some c -> (c_id c < next s)%nat).
  { intros i p c EP CO. rewrite <- L. apply nth_error_Some. rewrite (T i p c EP CO). discriminate. }
  assert (LR : forall c st o, In (Returned c st o) (log s) -> (c_id c < next s)%nat).
  { intros c st o I. rewrite <- L. apply nth_error_Some. destruct (R c st o I) as (Q & _). rewrite Q. discriminate. }
  destruct E as [i r -> EP K TS LG NX|i r -> K TS LG NX|i p p' c CL EP CO CO' TS LG NX RK|i c st o CL EP TS LG NX|CL TS NX LG].
  - (* accept *)
    assert (NE : nth_error (calls lbs ++ [r]) (next s) = Some r) by (rewrite <- L, nth_error_app2, Nat.sub_diag by lia; reflexivity).
    split; rewrite ?calls_app, ?TS, ?LG, ?NX; cbn [calls flat_map app].
    + rewrite app_length. cbn. lia.
    + intros j p c EJ CO. apply nth_set_cases in EJ. destruct EJ as [[<- ->]|[_ EJ]]; [injection CO as <-; exact NE|apply nth_app_old; eauto].
    + intros j k p q c d EJ EK CP CQ EQ. apply nth_set_cases in EJ, EK. destruct EJ as [[<- ->]|[_ EJ]], EK as [[<- ->]|[_ EK]]; [reflexivity| | |eauto].
      * injection CP as <-. cbn in EQ. pose proof (LT _ _ _ EK CQ). lia.
      * injection CQ as <-. cbn in EQ. pose proof (LT _ _ _ EJ CP). lia.
    + intros c st o I. destruct (R c st o I) as (Q1 & Q2). split; [apply nth_app_old; exact Q1|]. intros j p d EJ CO. apply nth_set_cases in EJ. destruct EJ as [[<- ->]|[_ EJ]]; [|eauto].
      injection CO as <-. cbn. pose proof (LR c st o I). lia.
    + exact ND.
  - (* reject *)
    assert (NE : nth_error (calls lbs ++ [r]) (next s) = Some r) by (rewrite <- L, nth_error_app2, Nat.sub_diag by lia; reflexivity).
    split; rewrite ?calls_app, ?TS, ?LG, ?NX; cbn [calls flat_map app].
    + rewrite app_length. cbn. lia.
    + intros j p c EJ CO. apply nth_app_old. eauto.
    + exact U.
    + intros c st o [[= <- <- <-]|I].
      * split; [exact NE|]. intros j p d EJ CO. cbn. pose proof (LT _ _ _ EJ CO). lia.
      * destruct (R c st o I) as (Q1 & Q2). split; [apply nth_app_old; exact Q1|exact Q2].
    + cbn. constructor; [|exact ND]. intro I. apply in_returned in I. destruct I as (c & st & o & I & Q). pose proof (LR c st o I). lia.
  - (* move *)
    split; rewrite ?calls_app, ?CL, ?app_nil_r, ?TS, ?LG, ?NX; auto.
    + intros j q d EJ CQ. apply nth_set_cases in EJ. destruct EJ as [[<- ->]|[_ EJ]]; [|eauto]. rewrite CO' in CQ. injection CQ as <-. eauto.
    + intros j k q q' d d' EJ EK CP CQ EQ. apply nth_set_cases in EJ, EK. destruct EJ as [[<- ->]|[_ EJ]], EK as [[<- ->]|[_ EK]]; [reflexivity| | |eauto].
      * rewrite CO' in CP. injection CP as <-. eauto.
      * rewrite CO' in CQ. injection CQ as <-. eauto.
    + intros d st o I. destruct (R d st o I) as (Q1 & Q2). split; [exact Q1|]. intros j q e EJ CQ. apply nth_set_cases in EJ. destruct EJ as [[<- ->]|[_ EJ]]; [|eauto].
      rewrite CO' in CQ. injection CQ as <-. eauto.
  - (* return *)
    split; rewrite ?calls_app, ?CL, ?app_nil_r, ?TS, ?LG, ?NX; auto.
    + intros j q d EJ CQ. apply nth_set_cases in EJ. destruct EJ as [[<- ->]|[_ EJ]]; [discriminate|eauto].
    + intros j k q q' d d' EJ EK CP CQ EQ. apply nth_set_cases in EJ, EK. destruct EJ as [[<- ->]|[_ EJ]], EK as [[<- ->]|[_ EK]]; try discriminate. eauto.
    + intros d st' o' [[= <- <- <-]|I].
      * split; [eapply T; [exact EP|reflexivity]|]. intros j q e EJ CQ. apply nth_set_cases in EJ. destruct EJ as [[<- ->]|[NE EJ]]; [discriminate|].
        intro Q. apply NE. eapply (U i j _ _ c e); [exact EP|exact EJ|reflexivity|exact CQ|congruence].
      * destruct (R d st' o' I) as (Q1 & Q2). split; [exact Q1|]. intros j q e EJ CQ. apply nth_set_cases in EJ. destruct EJ as [[<- ->]|[_ EJ]]; [discriminate|eauto].
    + cbn. constructor; [|exact ND]. intro I. apply in_returned in I. destruct I as (d & st' & o' & I & Q). destruct (R d st' o' I) as (_ & Q2). apply (Q2 i _ c EP eq_refl). congruence.
  - (* none *)
    assert (LL : forall c st o, In (Returned c st o) (log s') -> In (Returned c st o) (log s)).
    { destruct LG as [->|(id & ls & l & _ & _ & ->)]; [auto|]. intros c st o [Q|I]; [discriminate|exact I]. }
    split; rewrite ?calls_app, ?CL, ?app_nil_r, ?TS, ?NX; auto.
    + intros c st o I. apply (R c st o). auto.
    + destruct LG as [->|(id & ls & l & _ & _ & ->)]; exact ND.
Qed.
Lemma nth_repeat_idle n i p : nth_error (repeat Idle n) i = Some p -> p = Idle.
Proof. intro H. apply nth_error_In in H. apply repeat_spec in H. exact H. Qed.
Lemma run_ids tt ok n lbs s : run tt ok (init n) lbs s -> Ids lbs s.
Proof.
  intro R. remember (init n) as s0 eqn:E0. induction R as [|s1 lbs s2 lb s3 R IH OK E]; [subst|eapply exec_ids; [apply IH; exact E0|exact E]].
  split; cbn; try reflexivity; try (intros; contradiction); [|intros|constructor].
  - intros i p c H. apply nth_repeat_idle in H. subst. discriminate.
  - match goal with H : nth_error _ _ = Some p |- _ => apply nth_repeat_idle in H end. subst. discriminate.
Qed.

(** ** Lines of the answers *)
Lemma tag_eqb_eq a b : tag_eqb a b = true <-> a = b.
Proof.
  destruct a as [x y], b as [x' y']. unfold tag_eqb. cbn. rewrite andb_true_iff, Nat.eqb_eq, Bool.eqb_true_iff. split; [intros [-> ->]; reflexivity|intros [= -> ->]; auto].
Qed.
Lemma emitted_one lb g : emitted [lb] g = [] \/ exists l, lb = LEmit l /\ l_from l = Some g /\ emitted [lb] g = [l].
Proof.
  destruct lb as [| | | | | | | |l|]; try (left; reflexivity). cbn. destruct (l_from l) as [h|] eqn:F; [|left; reflexivity].
  destruct (tag_eqb h g) eqn:Q; [|left; reflexivity]. right. exists l. split; [reflexivity|]. split; [apply tag_eqb_eq in Q; congruence|reflexivity].
Qed.
Lemma app_split_last {A} (l : list A) m a b x : l ++ [m] = a ++ x :: b -> (b = [] /\ x = m /\ a = l) \/ exists b', b = b' ++ [m] /\ l = a ++ x :: b'.
Proof.
  destruct b as [|y b] using rev_ind; intro H.
  - left. apply app_inj_tail in H. destruct H as [-> ->]. auto.
  - right. rewrite app_comm_cons, app_assoc in H. apply app_inj_tail in H. destruct H as [-> ->]. exists b. auto.
Qed.

Definition undelivered (s : state) (id : nat) : Prop := forall ls l, ~ In (Delivered id ls l) (log s).
Definition virgin (lbs : list label) (s : state) (g : tag) : Prop := emitted lbs g = [] /\ (snd g = false -> undelivered s (fst g)).
(** The thread has not come to transmission [g] yet. *)
Definition before (g : tag) (p : tpc) : Prop := exists c, call_of p = Some c /\ c_id c = fst g /\ ((if snd g then 4 else 9) <= rank p)%nat.

Record Em (lbs : list label) (s : state) : Prop := {
  e_fresh : forall g, (next s <= fst g)%nat -> virgin lbs s g;
  e_before : forall i p g, nth_error (ths s) i = Some p -> before g p -> virgin lbs s g;
  e_closed : forall g l, In l (emitted lbs g) -> l_last l = true -> forall tr, In tr (pend s) -> tr_tag tr <> g;
  e_last : forall g a l b, emitted lbs g = a ++ l :: b -> l_last l = true -> b = [] }.

Lemma send_check_can c t p e r : rq_cmd r = Some c -> rq_type r = t -> rq_prefix r = p -> send_check c t p = inr e -> can_send r /\ e = expects r.
Proof.
  unfold send_check. intros A B C D. destruct (N.ltb_spec 200 (N.of_nat (length c))) as [Q|Q]; [discriminate|]. assert (Q' : (length c <= 200)%nat) by lia. unfold can_send, expects, needs_prefix. subst t p.
  destruct (rq_type r) eqn:T, (rq_prefix r) eqn:P; try discriminate; injection D as <-; (split; [exists c; repeat split; auto; try discriminate; intros [X|[X|X]]; discriminate|reflexivity]).
Qed.
Lemma send_check_cannot c t p st r : rq_cmd r = Some c -> rq_type r = t -> rq_prefix r = p -> send_check c t p = inl st -> ~ can_send r /\ st = PKT_BAD_PARAM.
Proof.
  unfold send_check. intros A B C D. unfold can_send, needs_prefix. destruct (N.ltb_spec 200 (N.of_nat (length c))) as [Q|Q].
  - injection D as <-. split; [|reflexivity]. intros (c' & E & L & _). rewrite A in E. injection E as <-. lia.
  - subst t p. destruct (rq_type r) eqn:T, (rq_prefix r) eqn:P; try discriminate; injection D as <-; (split; [|reflexivity]); intros (c' & _ & _ & X & Y); try (apply X; reflexivity); apply Y; auto.
Qed.
Section Full.
Variable tt : token_table.
Variable pfxs : list str.
Hypothesis tables : tables_ok (tokens_now tt None).
Hypothesis prefixes : forall q, In q pfxs -> at_len_ok q.
Variable n : nat.

(** [g] is the transmission being waited for. *)
Definition current (s : state) (g : tag) : Prop := exists i p tr, nth_error (ths s) i = Some p /\ cur_of p = Some tr /\ tr_tag tr = g /\ cur s = Some tr.
Lemma cur_current s tr : cur s = Some tr -> current s (tr_tag tr).
Proof.
  intro C. pose proof C as C0. unfold cur in C. destruct (mtx s) as [i|]; [|discriminate]. destruct (nth_error (ths s) i) as [p|] eqn:EP; [|discriminate]. exists i, p, tr. auto.
Qed.
Lemma current_call s g : current s g -> exists i p c, nth_error (ths s) i = Some p /\ call_of p = Some c /\ fst g = c_id c /\ (p = Wait c /\ snd g = false \/ p = DataWait c /\ snd g = true).
Proof.
  intros (i & p & tr & EP & CU & <- & _). exists i, p. destruct p; cbn in CU; try discriminate; injection CU as <-; exists c; cbn; auto 10.
Qed.
(** Lines and deliveries only concern the current transmission. *)
Lemma emitted_step lbs s lb g : Tidy tt pfxs s -> honest tt pfxs s lb ->
  emitted (lbs ++ [lb]) g = emitted lbs g \/ exists l tr, lb = LEmit l /\ l_from l = Some g /\ emitted (lbs ++ [lb]) g = emitted lbs g ++ [l] /\ In tr (pend s) /\ tr_tag tr = g /\ cur s = Some tr.
Proof.
  intros T H. rewrite emitted_app. destruct (emitted_one lb g) as [->|(l & -> & F & ->)]; [left; apply app_nil_r|right]. cbn [honest] in H. rewrite F in H. destruct H as (tr & I0 & G & _).
  exists l, tr. pose proof (c_pend _ _ _ s (t_core _ _ s T) tr I0). auto 10.
Qed.
Lemma virgin_step lbs s lb s' g : Inv s -> Tidy tt pfxs s -> honest tt pfxs s lb -> exec tt lb s = Some s' -> virgin lbs s g -> virgin (lbs ++ [lb]) s' g \/ current s g.
Proof.
  intros V T H E (A & B). destruct (emitted_step lbs s lb g T H) as [EM|(l & tr & _ & _ & _ & _ & <- & CU)]; [|right; apply cur_current; exact CU].
  apply exec_shape in E.
  assert (X : (forall id ls l, In (Delivered id ls l) (log s') -> In (Delivered id ls l) (log s)) -> virgin (lbs ++ [lb]) s' g).
  { intro X. split; [congruence|]. intros Q ls l I0. apply (B Q ls l). auto. }
  destruct E as [i r _ _ _ _ LG _|i r _ _ _ LG _|i p p' c _ _ _ _ _ LG _ _|i c st o _ _ _ LG _|_ _ _ [LG|(id & ls & l & RD & CB & LG)]]; try (left; apply X; rewrite LG; auto; fail).
  - left. apply X. rewrite LG. intros id ls l [Q|Q]; [discriminate|exact Q].
  - left. apply X. rewrite LG. intros id ls l [Q|Q]; [discriminate|exact Q].
  - pose proof (c_rd _ _ _ s (t_core _ _ s T)) as D. unfold rd_ok in D. rewrite RD in D. destruct D as (tr & CU & _). destruct (cur_facts tt pfxs s tr V CU (t_ths _ _ s T)) as (_ & _ & _ & X4). specialize (X4 id CB).
    destruct g as [gid gb]. destruct gb.
    + left. split; [congruence|discriminate].
    + destruct (Nat.eq_dec id gid) as [<-|NE]; [right; rewrite <- X4; apply cur_current; exact CU|]. left. split; [congruence|]. intros _ ls' l'. rewrite LG. intros [[= Q _ _]|Q]; [exact (NE Q)|apply (B eq_refl ls' l' Q)].
Qed.
Lemma current_unique lbs s g i p c : Ids lbs s -> current s g -> nth_error (ths s) i = Some p -> call_of p = Some c -> c_id c = fst g -> (p = Wait c /\ snd g = false \/ p = DataWait c /\ snd g = true).
Proof.
  intros ID CU EP CO EQ. apply current_call in CU. destruct CU as (j & q & d & EQ1 & CQ & F & Q). assert (i = j) by (eapply (i_uniq _ _ ID); try eassumption; congruence). subst j.
  rewrite EP in EQ1. injection EQ1 as <-. rewrite CO in CQ. injection CQ as <-. exact Q.
Qed.
Lemma current_old lbs s g : Ids lbs s -> current s g -> (fst g < next s)%nat.
Proof.
  intros ID CU. apply current_call in CU. destruct CU as (j & q & d & EQ1 & CQ & F & Q). rewrite F, <- (i_len _ _ ID). apply nth_error_Some. rewrite (i_thr _ _ ID _ _ _ EQ1 CQ). discriminate.
Qed.
Lemma current_not_before lbs s g i p : Ids lbs s -> current s g -> nth_error (ths s) i = Some p -> before g p -> False.
Proof.
  intros ID CU EP (c & CO & EQ & RK). destruct (current_unique lbs s g i p c ID CU EP CO EQ) as [[-> SN]|[-> SN]]; rewrite SN in RK; cbn in RK; lia.
Qed.

Lemma exec_em lbs lb s s' : Inv s -> Tidy tt pfxs s -> Ids lbs s -> Em lbs s -> honest tt pfxs s lb -> exec tt lb s = Some s' -> Em (lbs ++ [lb]) s'.
Proof.
  intros V T ID [F B C L] H E.
  assert (VG : forall g, virgin lbs s g -> ~ current s g -> virgin (lbs ++ [lb]) s' g) by (intros g VG NC; destruct (virgin_step lbs s lb s' g V T H E VG); [assumption|contradiction]).
  assert (VF : forall g, (next s <= fst g)%nat -> virgin (lbs ++ [lb]) s' g) by (intros g LE; apply VG; [apply F; exact LE|]; intro CU; pose proof (current_old lbs s g ID CU); lia).
  assert (VB : forall i p g, nth_error (ths s) i = Some p -> before g p -> virgin (lbs ++ [lb]) s' g) by (intros i p g EP BP; apply VG; [eapply B; eassumption|]; intro CU; eapply current_not_before; eassumption).
  assert (PE : forall tr, In tr (pend s') -> In tr (pend s) \/ exists i p c, nth_error (ths s) i = Some p /\ (p = SendB c /\ tr = cmd_tr c \/ p = Data2 c /\ tr = data_tr c) /\ (forall l, lb <> LEmit l)).
  { destruct lb as [i r|i|i|i|i| |st|a k|l|g]; cbn [exec] in E.
    - destruct (nth_error (ths s) i) as [[]|]; try discriminate. destruct (rq_kind r) as [|[t|]| | |]; injection E as <-; cbn; auto.
    - unfold thread_step in E. destruct (nth_error (ths s) i) as [p|] eqn:EP; [|discriminate].
      destruct p as [|c|c|c|c|c|c|c st o|c st o|c|c|c|c st o|c st o]; try discriminate.
      all: repeat match goal with H : match ?x with _ => _ end = Some _ |- _ => destruct x eqn:?; try discriminate end.
      all: injection E as <-.
      all: try (intros tr I0; left; repeat match goal with H : context [match ?x with _ => _ end] |- _ => destruct x end; exact I0).
      + intros tr [<-|I0]; [right|left; exact I0]. exists i, (SendB c), c. split; [exact EP|]. split; [left; split; reflexivity|discriminate].
      + intros tr [<-|I0]; [right|left; exact I0]. exists i, (Data2 c), c. split; [exact EP|]. split; [right; split; reflexivity|discriminate].
    - destruct (nth_error (ths s) i) as [[]|]; try discriminate; injection E as <-; cbn; auto.
    - destruct (nth_error (ths s) i) as [[]|]; try discriminate; injection E as <-; cbn; auto.
    - destruct (nth_error (ths s) i) as [[]|]; try discriminate; injection E as <-; cbn; auto.
    - unfold reader_step, reader_process in E. destruct (rd s); try discriminate.
      all: repeat match goal with H : match ?x with _ => _ end = Some _ |- _ => destruct x eqn:?; try discriminate end.
      all: injection E as <-; cbn; auto.
    - destruct (rd s); try discriminate. injection E as <-. cbn; auto.
    - destruct (rd s); try discriminate. destruct a; injection E as <-; cbn; auto.
    - injection E as <-. cbn. intros tr I0. left. destruct (l_from l); [destruct (l_last l); [apply drop_in in I0|]|]; exact I0.
    - injection E as <-. cbn. intros tr I0. left. apply drop_in in I0. exact I0. }
  pose proof (exec_shape _ _ _ _ E) as SH. split.
  - intros g LE. apply VF. destruct SH; lia.
  - intros i p g EP BP. destruct SH as [j r LB EJ _ TS LG NX|j r _ _ TS _ _|j q q' c _ EJ CO CO' TS _ _ RK|j c st o _ EJ TS _ _|_ TS _ _]; rewrite TS in EP; try (eapply VB; eassumption).
    + apply nth_set_cases in EP. destruct EP as [[<- ->]|[_ EP]]; [|eapply VB; eassumption]. destruct BP as (c & [= <-] & EQ & _). apply VF. cbn in EQ. lia.
    + apply nth_set_cases in EP. destruct EP as [[<- ->]|[_ EP]]; [|eapply VB; eassumption]. destruct BP as (d & CD & EQ & RD). rewrite CO' in CD. injection CD as <-. eapply VB; [exact EJ|]. exists c. split; [exact CO|]. split; [exact EQ|lia].
    + apply nth_set_cases in EP. destruct EP as [[<- ->]|[_ EP]]; [|eapply VB; eassumption]. destruct BP as (d & CD & _). discriminate.
  - intros g l I0 LL tr IT G. destruct (emitted_step lbs s lb g T H) as [EM|(l' & tr' & LB & LF & EM & IP & GT & CU)].
    + rewrite EM in I0. destruct (PE tr IT) as [IP|(i & p & c & EP & X & _)]; [exact (C g l I0 LL tr IP G)|].
      assert (BP : before g p) by (exists c; rewrite <- G; destruct X as [[-> ->]|[-> ->]]; cbn; auto). destruct (B i p g EP BP) as (Q & _). rewrite Q in I0. destruct I0.
    + rewrite EM in I0. apply in_app_or in I0. destruct I0 as [I0|[<-|[]]]; [exact (C g l I0 LL tr' IP GT)|]. subst lb. cbn [exec] in E. injection E as <-. cbn in IT. rewrite LF, LL in IT. unfold drop_tag in IT. apply filter_In in IT. destruct IT as (_ & IT). rewrite G, tag_eqb_refl in IT. discriminate.
  - intros g a l b EQ LL. destruct (emitted_step lbs s lb g T H) as [EM|(l' & tr' & LB & LF & EM & IP & GT & CU)]; rewrite EM in EQ; [eapply L; eassumption|].
    apply app_split_last in EQ. destruct EQ as [(-> & _ & _)|(b' & -> & EQ)]; [reflexivity|]. exfalso. apply (C g l) with (tr := tr'); auto. rewrite EQ. apply in_or_app. right. left. reflexivity.
Qed.
Lemma init_em : Em [] (init n).
Proof.
  split.
  - intros g _. split; [reflexivity|]. intros _ ls l [].
  - intros i p g EP. split; [reflexivity|]. intros _ ls l [].
  - intros g l [].
  - intros g a l b EQ. destruct a; discriminate.
Qed.

(** ** The transmission being waited for *)
Definition exp_of (p : tpc) : option str := match p with Wait c => expects (c_req c) | _ => None end.
Definition ans (lbs : list label) (p : tpc) (st : pkt_status) : Prop :=
  match p with
  | Wait c => command_answer tt pfxs n lbs (c_id c) (c_req c) st
  | DataWait c => data_answer tt lbs (c_id c) st
  | _ => False
  end.
Definition prefix_now (s : state) : option str := if puse s then Some (pbuf s) else None.
Definition held_lines (s : state) : list line := match resp s with Some ls => ls | None => [] end.
Definition tagged (l : line) : bool := match l_from l with Some _ => true | None => false end.
Definition completed (lbs : list label) (tr : transaction) (ok : bool) (ls : list line) (l : line) : Prop :=
  exists body, emitted lbs (tr_tag tr) = body ++ [l] /\
    (success_line (tok tt tr) (l_text l) /\ ok = true /\ ls = body \/
     error_line (tok tt tr) (l_text l) /\ ok = false \/
     plain_line (tok tt tr) (l_text l) /\ no_code_type (tr_type tr) /\ ok = true /\ ls = body ++ [l]).
Definition open (lbs : list label) (s : state) (p : tpc) (tr : transaction) : Prop :=
  held_lines s ++ filter tagged (flight s) = emitted lbs (tr_tag tr) /\ typ s = tr_type tr /\ prefix_now s = exp_of p /\
  match rd s with
  | RPtr l u => l_from l <> None -> u = puse s
  | RMsg l mt => l_from l <> None -> mt = AT_SOLICITED
  | RUndef _ => False
  | _ => True
  end.
Definition fresh_cb (s : state) (tr : transaction) : Prop := snd (tr_tag tr) = false -> undelivered s (fst (tr_tag tr)).
Definition stage (lbs : list label) (s : state) (p : tpc) (tr : transaction) : Prop :=
  match queue s with
  | Some q => ans lbs p (q_st q) /\ puse s = false
  | None =>
      match rd s with
      | RDone ok ls l => completed lbs tr ok ls l /\ fresh_cb s tr
      | RHandle ok ls l => completed lbs tr ok ls l /\ fresh_cb s tr /\ puse s = false
      | RCall ls l => completed lbs tr true ls l /\ fresh_cb s tr /\ puse s = false
      | RInCB id ls l => completed lbs tr true ls l /\ puse s = false
      | RPost st l ok c => ans lbs p st /\ puse s = false
      | _ => open lbs s p tr /\ fresh_cb s tr
      end
  end.
Definition lines_fit (lbs : list label) (p : tpc) (tr : transaction) : Prop :=
  forall a l b, emitted lbs (tr_tag tr) = a ++ l :: b ->
    line_of_command tt (tr_type tr) (exp_of p) (l_text l) /\ (l_last l = false -> multi_line_type (tr_type tr) \/ single_line_type (tr_type tr) /\ a = []) /\
    (l_last l = true <-> completes (tok tt tr) (tr_type tr) (l_text l)).
Record Now (lbs : list label) (s : state) (p : tpc) (tr : transaction) : Prop := {
  n_lines : lines_fit lbs p tr;
  n_stage : stage lbs s p tr }.

(** ** What a thread has to show for its position *)
Definition no_answer (lbs : list label) (c : call) : Prop := emitted lbs (c_id c, false) = [].
Definition command_phase_result (lbs : list label) (c : call) (st : pkt_status) : Prop :=
  st = PKT_BAD_REQUEST /\ rq_cmd (c_req c) = None /\ no_answer lbs c \/
  st = PKT_BAD_PARAM /\ rq_cmd (c_req c) <> None /\ ~ can_send (c_req c) /\ no_answer lbs c \/
  st = PKT_TIMED_OUT /\ can_send (c_req c) /\ no_answer lbs c \/
  can_send (c_req c) /\ command_answer tt pfxs n lbs (c_id c) (c_req c) st.
Definition accepted (c : call) : Prop := rq_kind (c_req c) <> KToken None.
Definition data_phase (lbs : list label) (c : call) : Prop :=
  can_send (c_req c) /\ command_answer tt pfxs n lbs (c_id c) (c_req c) PKT_OK /\ exists d, data_of (rq_kind (c_req c)) = Some d /\ d_data d <> None.
Definition pcfact (lbs : list label) (s : state) (p : tpc) : Prop :=
  match p with
  | Idle => True
  | Called c | Hook c | Setup c => accepted c
  | SendA c => accepted c /\ rq_cmd (c_req c) <> None
  | SendB c => accepted c /\ can_send (c_req c) /\ typ s = rq_type (c_req c) /\ prefix_now s = expects (c_req c)
  | Wait c => accepted c /\ can_send (c_req c)
  | Reset c st _ | Unhook c st _ => accepted c /\ command_phase_result lbs c st /\ (st = PKT_OK -> puse s = false)
  | Data1 c => can_send (c_req c) /\ command_answer tt pfxs n lbs (c_id c) (c_req c) PKT_OK /\ puse s = false
  | Data2 c => data_phase lbs c /\ puse s = false /\ typ s = T_NO_RESULT
  | DataWait c => data_phase lbs c
  | DataReset c st _ | Release c st _ => outcome tt pfxs n lbs (c_id c) (c_req c) st
  end.

Record Full (lbs : list label) (s : state) : Prop := {
  f_now : forall i p tr, nth_error (ths s) i = Some p -> cur_of p = Some tr -> Now lbs s p tr;
  f_pc : forall i p, nth_error (ths s) i = Some p -> pcfact lbs s p;
  f_ret : forall c st o, In (Returned c st o) (log s) -> outcome tt pfxs n lbs (c_id c) (c_req c) st;
  f_del : forall id ls l, In (Delivered id ls l) (log s) -> exists r, nth_error (calls lbs) id = Some r /\ rq_cb r = true /\ complete_response tt lbs id r ls l;
  f_dnd : NoDup (delivered_ids (log s)) }.

(** ** Stability *)
Lemma said_mono lbs tl id ls l st : callback_returned tt pfxs n lbs id ls l st -> callback_returned tt pfxs n (lbs ++ tl) id ls l st.
Proof. intros (a & b & s & -> & R & E). exists a, (b ++ tl), s. rewrite <- app_assoc. auto. Qed.
Lemma resp_mono lbs lbs' id r ls l : emitted lbs' (id, false) = emitted lbs (id, false) -> complete_response tt lbs id r ls l -> complete_response tt lbs' id r ls l.
Proof. intros E (body & A & B). exists body. split; [congruence|exact B]. Qed.
Lemma cmd_mono lbs tl id r st : emitted (lbs ++ tl) (id, false) = emitted lbs (id, false) -> command_answer tt pfxs n lbs id r st -> command_answer tt pfxs n (lbs ++ tl) id r st.
Proof.
  intros E H. destruct H as [body l A B|ls l A B|ls l st A B C].
  - eapply ca_error; [rewrite E; exact A|exact B].
  - eapply ca_ok; [exact A|eapply resp_mono; [exact E|exact B]].
  - eapply ca_callback; [exact A|eapply resp_mono; [exact E|exact B]|apply said_mono; exact C].
Qed.
Lemma data_mono lbs tl id st : emitted (lbs ++ tl) (id, true) = emitted lbs (id, true) -> data_answer tt lbs id st -> data_answer tt (lbs ++ tl) id st.
Proof. intros E H. destruct H as [l A B|l A B]; [eapply da_error|eapply da_ok]; rewrite ?E; eassumption. Qed.
Lemma outcome_mono lbs tl id r st : emitted (lbs ++ tl) (id, false) = emitted lbs (id, false) -> emitted (lbs ++ tl) (id, true) = emitted lbs (id, true) ->
  outcome tt pfxs n lbs id r st -> outcome tt pfxs n (lbs ++ tl) id r st.
Proof.
  intros E1 E2 H. destruct H.
  - apply oc_table; congruence.
  - apply oc_no_command; congruence.
  - apply oc_not_sendable; try assumption; congruence.
  - apply oc_silent; try assumption; congruence.
  - apply oc_command; try assumption; [apply cmd_mono; assumption|congruence].
  - eapply oc_no_data; try eassumption; [apply cmd_mono; assumption|congruence].
  - eapply oc_data_short; try eassumption; [apply cmd_mono; assumption|congruence].
  - eapply oc_data_silent; try eassumption; [apply cmd_mono; assumption|congruence].
  - eapply oc_data; try eassumption; [apply cmd_mono; assumption|apply data_mono; assumption].
Qed.
Lemma cpr_mono lbs tl c st : emitted (lbs ++ tl) (c_id c, false) = emitted lbs (c_id c, false) -> command_phase_result lbs c st -> command_phase_result (lbs ++ tl) c st.
Proof.
  unfold command_phase_result, no_answer. intros E H. rewrite E. destruct H as [H|[H|[H|[H1 H2]]]]; auto 10. right. right. right. split; [exact H1|apply cmd_mono; assumption].
Qed.
Lemma dp_mono lbs tl c : emitted (lbs ++ tl) (c_id c, false) = emitted lbs (c_id c, false) -> data_phase lbs c -> data_phase (lbs ++ tl) c.
Proof. intros E (A & B & C). split; [exact A|]. split; [apply cmd_mono; assumption|exact C]. Qed.

(** Steps that send nothing tagged keep all [emitted]. *)
Definition mute (lb : label) : Prop := forall g, emitted [lb] g = [].
Lemma mute_app lbs lb g : mute lb -> emitted (lbs ++ [lb]) g = emitted lbs g.
Proof. intro M. rewrite emitted_app, (M g). apply app_nil_r. Qed.
Lemma pcfact_mute lbs lb s p : mute lb -> pcfact lbs s p -> pcfact (lbs ++ [lb]) s p.
Proof.
  intros M H. pose proof (mute_app lbs lb) as E. destruct p; cbn in *; auto.
  - destruct H as (A & B & C). split; [exact A|]. split; [|exact C]. apply cpr_mono; auto.
  - destruct H as (A & B & C). split; [exact A|]. split; [|exact C]. apply cpr_mono; auto.
  - destruct H as (A & B & C). split; [exact A|]. split; [|exact C]. apply cmd_mono; auto.
  - destruct H as (A & B). split; [|exact B]. apply dp_mono; auto.
  - apply dp_mono; auto.
  - apply outcome_mono; auto.
  - apply outcome_mono; auto.
Qed.
Lemma ans_mute lbs lb p st : mute lb -> ans lbs p st -> ans (lbs ++ [lb]) p st.
Proof. intros M H. pose proof (mute_app lbs lb) as E. destruct p; cbn in *; auto; [apply cmd_mono; auto|apply data_mono; auto]. Qed.
Lemma completed_mute lbs lb tr ok ls l : mute lb -> completed lbs tr ok ls l -> completed (lbs ++ [lb]) tr ok ls l.
Proof. intros M (b & A & B). exists b. rewrite mute_app by exact M. auto. Qed.
Lemma lines_fit_mute lbs lb p tr : mute lb -> lines_fit lbs p tr -> lines_fit (lbs ++ [lb]) p tr.
Proof. intros M H a l b. rewrite mute_app by exact M. apply H. Qed.
Lemma pcfact_frame lbs s s' p : puse s' = puse s -> pbuf s' = pbuf s -> typ s' = typ s -> pcfact lbs s p -> pcfact lbs s' p.
Proof. intros A B C H. destruct p; cbn in *; unfold prefix_now in *; rewrite ?A, ?B, ?C; exact H. Qed.
Lemma pcfact_quiet lbs s lbs' s' p : holding p = false -> pcfact lbs s p -> pcfact lbs' s' p.
Proof. destruct p; try discriminate; auto. Qed.

(** Returned and delivered entries are stable under a mute step. *)
Lemma log_mute lbs lb s s' : Full lbs s -> mute lb -> log s' = log s -> (calls lbs = calls (lbs ++ [lb]) \/ exists x, calls (lbs ++ [lb]) = calls lbs ++ x) ->
  (forall c st o, In (Returned c st o) (log s') -> outcome tt pfxs n (lbs ++ [lb]) (c_id c) (c_req c) st) /\
  (forall id ls l, In (Delivered id ls l) (log s') -> exists r, nth_error (calls (lbs ++ [lb])) id = Some r /\ rq_cb r = true /\ complete_response tt (lbs ++ [lb]) id r ls l) /\
  NoDup (delivered_ids (log s')).
Proof.
  intros F M LG CL. rewrite LG. split; [|split; [|apply (f_dnd _ _ F)]].
  - intros c st o I0. apply outcome_mono; try (apply mute_app; exact M). eapply (f_ret _ _ F). exact I0.
  - intros id ls l I0. destruct (f_del _ _ F id ls l I0) as (r & A & B & C). exists r. split; [destruct CL as [<-|(x & ->)]; [exact A|apply nth_app_old; exact A]|]. split; [exact B|]. eapply resp_mono; [apply mute_app; exact M|exact C].
Qed.
Lemma calls_more lbs lb : calls lbs = calls (lbs ++ [lb]) \/ exists x, calls (lbs ++ [lb]) = calls lbs ++ x.
Proof. right. rewrite calls_app. eauto. Qed.

(** ** Thread steps *)
(** The holder moves to a position without a transmission in flight. *)
Lemma full_move lbs lb s s' i p p' : Inv s -> Full lbs s -> nth_error (ths s) i = Some p -> holding p = true -> mute lb -> ths s' = set_nth (ths s) i p' -> log s' = log s ->
  pcfact (lbs ++ [lb]) s' p' -> (forall tr, cur_of p' = Some tr -> Now (lbs ++ [lb]) s' p' tr) -> Full (lbs ++ [lb]) s'.
Proof.
  intros V F EP HP M TS LG PC NW. destruct (log_mute lbs lb s s' F M LG (calls_more _ _)) as (L1 & L2 & L3).
  assert (OTHER : forall j q, i <> j -> nth_error (ths s) j = Some q -> holding q = false).
  { intros j q NE EJ. destruct (holding q) eqn:HQ; [|reflexivity]. pose proof (inv_excl s V i p EP HP). pose proof (inv_excl s V j q EJ HQ). congruence. }
  split; auto.
  - intros j q tr EJ CU. rewrite TS in EJ. apply nth_set_cases in EJ. destruct EJ as [[<- ->]|[NE EJ]]; [apply NW; exact CU|]. pose proof (OTHER j q NE EJ). destruct q; discriminate.
  - intros j q EJ. rewrite TS in EJ. apply nth_set_cases in EJ. destruct EJ as [[<- ->]|[NE EJ]]; [exact PC|]. eapply pcfact_quiet; [eapply OTHER; eassumption|]. eapply (f_pc _ _ F); exact EJ.
Qed.


Lemma untagged_filter s : untagged s -> filter tagged (flight s) = [].
Proof.
  unfold untagged. generalize (flight s). intro l. induction l as [|x l IH]; intro H; [reflexivity|]. cbn. unfold tagged at 1. rewrite (H x (or_introl eq_refl)). apply IH. intros y I0. apply H. right. exact I0.
Qed.
Lemma quiet_untagged s : quiet tt pfxs s -> untagged s.
Proof. intros (_ & _ & _ & L & _) l I0. specialize (L l I0). unfold line_ok in L. destruct (l_from l); [destruct L as (tr & ? & _); discriminate|reflexivity]. Qed.

(** Beginning of a transmission: from a quiet state with type and prefix set. *)
Lemma now_start lbs lb s s' p tr : quiet tt pfxs s -> mute lb -> virgin lbs s (tr_tag tr) -> typ s = tr_type tr -> prefix_now s = exp_of p ->
  queue s' = queue s -> rd s' = rd s -> resp s' = resp s -> wire s' = wire s -> typ s' = typ s -> puse s' = puse s -> pbuf s' = pbuf s -> log s' = log s -> Now (lbs ++ [lb]) s' p tr.
Proof.
  intros Q M (VE & VD) T P A1 A2 A3 A4 A5 A6 A7 A8. pose proof (quiet_untagged s Q) as U. destruct Q as (_ & Q1 & Q2 & _ & _ & D). split.
  - intros a l b E. rewrite mute_app, VE in E by exact M. destruct a; discriminate.
  - assert (O : open (lbs ++ [lb]) s' p tr /\ fresh_cb s' tr).
    { split; [|intros X ls l I0; rewrite A8 in I0; exact (VD X ls l I0)]. split.
      - rewrite mute_app, VE by exact M. unfold held_lines. rewrite A3, Q2. replace (flight s') with (flight s) by (unfold flight; rewrite A2, A4; reflexivity). apply untagged_filter. exact U.
      - split; [congruence|]. split; [unfold prefix_now in *; rewrite A6, A7; exact P|]. rewrite A2, A6.
        pose proof (in_flight_rd s) as IR. destruct (rd s) as [| |l u|l mt| | | | | | | |] eqn:RD; auto; intro NT; elim NT; apply U; apply IR; reflexivity. }
    unfold stage. rewrite A1, Q1, A2. destruct (rd s) as [| |l u|l mt| | | | | | | |] eqn:RD; try contradiction; exact O.
Qed.

Lemma silent_open lbs s p tr g : Core tt pfxs (Some tr) s -> tr_tag tr = g -> Now lbs s p tr -> no_residue s g -> emitted lbs g = [].
Proof.
  intros C G NW NR. pose proof NR as (N1 & N2 & N3 & N4 & N5). pose proof (n_stage _ _ _ _ NW) as ST. unfold stage in ST. rewrite N5 in ST.
  assert (QU : quiet tt pfxs s) by (eapply residue_quiet; [exact C|intros tr' [= <-]; exact G|exact NR]). pose proof (quiet_untagged s QU) as U. destruct QU as (_ & _ & _ & _ & _ & D).
  assert (O : open lbs s p tr) by (destruct (rd s) as [| | |? []| | | | | | | |]; try contradiction; apply ST). destruct O as (O & _). rewrite <- G, <- O. unfold held_lines. rewrite N4. cbn. apply untagged_filter. exact U.
Qed.

Lemma thread_full lbs s i s' : Inv s -> Tidy tt pfxs s -> Ids lbs s -> Em lbs s -> Full lbs s -> thread_step i s = Some s' -> Full (lbs ++ [LThread i]) s'.
Proof.
  intros V T ID EM F E. unfold thread_step in E. destruct (nth_error (ths s) i) as [p|] eqn:EP; [|discriminate].
  assert (M : mute (LThread i)) by (intro g; reflexivity). pose proof (fun g => mute_app lbs (LThread i) g M) as ME.
  pose proof (f_pc _ _ F i p EP) as PC. pose proof (pcfact_mute lbs (LThread i) s p M PC) as PC'.
  assert (QU : holding p = true -> cur_of p = None -> quiet tt pfxs s) by (intros; eapply quiet_at; eauto).
  assert (VG : forall g, before g p -> virgin lbs s g) by (intros g B; eapply (e_before _ _ EM); eassumption).
  destruct p as [|c|c|c|c|c|c|c st o|c st o|c|c|c|c st o|c st o]; try discriminate; cbn [holding cur_of] in QU; cbn [pcfact] in PC, PC'.
  - (* Called *)
    destruct (mtx s) eqn:MX; [discriminate|]. injection E as <-. destruct (log_mute lbs (LThread i) s (goto i (Hook c) (set_mtx (Some i) s)) F M eq_refl (calls_more _ _)) as (L1 & L2 & L3).
    assert (OTHER : forall j q, nth_error (ths s) j = Some q -> holding q = false) by (intros j q EJ; destruct (holding q) eqn:HQ; [|reflexivity]; pose proof (inv_excl s V j q EJ HQ); congruence).
    split; auto.
    + intros j q tr EJ CU. cbn in EJ. apply nth_set_cases in EJ. destruct EJ as [[<- ->]|[NE EJ]]; [discriminate|]. pose proof (OTHER j q EJ). destruct q; discriminate.
    + intros j q EJ. cbn in EJ. apply nth_set_cases in EJ. destruct EJ as [[<- ->]|[NE EJ]]; [exact PC'|]. eapply pcfact_quiet; [eapply OTHER; exact EJ|]. eapply (f_pc _ _ F); exact EJ.
  - (* Hook *)
    injection E as <-. eapply (full_move lbs _ s _ i _ (Setup c) V F EP eq_refl M); [destruct (rq_kind (c_req c)); reflexivity|destruct (rq_kind (c_req c)); reflexivity|exact PC'|discriminate].
  - (* Setup *)
    assert (NA : no_answer (lbs ++ [LThread i]) c) by (unfold no_answer; rewrite ME; apply (VG (c_id c, false)); exists c; cbn; repeat split; lia).
    destruct (rq_cmd (c_req c)) eqn:RC; injection E as <-.
    + eapply (full_move lbs _ s _ i _ _ V F EP eq_refl M); [reflexivity|reflexivity| |discriminate]. cbn. split; [exact PC|congruence].
    + eapply (full_move lbs _ s _ i _ _ V F EP eq_refl M); [reflexivity|reflexivity| |discriminate]. cbn. split; [exact PC|]. split; [|discriminate]. left. auto.
  - (* SendA *)
    assert (NA : no_answer (lbs ++ [LThread i]) c) by (unfold no_answer; rewrite ME; apply (VG (c_id c, false)); exists c; cbn; repeat split; lia).
    destruct PC as (AC & NC). destruct (rq_cmd (c_req c)) as [cmd|] eqn:RC; [|discriminate]. destruct (send_check _ _ _) as [st|e] eqn:SC; injection E as <-.
    + destruct (send_check_cannot _ _ _ _ (c_req c) RC eq_refl eq_refl SC) as (CS & ->).
      eapply (full_move lbs _ s _ i _ _ V F EP eq_refl M); [reflexivity|reflexivity| |discriminate]. cbn. split; [exact AC|]. split; [|discriminate]. right. left. split; [reflexivity|]. split; [congruence|auto].
    + destruct (send_check_can _ _ _ _ (c_req c) RC eq_refl eq_refl SC) as (CS & ->).
      eapply (full_move lbs _ s _ i _ (SendB c) V F EP eq_refl M); [destruct (expects (c_req c)); reflexivity|destruct (expects (c_req c)); reflexivity| |discriminate].
      cbn. split; [exact AC|]. split; [exact CS|]. unfold prefix_now. destruct (expects (c_req c)) eqn:X; cbn; auto.
  - (* SendB *)
    specialize (QU eq_refl eq_refl). injection E as <-. destruct PC as (AC & CS & TY & PF).
    eapply (full_move lbs _ s _ i _ (Wait c) V F EP eq_refl M); [reflexivity|reflexivity|cbn; auto|]. intros tr [= <-].
    eapply (now_start lbs _ s); try reflexivity; auto. apply VG. exists c. cbn. repeat split; lia.
  - (* Wait *)
    destruct (queue s) as [q|] eqn:Q; [|discriminate]. injection E as <-. destruct PC as (AC & CS). pose proof (f_now _ _ F i _ (cmd_tr c) EP eq_refl) as NW.
    pose proof (n_stage _ _ _ _ NW) as ST. unfold stage in ST. rewrite Q in ST. destruct ST as (AN & PU).
    eapply (full_move lbs _ s _ i _ _ V F EP eq_refl M); [reflexivity|reflexivity| |discriminate]. cbn. split; [exact AC|]. split; [|intros _; exact PU]. right. right. right. split; [exact CS|]. exact (ans_mute lbs _ (Wait c) _ M AN).
  - (* Reset *)
    injection E as <-. eapply (full_move lbs _ s _ i _ _ V F EP eq_refl M); [reflexivity|reflexivity| |discriminate]. exact PC'.
  - (* Unhook *)
    injection E as <-. destruct PC' as (AC & CR & PU).
    assert (NA : emitted (lbs ++ [LThread i]) (c_id c, true) = []) by (rewrite ME; apply (VG (c_id c, true)); exists c; cbn; repeat split; lia).
    assert (NC : cur_of (after_command c st o) = None) by (unfold after_command; destruct (data_of _), st; reflexivity).
    eapply (full_move lbs _ s _ i _ (after_command c st o) V F EP eq_refl M); [destruct (rq_kind (c_req c)); reflexivity|destruct (rq_kind (c_req c)); reflexivity| |rewrite NC; discriminate].
    assert (REL : data_of (rq_kind (c_req c)) = None \/ st <> PKT_OK -> outcome tt pfxs n (lbs ++ [LThread i]) (c_id c) (c_req c) st).
    { intro X. destruct CR as [(-> & A & B)|[(-> & A & B & D)|[(-> & A & B)|(A & B)]]]; [apply oc_no_command|apply oc_not_sendable|apply oc_silent|apply oc_command]; auto. }
    unfold after_command. destruct (data_of (rq_kind (c_req c))) as [d|] eqn:DO; [|apply REL; auto].
    assert (XX : st <> PKT_OK \/ st = PKT_OK) by (destruct st; first [right; reflexivity|left; discriminate]). destruct XX as [NO| ->]; [specialize (REL (or_intror NO)); destruct st; try exact REL; congruence|].
    cbn [pcfact]. split; [|split; [|destruct (rq_kind (c_req c)); apply PU; reflexivity]].
    + destruct CR as [(Q & _)|[(Q & _)|[(Q & _)|(A & B)]]]; try discriminate. exact A.
    + destruct CR as [(Q & _)|[(Q & _)|[(Q & _)|(A & B)]]]; try discriminate. exact B.
  - (* Data1 *)
    destruct PC' as (CS & CA & PU). destruct (data_of _) as [d|] eqn:DO; [|discriminate].
    assert (NA : emitted (lbs ++ [LThread i]) (c_id c, true) = []) by (rewrite ME; apply (VG (c_id c, true)); exists c; cbn; repeat split; lia).
    destruct (d_data d) eqn:DD; injection E as <-.
    + eapply (full_move lbs _ s _ i _ _ V F EP eq_refl M); [reflexivity|reflexivity| |discriminate]. cbn. split; [|auto]. split; [exact CS|]. split; [exact CA|]. exists d. split; [exact DO|congruence].
    + eapply (full_move lbs _ s _ i _ _ V F EP eq_refl M); [reflexivity|reflexivity| |discriminate]. cbn. eapply oc_no_data; eassumption.
  - (* Data2 *)
    specialize (QU eq_refl eq_refl). injection E as <-. destruct PC' as (DP & PU & TY).
    eapply (full_move lbs _ s _ i _ (DataWait c) V F EP eq_refl M); [reflexivity|reflexivity|exact DP|]. intros tr [= <-].
    eapply (now_start lbs _ s); try reflexivity; auto; [apply VG; exists c; cbn; repeat split; lia|]. unfold prefix_now. rewrite PU. reflexivity.
  - (* DataWait *)
    destruct (queue s) as [q|] eqn:Q; [|discriminate]. injection E as <-. pose proof (f_now _ _ F i _ (data_tr c) EP eq_refl) as NW.
    pose proof (n_stage _ _ _ _ NW) as ST. unfold stage in ST. rewrite Q in ST. destruct ST as (AN & PU). destruct PC' as (CS & CA & d & DO & DD).
    eapply (full_move lbs _ s _ i _ _ V F EP eq_refl M); [reflexivity|reflexivity| |discriminate]. cbn. eapply oc_data; try eassumption. exact (ans_mute lbs _ (DataWait c) _ M AN).
  - (* DataReset *)
    injection E as <-. eapply (full_move lbs _ s _ i _ _ V F EP eq_refl M); [reflexivity|reflexivity| |discriminate]. exact PC'.
  - (* Release *)
    injection E as <-. assert (OTHER : forall j q, i <> j -> nth_error (ths s) j = Some q -> holding q = false).
    { intros j q NE EJ. destruct (holding q) eqn:HQ; [|reflexivity]. pose proof (inv_excl s V i _ EP eq_refl). pose proof (inv_excl s V j q EJ HQ). congruence. }
    destruct (log_mute lbs (LThread i) s s F M eq_refl (calls_more _ _)) as (L1 & L2 & L3). split.
    + intros j q tr EJ CU. cbn in EJ. apply nth_set_cases in EJ. destruct EJ as [[<- ->]|[NE EJ]]; [discriminate|]. pose proof (OTHER j q NE EJ). destruct q; discriminate.
    + intros j q EJ. cbn in EJ. apply nth_set_cases in EJ. destruct EJ as [[<- ->]|[NE EJ]]; [exact I|]. eapply pcfact_quiet; [eapply OTHER; eassumption|]. eapply (f_pc _ _ F); exact EJ.
    + cbn. intros d st' o' [[= <- <- <-]|I0]; [exact PC'|eapply L1; exact I0].
    + cbn. intros id ls l [Q|I0]; [discriminate|apply L2; exact I0].
    + cbn. exact L3.
Qed.

(** ** Reader steps *)
Lemma quiet_reader s s' : quiet tt pfxs s -> reader_step tt s = Some s' -> typ s' = typ s /\ puse s' = puse s /\ pbuf s' = pbuf s.
Proof.
  intros (_ & _ & _ & _ & _ & D) E. unfold reader_step in E. destruct (rd s) as [|l|l u|l mt| | | | | | | |]; try contradiction.
  - destruct (wire s); [discriminate|]. injection E as <-. auto.
  - injection E as <-. auto.
  - injection E as <-. auto.
  - destruct mt; try contradiction. injection E as <-. auto.
Qed.
Lemma held_set ls s r : held_lines (set_rd r (set_resp (Some ls) s)) = ls.
Proof. reflexivity. Qed.
Lemma pass_filter l : l_from l <> None -> tagged l = true.
Proof. unfold tagged. destruct (l_from l); [reflexivity|congruence]. Qed.

Lemma prefix_usable_exp p c : call_of p = Some c -> proper pfxs c -> prefix_usable (exp_of p).
Proof.
  intros CO (PR & _) q EQ. destruct p; cbn in EQ; try discriminate. cbn in CO. injection CO as ->. unfold expects in EQ. apply prefixes, PR. destruct (rq_type (c_req c)); try discriminate; exact EQ.
Qed.

(** The lines before the last of an answer to a command without intermediate lines: there are none. *)
Lemma alone lbs p tr body l : lines_fit lbs p tr -> (forall a x b, emitted lbs (tr_tag tr) = a ++ x :: b -> l_last x = true -> b = []) -> tr_type tr = T_NO_RESULT ->
  emitted lbs (tr_tag tr) = body ++ [l] -> body = [].
Proof.
  intros LF LA TY E. destruct body as [|x body]; [reflexivity|exfalso]. cbn in E. destruct (l_last x) eqn:LX.
  - specialize (LA [] x (body ++ [l]) E LX). destruct body; discriminate.
  - destruct (LF [] x _ E) as (_ & Q & _). rewrite TY in Q. destruct (Q LX) as [[Z|[Z|Z]]|[[Z|Z] _]]; discriminate.
Qed.

Lemma now_reader lbs s s' i p tr : Inv s -> Tidy tt pfxs s -> Em lbs s -> Full lbs s -> reader_step tt s = Some s' ->
  nth_error (ths s) i = Some p -> cur_of p = Some tr -> Now (lbs ++ [LReader]) s' p tr.
Proof.
  intros V T EM F E EP CO. pose proof (f_now _ _ F i p tr EP CO) as NW. destruct NW as [NL NS].
  assert (M : mute LReader) by (intro g; reflexivity). pose proof (fun g => mute_app lbs LReader g M) as ME.
  split; [apply lines_fit_mute; assumption|].
  assert (HP : holding p = true) by (destruct p; try discriminate; reflexivity).
  pose proof (cur_at s i p V EP HP) as CU. rewrite CO in CU.
  pose proof (t_core _ _ s T) as C. rewrite CU in C. pose proof (c_rd _ _ _ s C) as D. unfold rd_ok in D.
  destruct (cur_facts tt pfxs s tr V CU (t_ths _ _ s T)) as (X1 & X2 & _ & X4).
  destruct (inv_held_at s i p V EP HP) as (_ & LOC).
  pose proof (f_pc _ _ F i p EP) as PC.
  assert (LA : forall a x b, emitted lbs (tr_tag tr) = a ++ x :: b -> l_last x = true -> b = []) by (intros a x b; apply (e_last _ _ EM)).
  unfold stage in NS |- *. unfold reader_step in E.
  destruct (queue s) as [q|] eqn:Q.
  { (* already answered *)
    destruct NS as (AN & PU). assert (QQ : queue s' = Some q /\ puse s' = false).
    { unfold reader_process in E. destruct (rd s) as [|l|l u|l mt|l t|l|ok ls l|ok ls l|ls l|id ls l|st l ok c|] eqn:RD; try discriminate.
      all: repeat match goal with H : match ?x with _ => _ end = Some _ |- _ => destruct x eqn:?; try discriminate end.
      all: injection E as <-; cbn; auto. }
    destruct QQ as (-> & QP). split; [apply ans_mute; assumption|exact QP]. }
  destruct (rd s) as [|l|l u|l mt|l t|l|ok ls l|ok ls l|ls l|id ls l|st l ok c0|] eqn:RD; try discriminate.
  - (* RIdle *)
    destruct (wire s) as [|l w] eqn:W; [discriminate|]. injection E as <-. cbn [queue rd set_rd set_wire]. rewrite Q. destruct NS as ((O1 & O2 & O3 & _) & FC). split; [|exact FC]. split; [|cbn; auto].
    rewrite ME, <- O1. unfold flight, held_lines. cbn. rewrite RD, W. reflexivity.
  - (* RGot *)
    injection E as <-. cbn [queue rd set_rd]. rewrite Q. destruct NS as ((O1 & O2 & O3 & _) & FC). split; [|exact FC]. split; [|cbn; auto].
    rewrite ME, <- O1. unfold flight, held_lines. cbn. rewrite RD. reflexivity.
  - (* RPtr *)
    injection E as <-. cbn [queue rd set_rd]. rewrite Q. destruct NS as ((O1 & O2 & O3 & O4) & FC). rewrite RD in O4. split; [|exact FC]. split; [|split; [exact O2|split; [exact O3|]]].
    + rewrite ME, <- O1. unfold flight, held_lines. cbn. rewrite RD. reflexivity.
    + cbn [rd set_rd]. intro TG. rewrite (O4 TG). fold (prefix_now s). rewrite O3, O2.
      unfold flight in O1. rewrite RD in O1. cbn in O1. rewrite (pass_filter l TG) in O1. symmetry in O1. destruct (NL _ _ _ O1) as (LC & _).
      assert (exists c, call_of p = Some c) as (c & CP) by (destruct p; try discriminate; eexists; reflexivity).
      apply classification; [eapply prefix_usable_exp; [exact CP|]; apply (t_ths _ _ s T i p EP); exact CP|exact LC].
  - (* RMsg *)
    destruct NS as ((O1 & O2 & O3 & O4) & FC). rewrite RD in O4. destruct D as (D1 & _). destruct (l_from l) as [g|] eqn:LF.
    + rewrite O4 in E by discriminate. injection E as <-. cbn [queue rd set_rd]. rewrite Q. split; [|exact FC]. split; [|cbn; auto].
      rewrite ME, <- O1. unfold flight, held_lines. cbn. rewrite RD. reflexivity.
    + rewrite D1 in E by reflexivity. injection E as <-. cbn [queue rd set_rd]. rewrite Q. split; [|exact FC]. split; [|cbn; auto].
      rewrite ME, <- O1. unfold flight, held_lines. cbn. rewrite RD. cbn. unfold tagged at 2. rewrite LF. reflexivity.
  - (* RTyp *)
    destruct D as (tr' & [= <-] & FR & ->). destruct NS as ((O1 & O2 & O3 & _) & FC). unfold from in FR.
    assert (TG : tagged l = true) by (unfold tagged; rewrite FR; reflexivity).
    unfold flight in O1. rewrite RD in O1. cbn in O1. rewrite TG in O1. pose proof O1 as O1'. symmetry in O1'. destruct (NL _ _ _ O1') as (LC & NLAST & LAST).
    unfold reader_process in E. rewrite X1 in E. fold (held_lines s) in E. set (ls := held_lines s) in *.
    assert (NE : (length (map (fun _ => {| it_ptr := 0; it_raw := None |}) ls ++ [{| it_ptr := 0; it_raw := None |}]) =? length ls)%nat = false).
    { apply Nat.eqb_neq. rewrite app_length, map_length. cbn. lia. }
    assert (EQ : (length (map (fun _ : line => {| it_ptr := 0; it_raw := None |}) ls) =? length ls)%nat = true) by (apply Nat.eqb_eq, map_length).
    assert (FIN : l_last l = true -> emitted lbs (tr_tag tr) = ls ++ [l]) by (intro L; rewrite (LA _ _ _ O1' L) in O1'; exact O1').
    destruct (process_line_spec (tokens_now tt (tr_extra tr)) 0 (l_text l) (dummy_response ls) (tr_type tr) (tables_with tt tables _ X2)) as [[P1 P2]|[[P1 P2]|[P1 P2]]]; rewrite P2 in E; cbn [dummy_response r_items r_status] in E.
    + rewrite EQ in E. injection E as <-. cbn [queue rd set_rd set_resp]. rewrite Q. split; [|exact FC]. exists ls. rewrite ME. split; [apply FIN, LAST; left; exact P1|]. left. auto.
    + rewrite EQ in E. injection E as <-. cbn [queue rd set_rd set_resp]. rewrite Q. split; [|exact FC]. exists ls. rewrite ME. split; [apply FIN, LAST; right; left; exact P1|]. right. left. auto.
    + assert (KEEP : open (lbs ++ [LReader]) (set_rd RIdle (set_resp (Some (ls ++ [l])) s)) p tr /\ fresh_cb (set_rd RIdle (set_resp (Some (ls ++ [l])) s)) tr).
      { split; [|exact FC]. split; [|cbn; auto]. rewrite ME, <- O1, held_set, <- app_assoc. reflexivity. }
      assert (NC : ~ no_code_type (tr_type tr) -> l_last l = false).
      { intro NN. destruct (l_last l) eqn:L; [|reflexivity]. exfalso. destruct P1 as (P1a & P1b). destruct (proj1 LAST eq_refl) as [Y|[Y|Y]]; [exact (P1a Y)|apply P1b; apply Y|exact (NN Y)]. }
      assert (NOC : tr_type tr <> T_NO_COMMAND) by (apply LC).
      unfold processIntermediateResponse, saveATData, saveData, dummy_response in E. cbn [r_items r_status] in E.
      destruct (tr_type tr) eqn:TY; cbn [r_items r_status] in E; rewrite ?NE, ?EQ in E.
      all: try (elim NOC; reflexivity).
      all: try (exfalso; destruct (NLAST (NC ltac:(intros [Z|Z]; discriminate))) as [[Z|[Z|Z]]|[[Z|Z] _]]; discriminate).
      all: try (injection E as <-; cbn [queue rd set_rd set_resp]; rewrite Q; exact KEEP).
      all: try (assert (LE : ls = []) by (destruct (NLAST (NC ltac:(intros [Z|Z]; discriminate))) as [[Z|[Z|Z]]|[_ Z]]; [discriminate..|exact Z]);
                rewrite LE in E, KEEP; cbn in E; injection E as <-; cbn [queue rd set_rd set_resp]; rewrite Q; exact KEEP).
      all: injection E as <-; cbn [queue rd set_rd set_resp]; rewrite Q; split; [|exact FC]; exists ls; rewrite ME; split; [apply FIN, LAST; right; right; unfold no_code_type; auto|];
           right; right; split; [exact P1|]; split; [rewrite TY; unfold no_code_type; auto|]; auto.
  - (* RDone *)
    injection E as <-. cbn [queue rd set_rd set_typ set_puse puse]. rewrite Q. destruct NS as (CM & FC). split; [apply completed_mute; assumption|]. split; [exact FC|reflexivity].
  - (* RHandle *)
    destruct NS as (CM & FC & PU). destruct D as (tr' & [= <-] & _). pose proof CM as (body & EB & CASES). destruct ok.
    + destruct (cb s) as [id|] eqn:CB; injection E as <-; cbn [queue rd set_rd]; rewrite Q.
      * split; [apply completed_mute; assumption|]. split; [exact FC|exact PU].
      * split; [|exact PU]. apply ans_mute; [exact M|]. destruct p; try discriminate; injection CO as <-.
        -- destruct LOC as (_ & CB' & _). assert (rq_cb (c_req c) = false) by (rewrite CB in CB'; unfold cb_of in CB'; destruct (rq_cb (c_req c)); congruence).
           destruct CASES as [(Y1 & _ & Y2)|[(_ & Y)|(Y1 & Y2 & _ & Y3)]]; [|discriminate|].
           ++ eapply ca_ok with (ls := body); [assumption|]. exists body. split; [exact EB|]. left. auto.
           ++ eapply ca_ok with (ls := body ++ [l]); [assumption|]. exists body. split; [exact EB|]. right. auto.
        -- assert (body = []) by (eapply alone; [exact NL|exact LA|reflexivity|exact EB]). subst body.
           destruct CASES as [(Y1 & _ & Y2)|[(_ & Y)|(Y1 & [Y2|Y2] & _)]]; try discriminate. eapply da_ok; [exact EB|exact Y1].
    + injection E as <-; cbn [queue rd set_rd]; rewrite Q. split; [|exact PU]. apply ans_mute; [exact M|].
      destruct CASES as [(_ & Y & _)|[(Y1 & _)|(_ & _ & Y & _)]]; try discriminate.
      destruct p; try discriminate; injection CO as <-.
      * eapply ca_error; [exact EB|exact Y1].
      * assert (body = []) by (eapply alone; [exact NL|exact LA|reflexivity|exact EB]). subst body. eapply da_error; [exact EB|exact Y1].
  - (* RCall *)
    destruct NS as (CM & FC & PU). destruct (cb s) as [id|] eqn:CB; injection E as <-; [|destruct D as (tr' & _ & _ & D); congruence].
    cbn [queue rd set_rd record set_log puse]. rewrite Q. split; [apply completed_mute; assumption|exact PU].
  - (* RPost *)
    injection E as <-. destruct NS as (AN & PU). cbn [queue set_queue set_rd set_resp puse q_st]. split; [apply ans_mute; assumption|exact PU].
Qed.

Lemma reader_full lbs s s' : Inv s -> Tidy tt pfxs s -> Ids lbs s -> Em lbs s -> Full lbs s -> reader_step tt s = Some s' -> Full (lbs ++ [LReader]) s'.
Proof.
  intros V T ID EM F E. assert (M : mute LReader) by (intro g; reflexivity). destruct (reader_frame tt s s' E) as (TS & MX & _).
  destruct (log_mute lbs LReader s s F M eq_refl (calls_more _ _)) as (L1 & L2 & L3).
  assert (LOG : (forall c st o, In (Returned c st o) (log s') -> outcome tt pfxs n (lbs ++ [LReader]) (c_id c) (c_req c) st) /\
    (forall id ls l, In (Delivered id ls l) (log s') -> exists r, nth_error (calls (lbs ++ [LReader])) id = Some r /\ rq_cb r = true /\ complete_response tt (lbs ++ [LReader]) id r ls l) /\
    NoDup (delivered_ids (log s'))).
  { pose proof (exec_shape tt LReader s s' E) as SH.
    destruct SH as [j r LB EJ _ _ LG NX|j r LB _ _ _ _|j q q' c _ EJ CO CO' _ LG _ RK|j c st o _ EJ TS' LG _|_ _ _ [LG|(id & ls & l & RD & CB & LG)]]; try discriminate; try (rewrite LG; auto; fail).
    - rewrite LG. split; [|split; [|exact L3]].
      + intros d st' o' [[= <- <- <-]|I0]; [|eapply L1; exact I0]. exfalso. pose proof (f_equal (fun x => nth_error x j) TS) as Z. cbn in Z. rewrite TS', (nth_set_eq _ _ _ _ EJ), EJ in Z. discriminate.
      + intros id ls l [Q|I0]; [discriminate|apply L2; exact I0].
    - pose proof (c_rd _ _ _ s (t_core _ _ s T)) as D. unfold rd_ok in D. rewrite RD in D. destruct D as (tr & CU & DN & _). pose proof (cur_facts tt pfxs s tr V CU (t_ths _ _ s T)) as (_ & _ & _ & X4). specialize (X4 id CB).
      destruct (cur_current s tr CU) as (i & p & tr' & EP & CO & _ & CU'). assert (tr' = tr) by congruence. subst tr'. clear CU'.
      pose proof (f_now _ _ F i p tr EP CO) as [_ NS]. unfold stage in NS.
      assert (NQ : queue s = None). { eapply no_queue; [exact (t_core _ _ s T)|rewrite RD; reflexivity|]. destruct DN as (A1 & _). unfold from in A1. congruence. }
      rewrite NQ, RD in NS. destruct NS as (CM & FC & _). unfold fresh_cb in FC. rewrite X4 in FC. specialize (FC eq_refl). cbn in FC.
      rewrite LG. split; [|split].
      + intros d st' o' [Q|I0]; [discriminate|eapply L1; exact I0].
      + intros id' ls' l' [[= <- <- <-]|I0]; [|apply L2; exact I0].
        destruct p; try discriminate; injection CO as <-; [|discriminate]. cbn in X4. injection X4 as <-. exists (c_req c). rewrite calls_app. cbn [calls flat_map]. rewrite app_nil_r. split; [eapply (i_thr _ _ ID); [exact EP|reflexivity]|].
        split. { destruct (inv_held_at s i _ V EP eq_refl) as (_ & _ & CB' & _). rewrite CB in CB'. unfold cb_of in CB'. destruct (rq_cb (c_req c)); [reflexivity|discriminate]. }
        apply (completed_mute lbs LReader) in CM; [|exact M]. destruct CM as (body & EB & CASES). exists body. split; [exact EB|].
        destruct CASES as [(Y1 & _ & Y2)|[(_ & Y)|(Y1 & Y2 & _ & Y3)]]; [left; auto|discriminate|right; auto].
      + cbn. constructor; [|exact L3]. intro I0. unfold delivered_ids in I0. apply in_flat_map in I0. destruct I0 as (e & I1 & I2). destruct e as [|id' ls' l']; [destruct I2|]. destruct I2 as [->|[]]. exact (FC ls' l' I1). }
  destruct LOG as (G1 & G2 & G3). split; auto.
  - intros i p tr EP CO. rewrite TS in EP. eapply now_reader; eassumption.
  - intros i p EP. rewrite TS in EP. pose proof (f_pc _ _ F i p EP) as PC. apply pcfact_mute; [exact M|].
    destruct (holding p) eqn:HP; [|eapply pcfact_quiet; [exact HP|exact PC]].
    destruct (cur_of p) as [tr|] eqn:CO; [destruct p; try discriminate; exact PC|].
    destruct (quiet_reader s s' (quiet_at tt pfxs s i p V T EP HP CO) E) as (A & B & D). eapply pcfact_frame; [exact B|exact D|exact A|exact PC].
Qed.

(** ** The other labels *)
Lemma emitted_from lbs g x : In x (emitted lbs g) -> l_from x = Some g.
Proof.
  unfold emitted. intro H. apply in_flat_map in H. destruct H as (lb & _ & J). destruct lb as [| | | | | | | |l|]; try destruct J. destruct (l_from l) as [h|] eqn:F; [|destruct J].
  destruct (tag_eqb h g) eqn:Q; [|destruct J]. destruct J as [<-|[]]. apply tag_eqb_eq in Q. congruence.
Qed.
(** Only the list of unanswered transmissions changes. *)
Lemma full_same lbs lb s s' : Full lbs s -> mute lb -> ths s' = ths s -> log s' = log s -> rd s' = rd s -> queue s' = queue s -> resp s' = resp s -> wire s' = wire s ->
  typ s' = typ s -> puse s' = puse s -> pbuf s' = pbuf s -> Full (lbs ++ [lb]) s'.
Proof.
  intros F M TS LG RD QU RS WI TY PU PB. destruct (log_mute lbs lb s s' F M LG (calls_more _ _)) as (L1 & L2 & L3). split; auto.
  - intros i p tr EP CO. rewrite TS in EP. destruct (f_now _ _ F i p tr EP CO) as [A B]. split; [apply lines_fit_mute; assumption|]. unfold stage in *. rewrite QU, RD, PU.
    assert (OP : open lbs s p tr -> open (lbs ++ [lb]) s' p tr).
    { intros (O1 & O2 & O3 & O4). unfold open, held_lines, flight, prefix_now in *. rewrite mute_app by exact M. rewrite RS, RD, WI, TY, PU, PB. auto. }
    assert (FC : fresh_cb s tr -> fresh_cb s' tr) by (unfold fresh_cb, undelivered; rewrite LG; auto).
    destruct (queue s); [destruct B; split; [apply ans_mute; assumption|assumption]|].
    destruct (rd s); try (destruct B; split; auto; fail).
    all: try (destruct B as (B1 & B2 & B3); split; [apply completed_mute; assumption|auto]).
    all: destruct B as (B1 & B2); split; [first [apply completed_mute; assumption|apply ans_mute; assumption]|auto].
  - intros i p EP. rewrite TS in EP. apply pcfact_mute; [exact M|]. eapply pcfact_frame; [exact PU|exact PB|exact TY|]. eapply (f_pc _ _ F); exact EP.
Qed.

Lemma undef_never lbs s l : Inv s -> Tidy tt pfxs s -> Full lbs s -> rd s = RUndef l -> False.
Proof.
  intros V T F RD. pose proof (t_core _ _ s T) as C. pose proof (c_rd _ _ _ s C) as D. unfold rd_ok in D. rewrite RD in D.
  assert (LO : line_ok tt pfxs (cur s) l) by (apply (c_lines _ _ _ s C); apply in_flight_rd; rewrite RD; reflexivity). unfold line_ok in LO. destruct (l_from l) as [g|] eqn:LF; [|congruence].
  destruct LO as (tr & CU & _). destruct (cur_current s tr CU) as (i & p & tr' & EP & CO & _ & CU'). assert (tr' = tr) by congruence. subst tr'.
  pose proof (f_now _ _ F i p tr EP CO) as [_ NS]. unfold stage in NS. assert (NQ : queue s = None) by (eapply no_queue; [exact C|rewrite RD; reflexivity|congruence]).
  rewrite NQ, RD in NS. destruct NS as ((_ & _ & _ & O4) & _). rewrite RD in O4. exact O4.
Qed.

Lemma filter_tagged_app l m : filter tagged (l ++ m) = filter tagged l ++ filter tagged m.
Proof. apply filter_app. Qed.
Lemma flight_emit s l p' : flight (set_wire (wire s ++ [l]) (set_pend p' s)) = flight s ++ [l].
Proof. unfold flight. cbn. rewrite app_assoc. reflexivity. Qed.

Lemma emit_full lbs s l s' : Inv s -> Tidy tt pfxs s -> Ids lbs s -> Em lbs s -> Full lbs s -> honest tt pfxs s (LEmit l) -> conforming tt s (LEmit l) ->
  exec tt (LEmit l) s = Some s' -> Full (lbs ++ [LEmit l]) s'.
Proof.
  intros V T ID EM F H CF E. cbn [exec] in E. set (p' := match l_from l with Some g => if l_last l then drop_tag g (pend s) else pend s | None => pend s end) in E. injection E as <-.
  set (s' := set_wire (wire s ++ [l]) (set_pend p' s)). pose proof (t_core _ _ s T) as C.
  assert (ES : forall g, ~ current s g -> emitted (lbs ++ [LEmit l]) g = emitted lbs g).
  { intros g NC. destruct (emitted_step lbs s (LEmit l) g T H) as [EQ|(l' & tr & _ & _ & _ & _ & <- & CU)]; [exact EQ|]. elim NC. apply cur_current. exact CU. }
  assert (CC : calls (lbs ++ [LEmit l]) = calls lbs) by (rewrite calls_app; apply app_nil_r).
  split.
  - intros i p tr EP CO. change (nth_error (ths s) i = Some p) in EP. destruct (f_now _ _ F i p tr EP CO) as [NL NS].
    assert (HP : holding p = true) by (destruct p; try discriminate; reflexivity). pose proof (cur_at s i p V EP HP) as CU. rewrite CO in CU.
    destruct (l_from l) as [g|] eqn:LF.
    + (* tagged *)
      cbn [honest] in H. rewrite LF in H. destruct H as (tr0 & I0 & G & LAST). pose proof (c_pend _ _ _ s C tr0 I0) as CU0. rewrite CU in CU0. injection CU0 as <-.
      assert (NQ : queue s = None). { destruct (queue s) as [q|] eqn:Q; [|reflexivity]. destruct (c_queue _ _ _ s C q Q) as (PE & _). rewrite PE in I0. destruct I0. }
      assert (ND : forall x, reader_line (rd s) = Some x -> l_last x = false).
      { intros x RX. destruct (l_last x) eqn:LX; [|reflexivity]. destruct (c_last _ _ _ s C [] x (wire s)) as (PE & _); [unfold flight; rewrite RX; reflexivity|exact LX|]. rewrite PE in I0. destruct I0. }
      assert (ST : open lbs s p tr /\ fresh_cb s tr /\ match rd s with RDone _ _ _ | RHandle _ _ _ | RCall _ _ | RInCB _ _ _ | RPost _ _ _ _ => False | _ => True end).
      { unfold stage in NS. rewrite NQ in NS. pose proof (c_rd _ _ _ s C) as D. unfold rd_ok in D.
        destruct (rd s) as [|x|x u|x mt|x t|x|ok ls x|ok ls x|ls x|id ls x|st x ok c0|] eqn:RD; try (destruct NS; auto; fail); exfalso; specialize (ND x eq_refl).
        - destruct D as (? & _ & (_ & D & _)); congruence.
        - destruct D as (? & _ & (_ & D & _)); congruence.
        - destruct D as (? & _ & (_ & D & _) & _); congruence.
        - destruct D as (? & _ & (_ & D & _) & _); congruence.
        - destruct D as (? & _ & (_ & D & _) & _); congruence. }
      destruct ST as ((O1 & O2 & O3 & O4) & FC & NB).
      assert (EE : emitted (lbs ++ [LEmit l]) (tr_tag tr) = emitted lbs (tr_tag tr) ++ [l]).
      { rewrite emitted_app. cbn. rewrite LF, <- G, tag_eqb_refl. reflexivity. }
      assert (FIT : fits tt s (tr_type tr) (exp_of p) g l).
      { destruct (CF g LF) as (j & c & [(EJ & GJ & FT)|(EJ & GJ & FT)]).
        - assert (j = i) by (pose proof (inv_excl s V j _ EJ eq_refl); pose proof (inv_excl s V i p EP HP); congruence). subst j. rewrite EP in EJ. injection EJ as ->. cbn in CO. injection CO as <-. exact FT.
        - assert (j = i) by (pose proof (inv_excl s V j _ EJ eq_refl); pose proof (inv_excl s V i p EP HP); congruence). subst j. rewrite EP in EJ. injection EJ as ->. cbn in CO. injection CO as <-. exact FT. }
      destruct FIT as (FIT1 & FIT2). split.
      * intros a x b EQ. rewrite EE in EQ. apply app_split_last in EQ. destruct EQ as [(-> & -> & ->)|(b' & -> & EQ)]; [|eapply NL; exact EQ].
        split; [exact FIT1|]. split; [|exact LAST]. intro LL. destruct (FIT2 LL) as [Y|(Y & N1 & N2 & N3)]; [left; exact Y|right]. split; [exact Y|].
        destruct (emitted lbs (tr_tag tr)) as [|x r] eqn:EQ; [reflexivity|exfalso]. assert (IX : In x (emitted lbs (tr_tag tr))) by (rewrite EQ; left; reflexivity).
        pose proof (emitted_from _ _ _ IX) as FX. rewrite G in FX. rewrite EQ, <- O1 in IX. apply in_app_or in IX. destruct IX as [IX|IX].
        -- unfold held_lines in IX. destruct (resp s) as [ls|]; [|destruct IX]. exact (N3 ls x eq_refl IX FX).
        -- apply filter_In in IX. destruct IX as (IX & _). unfold flight in IX. apply in_app_or in IX. destruct IX as [IX|IX]; [|exact (N1 x IX FX)].
           destruct (reader_line (rd s)) as [y|]; [|destruct IX]. destruct IX as [<-|[]]. exact (N2 y eq_refl FX).
      * unfold stage. change (queue s') with (queue s). change (rd s') with (rd s). rewrite NQ.
        assert (OP : open (lbs ++ [LEmit l]) s' p tr /\ fresh_cb s' tr).
        { split; [|exact FC]. split; [|split; [exact O2|split; [exact O3|exact O4]]]. unfold s'. rewrite EE, <- O1, flight_emit, filter_tagged_app. cbn. unfold tagged at 2. rewrite LF, app_assoc. reflexivity. }
        destruct (rd s); try contradiction; exact OP.
    + (* unsolicited *)
      assert (M : mute (LEmit l)) by (intro g; cbn; rewrite LF; reflexivity). split; [apply lines_fit_mute; assumption|].
      unfold stage in *. change (queue s') with (queue s). change (rd s') with (rd s). change (puse s') with (puse s).
      assert (OP : open lbs s p tr -> open (lbs ++ [LEmit l]) s' p tr).
      { intros (O1 & O2 & O3 & O4). split; [|split; [exact O2|split; [exact O3|exact O4]]]. unfold s'. rewrite mute_app, <- O1, flight_emit, filter_tagged_app by exact M. cbn. unfold tagged at 2. rewrite LF, app_nil_r. reflexivity. }
      destruct (queue s); [destruct NS; split; [apply ans_mute; assumption|assumption]|].
      destruct (rd s); try (destruct NS; split; auto; fail).
      all: try (destruct NS as (B1 & B2 & B3); split; [apply completed_mute; assumption|auto]).
      all: destruct NS as (B1 & B2); split; [first [apply completed_mute; assumption|apply ans_mute; assumption]|auto].
  - intros i p EP. change (nth_error (ths s) i = Some p) in EP. pose proof (f_pc _ _ F i p EP) as PC. apply (pcfact_frame _ s); try reflexivity.
    assert (ES1 : forall c b, call_of p = Some c -> p <> Wait c -> p <> DataWait c -> emitted (lbs ++ [LEmit l]) (c_id c, b) = emitted lbs (c_id c, b)).
    { intros c b CO N1 N2. apply ES. intro CU. destruct (current_unique lbs s _ i p c ID CU EP CO eq_refl) as [[Y _]|[Y _]]; contradiction. }
    destruct p as [|c|c|c|c|c|c|c st o|c st o|c|c|c|c st o|c st o]; cbn [pcfact] in *; auto.
    + destruct PC as (A & B & D). split; [exact A|]. split; [|exact D]. apply cpr_mono; [apply ES1; [reflexivity|discriminate|discriminate]|exact B].
    + destruct PC as (A & B & D). split; [exact A|]. split; [|exact D]. apply cpr_mono; [apply ES1; [reflexivity|discriminate|discriminate]|exact B].
    + destruct PC as (A & B & D). split; [exact A|]. split; [|exact D]. apply cmd_mono; [apply ES1; [reflexivity|discriminate|discriminate]|exact B].
    + destruct PC as (A & B). split; [|exact B]. apply dp_mono; [apply ES1; [reflexivity|discriminate|discriminate]|exact A].
    + apply dp_mono; [|exact PC]. apply ES. intro CU. destruct (current_unique lbs s _ i _ c ID CU EP eq_refl eq_refl) as [[Y _]|[_ Y]]; discriminate.
    + apply outcome_mono; [apply ES1; [reflexivity|discriminate|discriminate]|apply ES1; [reflexivity|discriminate|discriminate]|exact PC].
    + apply outcome_mono; [apply ES1; [reflexivity|discriminate|discriminate]|apply ES1; [reflexivity|discriminate|discriminate]|exact PC].
  - intros c st o I0. change (In (Returned c st o) (log s)) in I0. destruct (i_ret _ _ ID c st o I0) as (_ & NT).
    assert (ES1 : forall b, emitted (lbs ++ [LEmit l]) (c_id c, b) = emitted lbs (c_id c, b)).
    { intro b. apply ES. intro CU. apply current_call in CU. destruct CU as (i & p & d & EP & CO & EQ & _). apply (NT i p d EP CO). symmetry. exact EQ. }
    apply outcome_mono; auto. eapply (f_ret _ _ F). exact I0.
  - intros id ls x I0. change (In (Delivered id ls x) (log s)) in I0. destruct (f_del _ _ F id ls x I0) as (r & A & B & D). exists r. rewrite CC. split; [exact A|]. split; [exact B|].
    eapply resp_mono; [|exact D]. destruct (emitted_step lbs s (LEmit l) (id, false) T H) as [EQ|(l' & tr & _ & _ & _ & IP & G & CU)]; [exact EQ|exfalso].
    destruct (t_log _ _ s T _ I0) as (_ & LX). destruct D as (body & EB & _). eapply (e_closed _ _ EM (id, false) x); [rewrite EB; apply in_or_app; right; left; reflexivity|exact LX|exact IP|exact G].
  - exact (f_dnd _ _ F).
Qed.

Lemma exec_full lbs lb s s' : run tt (conforming_runs tt pfxs) (init n) lbs s -> Inv s -> Tidy tt pfxs s -> Ids lbs s -> Em lbs s -> Full lbs s ->
  conforming_runs tt pfxs s lb -> exec tt lb s = Some s' -> Full (lbs ++ [lb]) s'.
Proof.
  intros R V T ID EM F ((HON & _ & TO) & CF) E. destruct lb as [i r|i|i|i|i| |st|a k|l|g].
  - (* LCall *)
    assert (M : mute (LCall i r)) by (intro g; reflexivity). pose proof (fun g => mute_app lbs (LCall i r) g M) as ME.
    destruct (log_mute lbs (LCall i r) s s F M eq_refl (calls_more _ _)) as (L1 & L2 & L3). cbn [exec] in E. destruct (nth_error (ths s) i) as [[]|] eqn:EP; try discriminate.
    assert (NOW : forall s1, ths s1 = ths s -> log s1 = log s -> rd s1 = rd s -> queue s1 = queue s -> resp s1 = resp s -> wire s1 = wire s -> typ s1 = typ s -> puse s1 = puse s -> pbuf s1 = pbuf s -> Full (lbs ++ [LCall i r]) s1).
    { intros. apply (full_same lbs _ s); assumption. }
    assert (X : rq_kind r <> KToken None -> Full (lbs ++ [LCall i r]) (goto i (Called {| c_id := next s; c_req := r |}) (set_next (S (next s)) s))).
    { intro K. specialize (NOW (set_next (S (next s)) s) eq_refl eq_refl eq_refl eq_refl eq_refl eq_refl eq_refl eq_refl eq_refl). destruct NOW as [N1 N2 N3 N4 N5]. split; auto.
      - intros j p tr EJ CO. cbn in EJ. apply nth_set_cases in EJ. destruct EJ as [[<- ->]|[NE EJ]]; [discriminate|]. destruct (N1 j p tr EJ CO) as [A B]. split; [exact A|exact B].
      - intros j p EJ. cbn in EJ. apply nth_set_cases in EJ. destruct EJ as [[<- ->]|[NE EJ]]; [exact K|]. exact (pcfact_frame _ (set_next (S (next s)) s) _ p eq_refl eq_refl eq_refl (N2 j p EJ)). }
    destruct (rq_kind r) as [|[t|]| | |] eqn:K; injection E as <-; try (apply X; discriminate).
    destruct (NOW s eq_refl eq_refl eq_refl eq_refl eq_refl eq_refl eq_refl eq_refl eq_refl) as [N1 N2 N3 N4 N5].
    assert (FR : forall b, emitted (lbs ++ [LCall i r]) (next s, b) = []) by (intro b; rewrite ME; apply (e_fresh _ _ EM (next s, b)); cbn; lia).
    split.
    + intros j p tr EJ CO. destruct (N1 j p tr EJ CO) as [A B]. split; [exact A|]. unfold stage, open, fresh_cb, undelivered in *. cbn.
      destruct (queue s); [exact B|]. destruct (rd s); cbn; try (destruct B as (B1 & B2); split; [exact B1|]; try exact B2; try (intros Q ls' l' [Z|Z]; [discriminate|exact (B2 Q ls' l' Z)])).
      all: destruct B2 as (B2 & B3); split; [|exact B3]; intros Q ls' l' [Z|Z]; [discriminate|exact (B2 Q ls' l' Z)].
    + intros j p EJ. exact (pcfact_frame _ s _ p eq_refl eq_refl eq_refl (N2 j p EJ)).
    + cbn. intros d st' o' [[= <- <- <-]|I0]; [cbn; apply oc_table; auto|eapply N3; exact I0].
    + cbn. intros id ls l [Q|I0]; [discriminate|apply N4; exact I0].
    + exact N5.
  - exact (thread_full lbs s i s' V T ID EM F E).
  - (* LTimeout *)
    assert (M : mute (LTimeout i)) by (intro g; reflexivity). pose proof (fun g => mute_app lbs (LTimeout i) g M) as ME.
    cbn [exec] in E. destruct (nth_error (ths s) i) as [p|] eqn:EP; [|discriminate]. cbn [tidy_timeouts] in TO. destruct TO as (TO1 & TO2). rewrite EP in TO1, TO2. pose proof (t_core _ _ s T) as C. pose proof (f_pc _ _ F i p EP) as PC.
    pose proof (fun g => e_before _ _ EM i p g EP) as VG.
    destruct p; try discriminate; injection E as <-; rewrite (cur_at s i _ V EP eq_refl) in C; pose proof (f_now _ _ F i _ _ EP eq_refl) as NW.
    + pose proof (silent_open lbs s _ _ _ C eq_refl NW (TO1 c eq_refl)) as SI. destruct PC as (AC & CS).
      eapply (full_move lbs _ s _ i _ _ V F EP eq_refl M); [reflexivity|reflexivity| |discriminate]. cbn. split; [exact AC|]. split; [|discriminate]. right. right. left. split; [reflexivity|]. split; [exact CS|]. unfold no_answer. rewrite ME. exact SI.
    + pose proof (silent_open lbs s _ _ _ C eq_refl NW (TO2 c eq_refl)) as SI. cbn in PC. apply (dp_mono lbs [LTimeout i]) in PC; [|apply ME]. destruct PC as (CS & CA & d & DO & DD).
      eapply (full_move lbs _ s _ i _ _ V F EP eq_refl M); [reflexivity|reflexivity| |discriminate]. cbn. eapply oc_data_silent; try eassumption. rewrite ME. exact SI.
  - (* LSendLost *)
    assert (M : mute (LSendLost i)) by (intro g; reflexivity). cbn [exec] in E. destruct (nth_error (ths s) i) as [p|] eqn:EP; [|discriminate]. pose proof (f_pc _ _ F i p EP) as PC.
    destruct p; try discriminate; injection E as <-. pose proof (quiet_at tt pfxs s i _ V T EP eq_refl eq_refl) as QU. destruct PC as (AC & CS & TY & PF).
    eapply (full_move lbs _ s _ i _ (Wait c) V F EP eq_refl M); [reflexivity|reflexivity|cbn; auto|]. intros tr [= <-].
    eapply (now_start lbs _ s); try reflexivity; auto. eapply (e_before _ _ EM); [exact EP|]. exists c. cbn. repeat split; lia.
  - (* LDataShort *)
    assert (M : mute (LDataShort i)) by (intro g; reflexivity). pose proof (fun g => mute_app lbs (LDataShort i) g M) as ME.
    cbn [exec] in E. destruct (nth_error (ths s) i) as [p|] eqn:EP; [|discriminate]. pose proof (f_pc _ _ F i p EP) as PC.
    destruct p; try discriminate; injection E as <-. destruct PC as (DP & _). apply (dp_mono lbs [LDataShort i]) in DP; [|apply ME]. destruct DP as (CS & CA & d & DO & DD).
    eapply (full_move lbs _ s _ i _ _ V F EP eq_refl M); [reflexivity|reflexivity| |discriminate]. cbn. eapply oc_data_short; try eassumption. rewrite ME. apply (e_before _ _ EM i _ (c_id c, true) EP). exists c. cbn. repeat split; lia.
  - exact (reader_full lbs s s' V T ID EM F E).
  - (* LCbReturns *)
    assert (M : mute (LCbReturns st)) by (intro g; reflexivity). pose proof (fun g => mute_app lbs (LCbReturns st) g M) as ME.
    cbn [exec] in E. destruct (rd s) as [| | | | | | | | |id ls l| |] eqn:RD; try discriminate. injection E as <-. destruct (log_mute lbs (LCbReturns st) s s F M eq_refl (calls_more _ _)) as (L1 & L2 & L3).
    split; auto.
    + intros i p tr EP CO. change (nth_error (ths s) i = Some p) in EP. destruct (f_now _ _ F i p tr EP CO) as [NL NS]. split; [apply lines_fit_mute; assumption|].
      unfold stage in *. cbn. rewrite RD in NS. destruct (queue s) as [q|] eqn:Q; [destruct NS; split; [apply ans_mute; assumption|assumption]|]. destruct NS as (CM & PU). split; [|exact PU].
      assert (HP : holding p = true) by (destruct p; try discriminate; reflexivity). pose proof (cur_at s i p V EP HP) as CU. rewrite CO in CU.
      pose proof (c_rd _ _ _ s (t_core _ _ s T)) as D. unfold rd_ok in D. rewrite RD, CU in D. destruct D as (tr' & [= <-] & _ & TG).
      destruct p; try discriminate; injection CO as <-; cbn in TG; [|discriminate]. injection TG as <-.
      assert (rq_cb (c_req c) = true).
      { (* the callback can only run if the request has one *)
        apply (completed_mute lbs (LCbReturns st)) in CM; [|exact M]. clear - R RD EP ID F V.
        assert (DL : In (Delivered (c_id c) ls l) (log s)).
        { clear - R RD. remember (init n) as s0 eqn:E0. revert RD. induction R as [|s1 lbs s2 lb s3 R IH OK E]; [subst; discriminate|]. specialize (IH E0). intro RD.
          destruct lb as [i r|i|i|i|i| |st|a k|x|g]; cbn [exec] in E.
          - destruct (nth_error (ths s2) i) as [[]|]; try discriminate. destruct (rq_kind r) as [|[t|]| | |]; injection E as <-; cbn in RD; specialize (IH RD); cbn; auto.
          - unfold thread_step in E. destruct (nth_error (ths s2) i) as [p|] eqn:EP; [|discriminate].
            destruct p as [|d|d|d|d|d|d|d st o|d st o|d|d|d|d st o|d st o]; try discriminate.
            all: repeat match goal with H : match ?x with _ => _ end = Some _ |- _ => destruct x eqn:?; try discriminate end.
            all: injection E as <-; repeat match goal with H : context [match ?x with _ => _ end] |- _ => destruct x end; cbn in RD; specialize (IH RD); cbn; auto.
          - destruct (nth_error (ths s2) i) as [[]|]; try discriminate; injection E as <-; cbn in RD; specialize (IH RD); exact IH.
          - destruct (nth_error (ths s2) i) as [[]|]; try discriminate; injection E as <-; cbn in RD; specialize (IH RD); exact IH.
          - destruct (nth_error (ths s2) i) as [[]|]; try discriminate; injection E as <-; cbn in RD; specialize (IH RD); exact IH.
          - clear IH. unfold reader_step, reader_process in E. destruct (rd s2); try discriminate.
            all: repeat match goal with H : match ?x with _ => _ end = Some _ |- _ => destruct x eqn:?; try discriminate end.
            all: injection E as <-; cbn in RD; try discriminate. injection RD as <- <- <-. left. reflexivity.
          - destruct (rd s2); try discriminate. injection E as <-. discriminate.
          - destruct (rd s2); try discriminate. destruct a; injection E as <-; discriminate.
          - injection E as <-. apply IH. exact RD.
          - injection E as <-. apply IH. exact RD. }
        destruct (f_del _ _ F _ _ _ DL) as (r & A & B & _). rewrite (i_thr _ _ ID _ _ _ EP eq_refl) in A. injection A as <-. exact B. }
      cbn [ans]. eapply ca_callback with (ls := ls) (l := l); [assumption| |exists lbs, [], s; auto].
      apply (completed_mute lbs (LCbReturns st)) in CM; [|exact M]. destruct CM as (body & EB & CASES). exists body. split; [exact EB|].
      destruct CASES as [(Y1 & _ & Y2)|[(_ & Y)|(Y1 & Y2 & _ & Y3)]]; [left; auto|discriminate|right; auto].
    + intros i p EP. apply pcfact_mute; [exact M|]. exact (pcfact_frame _ s _ p eq_refl eq_refl eq_refl (f_pc _ _ F i p EP)).
  - (* LUndef *)
    exfalso. cbn [exec] in E. destruct (rd s) eqn:RD; try discriminate. exact (undef_never lbs s l V T F RD).
  - exact (emit_full lbs s l s' V T ID EM F HON CF E).
  - (* LGiveUp *)
    cbn [exec] in E. injection E as <-. apply (full_same lbs _ s); try reflexivity; [exact F|]. intro g'. reflexivity.
Qed.

Lemma init_full : Full [] (init n).
Proof.
  split; cbn; try (intros; contradiction); [| |constructor].
  - intros i p tr EP CO. apply nth_repeat_idle in EP. subst p. discriminate.
  - intros i p EP. apply nth_repeat_idle in EP. subst p. exact I.
Qed.
Lemma run_weaken (ok ok' : state -> label -> Prop) s lbs s' : (forall x lb, ok x lb -> ok' x lb) -> run tt ok s lbs s' -> run tt ok' s lbs s'.
Proof. intros W R. induction R; [constructor|econstructor; eauto]. Qed.
Lemma run_full lbs s : run tt (conforming_runs tt pfxs) (init n) lbs s -> Inv s /\ Tidy tt pfxs s /\ Ids lbs s /\ Em lbs s /\ Full lbs s.
Proof.
  intro R. remember (init n) as s0 eqn:E0. induction R as [|s1 lbs s2 lb s3 R IH OK E].
  - subst. split; [apply init_inv|]. split; [apply init_tidy|]. split; [apply (run_ids tt anything n); constructor|]. split; [apply init_em|apply init_full].
  - destruct (IH E0) as (V & T & ID & EM & F). subst s1.
    split; [eapply exec_inv; eassumption|]. split; [eapply exec_tidy; try eassumption; apply OK|]. split; [eapply exec_ids; eassumption|]. split; [eapply exec_em; try eassumption; apply OK|eapply exec_full; eassumption].
Qed.
End Full.

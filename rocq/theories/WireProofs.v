(** From bytes to API results: proofs. *)
From Coq Require Import String List NArith ZArith Bool Arith Lia.
From Verif Require Import Bytes AtCore Status SpecAt AtProofs AtProofs3 Pktio SpecPktio PktioLine PktioSafe SpecStream PktioStream PktioText RegStatus G3pp Wire SpecWire.
Import ListNotations.

(** ** Lines of a stream *)
Lemma next_line : forall S acc l ls r, line_text acc -> stream_lines acc S = (l :: ls, r) ->
  exists pre t e S1, S = pre ++ t ++ e :: S1 /\ (acc <> [] -> pre = []) /\ Forall eol pre /\ l = acc ++ t /\ l <> [] /\ line_text l /\ eol e /\ stream_lines [] S1 = (ls, r).
Proof.
  induction S as [|c S IH]; intros acc l ls r LT E; cbn [stream_lines] in E; [discriminate|].
  destruct ((c =? 0) || (c =? 13) || (c =? 10))%N eqn:Q.
  - assert (EC : eol c) by (apply is_eol_iff; exact Q). destruct (stream_lines [] S) as [ls0 r0] eqn:E0. destruct acc as [|x acc].
    + injection E as -> ->. destruct (IH [] l ls r (Forall_nil _) E0) as (pre & t & e & S1 & -> & _ & P & L & N1 & T & EE & R).
      exists (c :: pre), t, e, S1. split; [reflexivity|]. split; [intro K; contradiction|]. split; [constructor; assumption|]. auto.
    + injection E as <- <- <-. exists [], [], c, S. split; [reflexivity|]. split; [reflexivity|]. split; [constructor|]. rewrite app_nil_r.
      split; [reflexivity|]. split; [discriminate|]. auto.
  - assert (EC : ~ eol c) by (apply is_eol_false; exact Q).
    destruct (IH (acc ++ [c]) l ls r) as (pre & t & e & S1 & -> & P0 & _ & -> & N1 & T & EE & R); [apply Forall_app; split; [exact LT|constructor; [exact EC|constructor]]|exact E|].
    rewrite P0 by (destruct acc; discriminate). exists [], (c :: t), e, S1. split; [reflexivity|]. split; [reflexivity|]. split; [constructor|]. rewrite <- app_assoc. cbn [app].
    split; [reflexivity|]. split; [destruct acc; discriminate|]. split; [rewrite <- app_assoc in T; exact T|]. auto.
Qed.

Lemma skip_pre env h a S : forall pre, Forall eol pre -> stream_steps env (h, a, 0%nat, pre ++ S) (h, a, 0%nat, S).
Proof. induction pre as [|c pre IH]; intro F; [constructor|]. inversion F; subst. econstructor; [apply ss_skip; assumption|]. auto. Qed.

Lemma lines_stream env : (forall h, v_data (env h) = None) -> forall h a ls h' a', lines_steps env h a ls h' a' ->
  forall S rest r, stream_lines [] S = (ls ++ rest, r) -> exists S', stream_steps env (h, a, 0%nat, S) (h', a', 0%nat, S') /\ stream_lines [] S' = (rest, r).
Proof.
  intro ND. induction 1 as [h a|h a l ev a1 ls h' a' L LS IH]; intros S rest r E.
  - exists S. split; [constructor|exact E].
  - cbn [app] in E. destruct (next_line S [] l (ls ++ rest) r (Forall_nil _) E) as (pre & t & e & S1 & -> & _ & P & LE & N1 & T & EE & R). cbn [app] in LE. subst t.
    destruct (IH S1 rest r R) as (S' & SS & R'). exists S'. split; [|exact R'].
    eapply steps_trans; [apply skip_pre; exact P|]. econstructor; [|exact SS]. apply ss_line; auto. left. apply ND.
Qed.

(** ** Replies *)
Lemma reply_lines env q h ps ls a h' : reply env q h ps ls a h' -> lines_steps env h ps ls h' [].
Proof.
  induction 1 as [h ps l ls a h' U R IH|h ps l ls a h' F C P T R IH|h ps l F C SL|h ps l F C E|h ps l F C P T].
  - econstructor; [apply ls_urc; exact U|exact IH].
  - destruct F as [F1 F2]. rewrite <- F1 in C. rewrite <- F1 in T. econstructor; [|rewrite app_nil_r; exact IH].
    destruct T as [T|[T ->]]; [apply ls_multi; assumption|]. apply ls_single; auto.
  - destruct F as [F1 F2]. rewrite <- F1 in C. econstructor; [apply ls_success; assumption|constructor].
  - destruct F as [F1 F2]. rewrite <- F1 in C. econstructor; [apply ls_error; assumption|constructor].
  - destruct F as [F1 F2]. rewrite <- F1 in C. rewrite <- F1 in T. econstructor; [apply ls_no_code; assumption|constructor].
Qed.
Lemma session_lines env m sent h rs ls h' : session env m sent h rs ls h' -> lines_steps env h [] ls h' [].
Proof. induction 1; [constructor|]. eapply lss_app; [eapply reply_lines; eassumption|assumption]. Qed.

Definition answer_of (x : bool * list (list N)) : answer := if fst x then Answered (snd x) else Refused.
Lemma responses_app a b : responses (a ++ b) = responses a ++ responses b.
Proof. apply flat_map_app. Qed.
Lemma reply_response env q h ps ls a h' : reply env q h ps ls a h' -> exists x, responses h' = responses h ++ [x] /\ answer_of x = a.
Proof.
  induction 1 as [h ps l ls a h' U R IH|h ps l ls a h' F C P T R IH|h ps l F C SL|h ps l F C E|h ps l F C P T].
  - destruct IH as (x & A & B). exists x. rewrite responses_app, app_nil_r in A. auto.
  - exact IH.
  - exists (true, ps). rewrite responses_app. auto.
  - exists (false, ps). rewrite responses_app. auto.
  - exists (true, ps ++ [l]). rewrite responses_app. auto.
Qed.

(** m and m' answer every request of the sequence alike. *)
Definition agree (m m' : modem) (s : list req) : Prop := forall h1 r t, s = h1 ++ r :: t -> m' (h1 ++ [r]) = m (h1 ++ [r]).

Lemma session_answers env m sent h rs ls h' : session env m sent h rs ls h' -> length (responses h) = length sent ->
  forall x h1 r t, rs = h1 ++ r :: t -> wire_modem (h' ++ x) (sent ++ h1 ++ [r]) = m (sent ++ h1 ++ [r]).
Proof.
  induction 1 as [sent h|sent h q rs l1 l2 h1 h' R S IH]; intros L x h0 r t E; [destruct h0; discriminate|].
  destruct (reply_response _ _ _ _ _ _ _ R) as ([ok a] & A & B).
  assert (L1 : length (responses h1) = length (sent ++ [q])) by (rewrite A, !app_length, L; reflexivity).
  destruct h0 as [|q' h0].
  - injection E as <- <-. cbn [app]. unfold wire_modem. rewrite responses_app.
    assert (P : exists y, responses h' = responses h1 ++ y).
    { clear - S. induction S as [|sn0 h0 q0 rs0 l10 l20 h10 h0' R0 S0 IH]; [exists []; rewrite app_nil_r; reflexivity|].
      destruct (reply_response _ _ _ _ _ _ _ R0) as (z & A & _). destruct IH as (y & ->). rewrite A, <- app_assoc. eauto. }
    destruct P as (y & ->). rewrite A, <- !app_assoc, nth_error_app2 by (rewrite app_length; cbn [length]; lia).
    rewrite app_length, L. cbn [length]. replace (length sent + 1 - 1 - length sent)%nat with 0%nat by lia. cbn [nth_error app]. rewrite <- B. unfold answer_of. cbn [fst snd]. destruct ok; reflexivity.
  - injection E as <- E. specialize (IH L1 x h0 r t E). rewrite <- !app_assoc in IH. exact IH.
Qed.

Lemma steps_grow env x y : stream_steps env x y -> exists z, fst (fst (fst y)) = fst (fst (fst x)) ++ z.
Proof.
  induction 1 as [x|x y z A B (w & IH)]; [exists []; rewrite app_nil_r; reflexivity|].
  inversion A; subst; cbn [fst] in *; rewrite IH; rewrite <- ?app_assoc; eauto.
Qed.

Lemma wire_history cap fuel env m t cs t' h' s' rs ls rest r h : stream_env env -> (forall h, v_data (env 0%nat h) = None) ->
  run cap fuel env t [] (rx0 cap) cs t' h' s' -> session (env 0%nat) m [] [] rs ls h -> stream_lines [] (concat cs) = (ls ++ rest, r) ->
  exists x, h' = h ++ x.
Proof.
  intros HE ND RUN SE SL. destruct (lines_stream _ ND _ _ _ _ _ (session_lines _ _ _ _ _ _ _ SE) _ _ _ SL) as (S' & SS & _).
  apply run_first in RUN; [|exact HE]. destruct RUN as [(h0 & a0 & l0 & e0 & S & x & -> & LN0 & LT0 & EE0 & RJ & NDa & SX)|(a' & lft & ST & SX)].
  - pose proof (steps_between _ _ _ _ SS SX (rejects_normal _ _ _ _ _ _ LN0 LT0 EE0 RJ NDa)) as B. apply steps_grow in B. cbn [fst] in B. destruct B as (z & ->).
    rewrite <- app_assoc. eauto.
  - pose proof (steps_between _ _ _ _ SS SX (settled_normal _ _ _ _ _ ST)) as B. apply steps_grow in B. exact B.
Qed.

(** ** API functions see only the answers to the requests they send *)
Definition causal {A} (f : modem -> res (result A)) : Prop := forall m m' x, f m = Ok x -> agree m m' (sent x) -> f m' = Ok x.

Lemma request_causal {A} m m' h r cb (a : A) x : request m h r cb a = Ok x -> snd x = h ++ [r] /\ (m' (h ++ [r]) = m (h ++ [r]) -> request m' h r cb a = Ok x).
Proof.
  unfold request. intro E. split; [|intros ->; exact E]. destruct (m (h ++ [r])) as [tm| |ls]; try (injection E as <-; reflexivity).
  destruct (cb ls a) as [[? ?]| |]; cbn [bind] in E; try discriminate. injection E as <-. reflexivity.
Qed.
Lemma finish_causal {A B} r cb (a : A) (f : A -> B) : causal (fun m => finish (request m [] r cb a) f).
Proof.
  intros m m' x H G. unfold finish in *. destruct (request m [] r cb a) as [[[st a'] h']| |] eqn:E; cbn [bind] in H; try discriminate.
  destruct (request_causal m m' _ _ _ _ _ E) as [K1 K2]. cbn [snd] in K1. injection H as <-. subst h'. cbn [sent] in G.
  rewrite K2; [reflexivity|]. apply (G [] r []). reflexivity.
Qed.
Lemma const_causal {A} (y : res (result A)) : causal (fun _ => y).
Proof. intros m m' x H _. exact H. Qed.

Lemma agree_snoc m m' h r : agree m m' (h ++ [r]) -> m' (h ++ [r]) = m (h ++ [r]).
Proof. intro G. apply (G h r []). reflexivity. Qed.
Lemma agree_app m m' h t : agree m m' (h ++ t) -> agree m m' h.
Proof. intros G h1 r t1 ->. apply (G h1 r (t1 ++ t)). rewrite <- app_assoc. reflexivity. Qed.
(** A computation started with history h: its result's history extends h, and it depends only on the answers to what it added. *)
Definition caus {X} (hist : X -> list req) (h : list req) (f : modem -> res X) : Prop :=
  forall m x, f m = Ok x -> exists t, hist x = h ++ t /\ forall m', agree m m' (hist x) -> f m' = Ok x.
Lemma caus_ret {X} (hist : X -> list req) h x : hist x = h -> caus hist h (fun _ => Ok x).
Proof. intros E m y H. injection H as <-. exists []. rewrite app_nil_r. auto. Qed.
Lemma caus_fail {X} (hist : X -> list req) h f : (forall m x, f m <> Ok x) -> caus hist h f.
Proof. intros E m y H. destruct (E _ _ H). Qed.
Lemma caus_request {A} h r cb (a : A) : caus snd h (fun m => request m h r cb a).
Proof.
  intros m x H. exists [r]. destruct (request_causal m m h r cb a x H) as [K _]. split; [exact K|].
  intros m' G. destruct (request_causal m m' h r cb a x H) as [_ K2]. apply K2. rewrite K in G. exact (agree_snoc _ _ _ _ G).
Qed.
Lemma caus_bind {X Y} (hx : X -> list req) (hy : Y -> list req) h f k : caus hx h f -> (forall x, caus hy (hx x) (fun m => k x m)) -> caus hy h (fun m => do x <- f m; k x m).
Proof.
  intros F K m y H. destruct (f m) as [x| |] eqn:E; cbn [bind] in H; try discriminate. destruct (F m x E) as (t1 & E1 & G1). destruct (K x m y H) as (t2 & E2 & G2).
  exists (t1 ++ t2). rewrite E2, E1, <- app_assoc. split; [reflexivity|]. intros m' G. rewrite G1; cbn [bind].
  - apply G2. rewrite E2, E1, <- app_assoc. exact G.
  - rewrite E1. apply (agree_app _ _ _ t2). rewrite <- app_assoc. exact G.
Qed.
Lemma caus_pure {X Y} (hy : Y -> list req) h (x : res X) k : (forall x, caus hy h (fun m => k x m)) -> caus hy h (fun m => do y <- x; k y m).
Proof. intro K. destruct x as [x| |]; cbn [bind]; [apply K|apply caus_fail; discriminate..]. Qed.
Lemma caus_causal {A} (f : modem -> res (result A)) : caus sent [] f -> causal f.
Proof. intros C m m' x H G. destruct (C m x H) as (t & _ & K). auto. Qed.

Lemma caus_mcc bits h o : caus snd h (fun m => UpdateMccMnc bits m h o).
Proof.
  unfold UpdateMccMnc. eapply caus_bind; [apply caus_request|]. intros [[s1 o1] h1]. cbn [snd].
  destruct s1; try (apply caus_ret; reflexivity). apply caus_request.
Qed.
Lemma caus_net bits h cmd prefix rt d : caus snd h (fun m => queryNetworkStatus bits m h cmd prefix rt d).
Proof.
  unfold queryNetworkStatus. eapply caus_bind; [apply caus_request|]. intros [[s1 o1] h1]. apply caus_ret. reflexivity.
Qed.
Lemma caus_reg bits env d s : caus snd [] (fun m => QueryRegStatus bits m env d s).
Proof.
  unfold QueryRegStatus. eapply caus_bind; [apply caus_net|]. intros [[e1 d1] h1]. cbn [snd].
  apply (caus_bind snd snd) with (f := fun m => match e1 with C_SUCCESS => _ | _ => _ end).
  - destruct e1; try (apply caus_ret; reflexivity). eapply caus_bind; [apply caus_net|]. intros [[? ?] ?]. apply caus_ret. reflexivity.
  - intros [d2 h2]. cbn [snd]. apply (caus_bind snd snd) with (f := fun m => match e1 with C_SUCCESS => _ | _ => _ end).
    + destruct e1; try (apply caus_ret; reflexivity). destruct (_ && _); [|apply caus_ret; reflexivity].
      eapply caus_bind; [apply caus_net|]. intros [[? ?] ?]. apply caus_ret. reflexivity.
    + intros [[? ?] ?]. apply caus_ret. reflexivity.
Qed.

Lemma causal_api A f : api_function A f -> causal f.
Proof.
  destruct 1.
  all: try (unfold GetNetworkTime, GetIPAddress, GetEidrxSettings, SetEidrxSettings, RfOn, RfOff, RfCommand, SetPdnConfig, GetSimCardLockStatus,
    SetPsmSettings, GetPsmSettings, ATCommandRaw; repeat match goal with
    | |- causal (fun m => finish (request m [] _ _ _) _) => apply finish_causal
    | |- causal (fun m => rejected _ _) => apply const_causal
    | |- causal (fun m => match ?x with _ => _ end) => destruct x eqn:?
    | |- causal (fun m => if ?x then _ else _) => destruct x eqn:?
    end; fail).
  - unfold GetModemInfo. destruct (CheckLibraryStatus lib); try apply const_causal. destruct p as [p|]; [|apply const_causal]. cbv zeta. apply caus_causal.
    eapply caus_bind; [apply caus_request|]. intros [[s1 b1] h1]. cbn [snd]. destruct s1; try (apply caus_ret; reflexivity).
    eapply caus_bind; [apply caus_request|]. intros [[s1 b2] h2]. cbn [snd]. destruct s1; try (apply caus_ret; reflexivity).
    eapply caus_bind; [apply caus_request|]. intros [[s1 b3] h3]. cbn [snd]. destruct s1; try (apply caus_ret; reflexivity).
    eapply caus_bind; [apply caus_request|]. intros [[s1 b4] h4]. apply caus_ret. reflexivity.
  - unfold GetRegisteredNetwork. destruct (CheckLibraryStatus lib); try apply const_causal. destruct p as [p|]; [|apply const_causal]. destruct mem; [|apply const_causal]. apply caus_causal.
    eapply caus_bind; [apply caus_mcc|]. intros [[s o] h]. cbn [snd]. destruct (TranslatePktStatus s); try (apply caus_ret; reflexivity).
    destruct (_ =? _)%Z; [apply caus_ret; reflexivity|]. repeat (apply caus_pure; intro). apply caus_ret. reflexivity.
  - apply caus_causal. unfold GetServiceStatus. destruct (CheckLibraryStatus lib); try (apply caus_ret; reflexivity). destruct p as [p|]; [|apply caus_ret; reflexivity].
    eapply (caus_bind (fun x => sent (fst x))); [|intros [? ?]; apply caus_ret; reflexivity].
    eapply caus_bind; [apply caus_reg|]. intros [[[? s1] d1] h1]. cbn [snd]. eapply caus_bind; [apply caus_mcc|]. intros [[? o] h2]. cbn [snd].
    repeat (apply caus_pure; intro). apply caus_ret. reflexivity.
  - unfold GetSimCardInfo. destruct (CheckLibraryStatus lib); try apply const_causal. destruct p as [p|]; [|apply const_causal]. apply caus_causal.
    eapply caus_bind; [apply caus_request|]. intros [[s1 b1] h1]. cbn [snd]. destruct s1; try (apply caus_ret; reflexivity).
    eapply caus_bind; [apply caus_request|]. intros [[s1 b2] h2]. cbn [snd]. destruct s1; try (apply caus_ret; reflexivity).
    eapply caus_bind; [apply caus_request|]. intros [[s1 b3] h3]. apply caus_ret. reflexivity.
Qed.

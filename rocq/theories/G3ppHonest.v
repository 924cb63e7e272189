(** The return value of the 3GPP API functions against the outcome of their requests. *)
From Coq Require Import String List NArith ZArith Bool Lia Arith.
From Verif Require Import Bytes AtCore SpecAt Status Pktio SendCmd Socket RegStatus SpecReg G3pp SpecG3ppApi G3ppProofs.
Import ListNotations.

Definition tame {A} (cb : list str -> A -> res (pkt_status * A)) : Prop :=
  forall ls a st a', cb ls a = Ok (st, a') -> st <> PKT_TIMED_OUT.
Lemma tame_none {A} : tame (@no_callback A).
Proof. intros ls a st a' E. inversion E. discriminate. Qed.
Lemma at_not_timeout e : TranslateAtCoreStatus e <> PKT_TIMED_OUT.
Proof. destruct e; discriminate. Qed.
#[global] Hint Resolve at_not_timeout : core.

Lemma request_honest {A} m h r cb (a : A) st a' h' : tame cb -> request m h r cb a = Ok (st, a', h') ->
  h' = h ++ [r] /\ (st = PKT_OK -> answered m h') /\ (st = PKT_TIMED_OUT <-> m h' = NoAnswer true).
Proof.
  intro T. unfold request. destruct (m (h ++ [r])) as [t| |ls] eqn:E; intro H.
  - inversion H; subst; clear H. rewrite E. split; [reflexivity|]. destruct t; (split; [intro Q; discriminate|]); split; intro Q; congruence.
  - inversion H; subst; clear H. rewrite E. split; [reflexivity|]. split; [intro Q; discriminate|]. split; intro Q; congruence.
  - destruct (cb ls a) as [[s b]| |] eqn:C; cbn [bind] in H; try discriminate. inversion H; subst; clear H. split; [reflexivity|].
    split; [intros _; exists ls; exact E|]. rewrite E. split; intro Q; [|discriminate]. subst. destruct (T _ _ _ _ C eq_refl).
Qed.

Lemma snoc_split {A} (h : list A) r h1 r1 t : h ++ [r] = h1 ++ r1 :: t -> t <> [] -> exists t', h = h1 ++ r1 :: t'.
Proof.
  intros E Ht. destruct (exists_last Ht) as (t' & z & ->). exists t'.
  replace (h1 ++ r1 :: t' ++ [z]) with ((h1 ++ r1 :: t') ++ [z]) in E by (rewrite <- app_assoc; reflexivity).
  apply app_inj_tail in E. tauto.
Qed.
(** earlier requests answered *)
Definition clean (m : modem) (h : list req) : Prop := forall h1 r1 t, h = h1 ++ r1 :: t -> answered m (h1 ++ [r1]).
Lemma clean_nil m : clean m [].
Proof. intros h1 r1 t E. destruct h1; discriminate. Qed.
Lemma clean_snoc m h r : clean m h -> answered m (h ++ [r]) -> clean m (h ++ [r]).
Proof.
  intros C R h1 r1 t E. destruct t as [|z t].
  - replace (h1 ++ [r1]) with (h ++ [r]) by exact E. exact R.
  - destruct (snoc_split h r h1 r1 (z :: t) E ltac:(discriminate)) as (t' & ->). exact (C h1 r1 t' eq_refl).
Qed.
Lemma honest_last {A} m h r cb (a : A) st a' h' : clean m h -> tame cb -> request m h r cb a = Ok (st, a', h') ->
  honest m h' (TranslatePktStatus st) /\ (st = PKT_OK -> clean m h').
Proof.
  intros C T H. destruct (request_honest m h r cb a st a' h' T H) as (-> & K1 & K2). clear H.
  assert (NE : h ++ [r] <> []) by (destruct h; discriminate). split.
  - split; [|split].
    + intros h1 r1 t E Ht. destruct (snoc_split h r h1 r1 t E Ht) as (t' & ->). exact (C h1 r1 t' eq_refl).
    + intro Q. split; [exact NE|]. apply K1. destruct st; try discriminate Q. reflexivity.
    + rewrite <- K2. split; [intro Q; split; [exact NE|]; destruct st; try discriminate Q; reflexivity|]. intros [_ ->]. reflexivity.
  - intro Q. apply clean_snoc; [exact C|]. exact (K1 Q).
Qed.
Lemma honest_rejected m e : e <> C_SUCCESS -> e <> C_TIMEOUT -> honest m [] e.
Proof.
  intros H1 H2. split; [|split].
  - intros h r t E. destruct h; discriminate.
  - intro Q. contradiction.
  - split; [contradiction|]. intros [Q _]. contradiction.
Qed.
Lemma gate_not e lib : CheckLibraryStatus lib = e -> e <> C_TIMEOUT.
Proof. intros <-. unfold CheckLibraryStatus. destruct lib as [f|]; [|discriminate]. destruct (negb _); [discriminate|]. destruct (_ || _); discriminate. Qed.

Lemma finish_honest {A B} m r cb (a : A) (f : A -> B) x : tame cb -> finish (request m [] r cb a) f = Ok x -> honest m (sent x) (ret x).
Proof.
  intros T H. unfold finish in H. destruct (request m [] r cb a) as [[[st a'] h']| |] eqn:E; cbn [bind] in H; try discriminate.
  inversion H; subst; clear H. cbn [sent ret]. exact (proj1 (honest_last m [] r cb a st a' h' (clean_nil m) T E)).
Qed.

(** tame callbacks *)
Ltac ok_inv := repeat match goal with
  | H : Ok _ = Ok _ |- _ => inversion H; subst; clear H
  | H : UB = Ok _ |- _ => discriminate H
  end.
Ltac tame_step :=
  match goal with
  | H : context [match ?x with _ => _ end] |- _ => destruct x eqn:?; cbn [bind] in H
  | H : context [bind ?x _] |- _ => destruct x eqn:?; cbn [bind] in H
  end.
Ltac tame_tac := intros ls a st a' E; destruct ls; cbn [cb_first] in E; repeat (ok_inv; try congruence; try discriminate; auto; tame_step); ok_inv; auto; try discriminate.

Lemma tame_text n : tame (RecvFuncText n).
Proof. unfold RecvFuncText. tame_tac. Qed.
Lemma tame_imei : tame RecvFuncGetImei.
Proof. unfold RecvFuncGetImei. tame_tac. Qed.
Lemma tame_imsi : tame RecvFuncGetImsi.
Proof. unfold RecvFuncGetImsi. tame_tac. Qed.
Lemma tame_iccid : tame RecvFuncGetIccid.
Proof. unfold RecvFuncGetIccid. tame_tac. Qed.
Lemma tame_hplmn : tame RecvFuncGetHplmn.
Proof. unfold RecvFuncGetHplmn. tame_tac. Qed.
Lemma tame_lock : tame RecvFuncGetSimLockStatus.
Proof. unfold RecvFuncGetSimLockStatus. tame_tac. Qed.
Lemma tame_ip n : tame (RecvFuncIpAddress n).
Proof. unfold RecvFuncIpAddress. tame_tac. Qed.
Lemma tame_cops bits : tame (RecvFuncUpdateMccMnc bits).
Proof.
  unfold RecvFuncUpdateMccMnc. intros ls a st a' E. destruct ls; cbn [cb_first] in E; [ok_inv; discriminate|].
  match type of E with bind ?x _ = _ => destruct x as [[e o]| |]; cbn [bind] in E; try discriminate end. ok_inv. destruct e; discriminate.
Qed.
Lemma tame_psm bits : tame (RecvFuncGetPsmSettings bits).
Proof. unfold RecvFuncGetPsmSettings. intros ls a st a' E. destruct ls; cbn [cb_first] in E; [ok_inv; discriminate|].
  destruct (ATRemovePrefix _) as [e s1]; destruct e; ok_inv; auto; try discriminate.
  destruct (ATRemoveAllDoubleQuote _) as [e s2]; destruct e; ok_inv; auto; try discriminate.
  destruct (ATGetNextTok _) as [[e s3] [t|]]; destruct e; ok_inv; auto; try discriminate.
  destruct (psm_loop _ _ _ _ _) as [e p]. ok_inv. auto.
Qed.
Lemma tame_edrx bits : tame (RecvFuncGetEidrxSettings bits).
Proof.
  intros ls a st a'. unfold RecvFuncGetEidrxSettings, cb_first. destruct ls as [|l ls]; [intro E; ok_inv; discriminate|].
  generalize (l :: ls) as lines. clear l ls. intro lines. generalize 0%N as c. revert a. induction lines as [|l ls IH]; intros a c E; cbn [eidrx_lines] in E.
  - ok_inv. discriminate.
  - destruct (_ || _); [exact (IH _ _ E)|]. destruct (parseEidrxLine bits l c (e_list a)) as [[e l']| |]; cbn [bind] in E; try discriminate.
    destruct e; cbn [TranslateAtCoreStatus] in E; try (ok_inv; discriminate). exact (IH _ _ E).
Qed.
Lemma zone_tame bits s t e b u : parseTimeZoneInCCLKResponse bits s t = (e, b, u) -> e <> PKT_TIMED_OUT.
Proof.
  unfold parseTimeZoneInCCLKResponse. intro H.
  destruct (strstr s [chPLUS]) as [t0|].
  - destruct (get_int bits t0 10 any_int) as [x v]; destruct x; inversion H; subst; auto; discriminate.
  - destruct (strstr s [chMINUS]) as [t0|]; [|inversion H; subst; auto; discriminate].
    destruct (get_int bits t0 10 any_int) as [x v]; destruct x; inversion H; subst; auto; discriminate.
Qed.
Lemma ymd_tame bits tok rest t e r u : parseYearMonthDay bits tok rest t = (e, r, u) -> e <> PKT_TIMED_OUT.
Proof.
  unfold parseYearMonthDay. intro H. destruct (get_int bits tok 10 uint16_ok) as [x v]; destruct x; try (inversion H; subst; auto; discriminate).
  destruct (tok_int bits rest 47 uint8_ok) as [[x r1] mo]; destruct x; try (inversion H; subst; auto; discriminate).
  destruct (tok_int bits r1 chCOMMA uint8_ok) as [[x r2] d]; destruct x; inversion H; subst; auto; discriminate.
Qed.
Lemma hms_tame bits tok neg rest t e u : parseTimeInCCLKResponse bits tok neg rest t = (e, u) -> e <> PKT_TIMED_OUT.
Proof.
  unfold parseTimeInCCLKResponse. intro H. destruct (get_int bits tok 10 uint8_ok) as [x v]; destruct x; try (inversion H; subst; auto; discriminate).
  destruct (tok_int bits rest chCOLON uint8_ok) as [[x r1] mo]; destruct x; try (inversion H; subst; auto; discriminate).
  destruct (tok_int bits r1 (if neg then chMINUS else chPLUS) uint8_ok) as [[x r2] d]; destruct x; inversion H; subst; auto; discriminate.
Qed.
Lemma tame_time bits : tame (RecvFuncGetNetworkTime bits).
Proof.
  intros ls a st a'. unfold RecvFuncGetNetworkTime, cb_first. destruct ls as [|l ls]; [intro E; ok_inv; discriminate|]. intro E.
  destruct (ATRemovePrefix _) as [e s1]; destruct e; ok_inv; auto; try discriminate.
  destruct (ATRemoveAllWhiteSpaces _) as [e s2]; destruct e; ok_inv; auto; try discriminate.
  match goal with H : parseTimeZoneInfo _ _ = _ |- _ => rename H into Q end. unfold parseTimeZoneInfo in Q.
  destruct (ATRemoveOutermostDoubleQuote s2) as [e [s|]]; destruct e; try (inversion Q; discriminate).
  destruct (parseTimeZoneInCCLKResponse bits s ctime0) as [[e neg] t1] eqn:Z. pose proof (zone_tame _ _ _ _ _ _ Z).
  destruct e; try (inversion Q; subst; discriminate); [|contradiction].
  destruct (ATGetSpecificNextTok (Some s) 47) as [[e r] [tok|]]; destruct e; try (inversion Q; subst; discriminate).
  destruct (parseYearMonthDay bits tok r t1) as [[e r1] t2] eqn:Y. pose proof (ymd_tame _ _ _ _ _ _ _ Y).
  destruct e; try (inversion Q; subst; discriminate); [|contradiction].
  destruct (ATGetSpecificNextTok r1 chCOLON) as [[e r2] [tok2|]]; destruct e; try (inversion Q; subst; discriminate).
  exact (hms_tame _ _ _ _ _ _ _ Q).
Qed.

(** ** Every API function *)
Ltac gate lib H := let G := fresh "G" in destruct (CheckLibraryStatus lib) eqn:G;
  try (unfold rejected in H; inversion H; subst; clear H; cbn [sent ret]; apply honest_rejected; [discriminate|first [discriminate | exact (gate_not _ _ G)]]).
Ltac null p H := destruct p; [|unfold rejected in H; inversion H; subst; clear H; cbn [sent ret]; apply honest_rejected; discriminate].

Lemma honest_time bits lib m p x : GetNetworkTime bits lib m p = Ok x -> honest m (sent x) (ret x).
Proof. unfold GetNetworkTime. intro H. gate lib H. null p H. exact (finish_honest _ _ _ _ _ _ (tame_time bits) H). Qed.
Lemma honest_ip lib m cid b n x : GetIPAddress lib m cid b n = Ok x -> honest m (sent x) (ret x).
Proof.
  unfold GetIPAddress. intro H. gate lib H. null b H.
  destruct (n =? 0)%N; [unfold rejected in H; inversion H; subst; clear H; cbn [sent ret]; apply honest_rejected; discriminate|].
  unfold IsValidPdn in H. match type of H with context [if ?c then _ else _] => destruct c end.
  - unfold rejected in H; inversion H; subst; clear H; cbn [sent ret]; apply honest_rejected; discriminate.
  - exact (finish_honest _ _ _ _ _ _ (tame_ip _) H).
Qed.
Lemma honest_edrx bits lib m p x : GetEidrxSettings bits lib m p = Ok x -> honest m (sent x) (ret x).
Proof. unfold GetEidrxSettings. intro H. gate lib H. null p H. exact (finish_honest _ _ _ _ _ _ (tame_edrx bits) H). Qed.
Lemma honest_setedrx lib m p x : SetEidrxSettings lib m p = Ok x -> honest m (sent x) (ret x).
Proof. unfold SetEidrxSettings. intro H. gate lib H. null p H. exact (finish_honest _ _ _ _ _ _ tame_none H). Qed.
Lemma honest_rf cmd lib m x : RfCommand cmd lib m = Ok x -> honest m (sent x) (ret x).
Proof. unfold RfCommand. intro H. gate lib H. exact (finish_honest _ _ _ _ _ _ tame_none H). Qed.
Lemma honest_pdn lib m cid p x : SetPdnConfig lib m cid p = Ok x -> honest m (sent x) (ret x).
Proof.
  unfold SetPdnConfig. intro H. null p H. cbv zeta in H.
  match type of H with context [match ?t with Some _ => _ | None => _ end] => destruct t end;
    [|unfold rejected in H; inversion H; subst; clear H; cbn [sent ret]; apply honest_rejected; discriminate].
  unfold IsValidPdn in H. match type of H with context [if ?c then C_BAD_PARAMETER else _] => destruct c end.
  - unfold rejected in H; inversion H; subst; clear H; cbn [sent ret]; apply honest_rejected; discriminate.
  - gate lib H. exact (finish_honest _ _ _ _ _ _ tame_none H).
Qed.
Lemma honest_lock lib m p x : GetSimCardLockStatus lib m p = Ok x -> honest m (sent x) (ret x).
Proof. unfold GetSimCardLockStatus. intro H. gate lib H. null p H. exact (finish_honest _ _ _ _ _ _ tame_lock H). Qed.
Lemma honest_setpsm lib m p x : SetPsmSettings lib m p = Ok x -> honest m (sent x) (ret x).
Proof. unfold SetPsmSettings. intro H. gate lib H. null p H. exact (finish_honest _ _ _ _ _ _ tame_none H). Qed.
Lemma honest_psm bits lib m p x : GetPsmSettings bits lib m p = Ok x -> honest m (sent x) (ret x).
Proof. unfold GetPsmSettings. intro H. gate lib H. null p H. exact (finish_honest _ _ _ _ _ _ (tame_psm bits) H). Qed.

(** request sequences *)
Ltac next_request H tm C :=
  match type of H with bind (request ?m ?h ?r ?cb ?a) _ = _ =>
    let E := fresh "E" in let K := fresh "K" in let st := fresh "st" in let a' := fresh "a'" in let h' := fresh "h'" in
    destruct (request m h r cb a) as [[[st a'] h']| |] eqn:E; cbn [bind] in H; try discriminate H;
    destruct (honest_last m h r cb a st a' h' C tm E) as [K C'] end.
Lemma honest_modem lib m p x : GetModemInfo lib m p = Ok x -> honest m (sent x) (ret x).
Proof.
  unfold GetModemInfo. intro H. gate lib H. null p H. cbv zeta in H.
  match type of H with bind (request ?m ?h ?r ?cb ?a) _ = _ => destruct (request m h r cb a) as [[[s1 a1] h1]| |] eqn:E1; cbn [bind] in H; try discriminate H end.
  destruct (honest_last _ _ _ _ _ _ _ _ (clean_nil m) (tame_text _) E1) as [K1 C1].
  destruct s1; try (inversion H; subst; exact K1). specialize (C1 eq_refl).
  match type of H with bind (request ?m ?h ?r ?cb ?a) _ = _ => destruct (request m h r cb a) as [[[s2 a2] h2]| |] eqn:E2; cbn [bind] in H; try discriminate H end.
  destruct (honest_last _ _ _ _ _ _ _ _ C1 tame_imei E2) as [K2 C2].
  destruct s2; try (inversion H; subst; exact K2). specialize (C2 eq_refl).
  match type of H with bind (request ?m ?h ?r ?cb ?a) _ = _ => destruct (request m h r cb a) as [[[s3 a3] h3]| |] eqn:E3; cbn [bind] in H; try discriminate H end.
  destruct (honest_last _ _ _ _ _ _ _ _ C2 (tame_text _) E3) as [K3 C3].
  destruct s3; try (inversion H; subst; exact K3). specialize (C3 eq_refl).
  match type of H with bind (request ?m ?h ?r ?cb ?a) _ = _ => destruct (request m h r cb a) as [[[s4 a4] h4]| |] eqn:E4; cbn [bind] in H; try discriminate H end.
  destruct (honest_last _ _ _ _ _ _ _ _ C3 (tame_text _) E4) as [K4 C4].
  inversion H; subst; exact K4.
Qed.
Lemma honest_sim lib m p x : GetSimCardInfo lib m p = Ok x -> honest m (sent x) (ret x).
Proof.
  unfold GetSimCardInfo. intro H. gate lib H. null p H. cbv zeta in H.
  match type of H with bind (request ?m ?h ?r ?cb ?a) _ = _ => destruct (request m h r cb a) as [[[s1 a1] h1]| |] eqn:E1; cbn [bind] in H; try discriminate H end.
  destruct (honest_last _ _ _ _ _ _ _ _ (clean_nil m) tame_imsi E1) as [K1 C1].
  destruct s1; try (inversion H; subst; exact K1). specialize (C1 eq_refl).
  match type of H with bind (request ?m ?h ?r ?cb ?a) _ = _ => destruct (request m h r cb a) as [[[s2 a2] h2]| |] eqn:E2; cbn [bind] in H; try discriminate H end.
  destruct (honest_last _ _ _ _ _ _ _ _ C1 tame_hplmn E2) as [K2 C2].
  destruct s2; try (inversion H; subst; exact K2). specialize (C2 eq_refl).
  match type of H with bind (request ?m ?h ?r ?cb ?a) _ = _ => destruct (request m h r cb a) as [[[s3 a3] h3]| |] eqn:E3; cbn [bind] in H; try discriminate H end.
  destruct (honest_last _ _ _ _ _ _ _ _ C2 tame_iccid E3) as [K3 C3].
  inversion H; subst; exact K3.
Qed.
Lemma honest_network bits lib m mem p x : GetRegisteredNetwork bits lib m mem p = Ok x -> honest m (sent x) (ret x).
Proof.
  unfold GetRegisteredNetwork. intro H. destruct (CheckLibraryStatus lib) eqn:G;
    try (unfold rejected in H; inversion H; subst; clear H; cbn [sent ret]; apply honest_rejected; [discriminate|first [discriminate | exact (gate_not _ _ G)]]).
  destruct p as [pl|]; [|unfold rejected in H; inversion H; subst; clear H; cbn [sent ret]; apply honest_rejected; discriminate].
  destruct mem; [|unfold rejected in H; inversion H; subst; clear H; cbn [sent ret]; apply honest_rejected; discriminate].
  destruct (UpdateMccMnc bits m [] op_info0) as [[[s o] h]| |] eqn:U; cbn [bind] in H; try discriminate H.
  assert (K : honest m h (TranslatePktStatus s)).
  { unfold UpdateMccMnc in U.
    match type of U with bind (request ?m ?h ?r ?cb ?a) _ = _ => destruct (request m h r cb a) as [[[s1 a1] h1]| |] eqn:E1; cbn [bind] in U; try discriminate U end.
    destruct (honest_last _ _ _ _ _ _ _ _ (clean_nil m) tame_none E1) as [K1 C1].
    destruct s1; try (inversion U; subst; exact K1). specialize (C1 eq_refl).
    exact (proj1 (honest_last _ _ _ _ _ _ _ _ C1 (tame_cops bits) U)). }
  destruct (TranslatePktStatus s) eqn:T; try (inversion H; subst; exact K).
  destruct (o_rat o =? RATN_INVALID)%Z; [inversion H; subst; cbn [sent ret]; destruct K as (K1 & K2 & _); destruct (K2 eq_refl) as (_ & ls & E); split; [exact K1|split; [discriminate|split; [discriminate|intros [_ Q]; congruence]]]|].
  repeat match type of H with bind ?x _ = _ => destruct x; cbn [bind] in H; try discriminate H end.
  inversion H; subst. exact K.
Qed.

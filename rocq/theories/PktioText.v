(** Corollaries of the stream refinement: plain text streams (C16, C19) and payloads (C22). *)
From Coq Require Import List NArith ZArith Bool Arith Lia.
From Verif Require Import Bytes AtCore Status SpecAt AtProofs AtProofs3 Pktio SpecPktio PktioLine PktioSafe SpecStream PktioStream.
Import ListNotations.

Lemma lines_text acc l e S : line_text l -> eol e ->
  stream_lines acc (l ++ e :: S) = (match acc ++ l with [] => fst (stream_lines [] S) | x => x :: fst (stream_lines [] S) end, snd (stream_lines [] S)).
Proof.
  revert acc; induction l as [|c l IH]; intros acc LT EE.
  - cbn [app stream_lines]. assert (Q : ((e =? 0) || (e =? 13) || (e =? 10))%N = true) by (apply is_eol_iff in EE; exact EE). rewrite Q, app_nil_r.
    destruct (stream_lines [] S) as [ls r]. destruct acc; reflexivity.
  - inversion LT; subst. cbn [app stream_lines]. assert (Q : ((c =? 0) || (c =? 13) || (c =? 10))%N = false) by (apply is_eol_false in H1; exact H1). rewrite Q.
    rewrite (IH (acc ++ [c])) by assumption. rewrite <- app_assoc. reflexivity.
Qed.
Lemma lines_rest acc S : line_text S -> stream_lines acc S = ([], acc ++ S).
Proof.
  revert acc; induction S as [|c S IH]; intros acc LT; cbn [stream_lines]; [rewrite app_nil_r; reflexivity|].
  inversion LT; subst. assert (Q : ((c =? 0) || (c =? 13) || (c =? 10))%N = false) by (apply is_eol_false in H1; exact H1). rewrite Q, (IH (acc ++ [c])) by assumption.
  rewrite <- app_assoc. reflexivity.
Qed.

Lemma lss_app env h a l1 h1 a1 l2 h2 a2 : lines_steps env h a l1 h1 a1 -> lines_steps env h1 a1 l2 h2 a2 -> lines_steps env h a (l1 ++ l2) h2 a2.
Proof. induction 1; [auto|]. intro. cbn [app]. econstructor; eauto. Qed.

(** Without a data callback the stream steps are line steps. *)
Lemma steps_lines env : (forall h, v_data (env h) = None) -> forall x y, stream_steps env x y ->
  forall h a S, x = (h, a, 0%nat, S) -> exists h' a' S' ls, y = (h', a', 0%nat, S') /\ lines_steps env h a ls h' a' /\
    stream_lines [] S = (ls ++ fst (stream_lines [] S'), snd (stream_lines [] S')).
Proof.
  intros ND. induction 1 as [x|x x1 y ST SS IH]; intros h a S ->.
  - exists h, a, S, []. split; [reflexivity|]. split; [constructor|]. destruct (stream_lines [] S); reflexivity.
  - inversion ST; subst.
    + destruct (IH _ _ _ eq_refl) as (h' & a' & S' & ls & -> & L & E). exists h', a', S', ls. split; [reflexivity|]. split; [exact L|].
      pose proof (lines_text [] [] c S0 (Forall_nil _) ltac:(assumption)) as Q. cbn [app] in Q. rewrite Q, E. reflexivity.
    + destruct (IH _ _ _ eq_refl) as (h' & a'' & S' & ls & -> & L & E). exists h', a'', S', (l :: ls). split; [reflexivity|]. split; [econstructor; eauto|].
      rewrite lines_text by assumption. cbn [app]. rewrite E. destruct l; [contradiction|reflexivity].
    + match goal with H : announces _ _ _ _ |- _ => destruct H as (f & Q & _) end. rewrite ND in Q. discriminate.
    + destruct p; [contradiction|discriminate].
Qed.

Section Text.
Variable cap : nat.
Lemma text_refines fuel env t cs t' h' s' : stream_env env -> (forall h, v_data (env 0%nat h) = None) -> run cap fuel env t [] (rx0 cap) cs t' h' s' ->
  ~ In EvDrop h' -> exists a', lines_steps (env 0%nat) [] [] (fst (stream_lines [] (concat cs))) h' a'.
Proof.
  intros HE NDT RUN ND. apply run_first in RUN; [|exact HE]. destruct RUN as [(h0 & a0 & l & e & S & x & -> & _)|(a' & lft & ST & SS)].
  - exfalso. apply ND, in_or_app. right. right. left. reflexivity.
  - destruct (steps_lines _ NDT _ _ SS _ _ _ eq_refl) as (h1 & a1 & S1 & ls & E & L & Q). injection E as E1 E2 E3 E4. subst h1 a1 S1. exists a'. rewrite Q. cbn [fst].
    assert (Z : fst (stream_lines [] lft) = []).
    { destruct ST as [[ST _]|[_ [ST|[_ [ST|ST]]]]]; [congruence|subst; reflexivity|rewrite lines_rest by exact ST; reflexivity|].
      destruct ST as (f & o & G & _). rewrite NDT in G. discriminate. }
    rewrite Z, app_nil_r. exact L.
Qed.

(** From any state met on the way the rest of the execution continues. *)
Lemma steps_between env x y z : stream_steps env x y -> stream_steps env x z -> normal env z -> stream_steps env y z.
Proof.
  induction 1 as [x|x x1 y S SS IH]; intros B NZ; [exact B|].
  inversion B; subst; [exfalso; eapply NZ; eauto|]. match goal with H1 : stream_step env x ?q |- _ => assert (q = x1) by (eapply stream_step_det; eauto); subst end. auto.
Qed.
Lemma payload_refines fuel env t cs t' h' s' h a l e gap pl post : stream_env env -> run cap fuel env t [] (rx0 cap) cs t' h' s' ->
  l <> [] -> line_text l -> eol e ->
  stream_steps (env 0%nat) ([], [], 0%nat, concat cs) (h, a, 0%nat, (l ++ e :: gap) ++ pl ++ post) ->
  announces (env 0%nat h) ((l ++ e :: gap) ++ pl ++ post) (length (l ++ e :: gap)) (length pl) ->
  halted (env 0%nat) (h, a ++ [l; pl], 0%nat, post) h' \/
  exists a' lft', settled (env 0%nat h') (rx_dlen s') lft' /\ stream_steps (env 0%nat) (h, a ++ [l; pl], 0%nat, post) (h', a', rx_dlen s', lft').
Proof.
  intros HE RUN LN LT EE SS AN. apply run_first in RUN; [|exact HE].
  assert (PN : pl <> []) by (destruct AN as (_ & _ & _ & Q); intro Z; subst; apply Q; reflexivity).
  assert (S2 : stream_steps (env 0%nat) ([], [], 0%nat, concat cs) (h, a ++ [l; pl], 0%nat, post)).
  { eapply steps_trans; [exact SS|]. 
    replace (a ++ [l; pl]) with ((a ++ [l]) ++ [pl]) by (rewrite <- app_assoc; reflexivity).
    econstructor; [|apply steps_one; apply ss_payload; exact PN].
    replace (pl ++ post) with (skipn (length (l ++ e :: gap)) ((l ++ e :: gap) ++ pl ++ post)) at 2.
    - replace ((l ++ e :: gap) ++ pl ++ post) with (l ++ e :: (gap ++ pl ++ post)) in * by (rewrite <- app_assoc; reflexivity).
      apply ss_announce; assumption.
    - rewrite skipn_app, skipn_all, Nat.sub_diag. reflexivity. }
  destruct RUN as [(h0 & a0 & l0 & e0 & S & x & -> & LN0 & LT0 & EE0 & RJ & ND & SX)|(a' & lft & ST & SX)].
  - left. exists h0, a0, l0, e0, S, x. repeat (split; [assumption || reflexivity|]). eapply steps_between; [exact S2|exact SX|]. apply rejects_normal; assumption.
  - right. exists a', lft. split; [exact ST|]. eapply steps_between; [exact S2|exact SX|]. apply settled_normal. exact ST.
Qed.
End Text.

(** ** A complete multi-line response with URCs in between *)
Lemma urc_not_command v l : line_is_urc (v_tokens v) (v_cmd v) (v_prefix v) l -> line_of_command (v_tokens v) (v_cmd v) (v_prefix v) l -> False.
Proof. intros [A|[A [B|B]]] (C & D & E); auto. Qed.
Lemma response_collect v env ls us ps final (ok : bool) : sorted_out v ls us ps ->
  line_of_command (v_tokens v) (v_cmd v) (v_prefix v) final -> (if ok then success_line (v_tokens v) final else error_line (v_tokens v) final) ->
  forall h a h' a', multi_line_type (v_cmd v) \/ single_line_type (v_cmd v) /\ (length (a ++ ps) <= 1)%nat -> (forall us1, env (h ++ map EvUrc us1) = v) -> lines_steps env h a (ls ++ [final]) h' a' ->
  h' = h ++ map EvUrc us ++ [EvResp ok (a ++ ps)] /\ a' = [].
Proof.
  intros SO FC FS. induction SO as [|l ls us ps U SO IH|l ls us ps C P SO IH]; intros h a h' a' MT HV LS; inversion LS; subst.
  - match goal with H : lines_steps _ _ _ [] _ _ |- _ => inversion H; subst end.
    assert (EV : env h = v) by (specialize (HV []); cbn in HV; rewrite app_nil_r in HV; exact HV). rewrite EV in *.
    assert (D : line_step v a final [EvResp ok a] []) by (destruct ok; [apply ls_success|apply ls_error]; assumption).
    match goal with H : line_step v a final ?x ?y |- _ => destruct (line_step_det _ _ _ _ _ _ _ H D) as [-> ->] end. rewrite app_nil_r. auto.
  - assert (EV : env h = v) by (specialize (HV []); cbn in HV; rewrite app_nil_r in HV; exact HV). rewrite EV in *.
    assert (D : line_step v a l [EvUrc l] a) by (apply ls_urc; exact U).
    match goal with H : line_step v a l ?x ?y |- _ => destruct (line_step_det _ _ _ _ _ _ _ H D) as [-> ->] end.
    match goal with H : lines_steps _ _ _ (ls ++ [final]) _ _ |- _ => apply IH in H; [destruct H as [-> ->]| |] end.
    + rewrite <- app_assoc. auto.
    + exact MT.
    + intro us1. rewrite <- app_assoc. apply (HV (l :: us1)).
  - assert (EV : env h = v) by (specialize (HV []); cbn in HV; rewrite app_nil_r in HV; exact HV). rewrite EV in *.
    assert (D : line_step v a l [] (a ++ [l])).
    { destruct MT as [MT|[MT LE]]; [apply ls_multi; assumption|]. destruct a; [apply ls_single; auto|]. rewrite app_length in LE. cbn [length] in LE. lia. }
    match goal with H : line_step v a l ?x ?y |- _ => destruct (line_step_det _ _ _ _ _ _ _ H D) as [-> ->] end.
    assert (MT' : multi_line_type (v_cmd v) \/ single_line_type (v_cmd v) /\ (length ((a ++ [l]) ++ ps) <= 1)%nat) by (rewrite <- app_assoc; exact MT).
    match goal with H : lines_steps _ _ _ (ls ++ [final]) _ _ |- _ => rewrite app_nil_r in H; destruct (IH _ _ _ _ MT' HV H) as [-> ->] end.
    rewrite <- app_assoc. auto.
Qed.

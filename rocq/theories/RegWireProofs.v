(** Proofs: registration reports from bytes to events. *)
From Coq Require Import String List NArith ZArith Bool Arith Lia.
From Verif Require Import Bytes AtCore AtMem Status SpecAt AtProofs Pktio SpecPktio PktioLine PktHandler SpecUrc UrcProofs RegStatus SpecReg RegProofs SpecStream G3pp Wire SpecWire SpecTimed PktioTimed RegWire SpecRegWire.
Import ListNotations.
Local Open Scope list_scope.

Lemma capped_text cap : forall S acc, line_text acc -> Forall line_text (fst (capped_lines cap acc S)) /\ line_text (snd (capped_lines cap acc S)).
Proof.
  induction S as [|c S IH]; intros acc HA; cbn [capped_lines]; [split; [constructor|exact HA]|].
  destruct ((c =? 0)%N || (c =? 13)%N || (c =? 10)%N) eqn:E.
  - specialize (IH [] (Forall_nil _)). destruct (capped_lines cap [] S) as [ls r]. cbn [fst snd] in *. destruct IH as [A B]. split; [|exact B].
    destruct acc; [exact A|constructor; [exact HA|exact A]].
  - destruct (length (acc ++ [c]) =? cap)%nat; [apply IH; constructor|]. apply IH. apply Forall_app. split; [exact HA|]. constructor; [|constructor].
    intros [Q|[Q|Q]]; subst c; discriminate.
Qed.
Lemma text_no_nul l : line_text l -> no_nul l.
Proof. intros H I. unfold line_text in H. rewrite Forall_forall in H. apply (H _ I). left. reflexivity. Qed.

Section Proofs.
Variables (bits : Z) (alloc : nat -> option (list N)) (tbl : list urc_entry) (who : nat -> option reg_type) (cb : bool).
Hypothesis HB : (32 <= bits)%Z.
Hypothesis HI : increasing (map fst tbl).
Hypothesis HA : alloc_ok alloc.
Hypothesis HM : memory_available alloc.
Hypothesis HT : reg_table tbl who.
Notation event1 := (urc_event bits alloc tbl who cb).
Notation events := (urc_events bits alloc tbl who cb).

Lemma events_app h1 : forall h2 d d1 t1 d2 t2, events h1 d = Ok (d1, t1) -> events h2 d1 = Ok (d2, t2) -> events (h1 ++ h2) d = Ok (d2, t1 ++ t2).
Proof.
  induction h1 as [|e h1 IH]; intros h2 d d1 t1 d2 t2 E1 E2; cbn [app urc_events] in *.
  - injection E1 as <- <-. exact E2.
  - destruct (event1 e d) as [[dx tx]| |]; try discriminate. cbn [bind fst snd] in *.
    destruct (events h1 dx) as [[dy ty]| |] eqn:EY; try discriminate. cbn [bind fst snd] in *. injection E1 as <- <-.
    rewrite (IH h2 dx dy ty d2 t2 EY E2). cbn [bind fst snd]. rewrite app_assoc. reflexivity.
Qed.
Lemma told_app a b : reg_told (a ++ b) = reg_told a ++ reg_told b.
Proof. induction a as [|[e|h x|x] a IH]; cbn; rewrite ?IH; reflexivity. Qed.
Lemma told_reg ev : reg_told (map ToldReg ev) = ev.
Proof. induction ev as [|e ev IH]; cbn; rewrite ?IH; reflexivity. Qed.

Lemma reg_name_chars rt : rt <> REG_UNKNOWN -> reg_name rt <> [] /\ Forall prefix_char (reg_name rt).
Proof. intro H. destruct rt; try (contradiction H; reflexivity); (split; [discriminate|]); (repeat (apply Forall_cons; [unfold prefix_char; cbn; lia|]); apply Forall_nil). Qed.

Lemma memory l : at_len_ok l -> exists x, alloc (length l + 1) = Some x.
Proof. intros [_ L]. destruct (alloc (length l + 1)) eqn:E; [eauto|]. exfalso. apply (HM (length l + 1)); [lia|exact E]. Qed.

Lemma reg_event_ok rt l vs d : reg_urc rt l vs -> no_nul l ->
  exists tl, event1 (EvUrc l) d = Ok (recorded rt vs d, tl) /\ reg_told tl = due_events cb rt d (recorded rt vs d).
Proof.
  intros (HR & HL & payload & ts & extra & -> & RL & FT & TN & EX) NN. destruct (reg_name_chars rt HR) as [N1 N2]. destruct (memory _ HL) as (x & X).
  destruct (proj1 HT rt HR) as (h & IH & WH).
  pose proof (proj1 (urc_dispatch alloc tbl [] [] (reg_name rt) payload x HI HA NN HL N1 N2 X) h IH) as E.
  unfold urc_event. change (length (@nil N)) with 0%nat in E. rewrite E. cbn [bind snd urc_effects urc_effect_step]. rewrite WH.
  unfold UrcProcessReg. rewrite (parse_good bits cb rt true payload [] ts vs extra d HB HR leading_urc RL FT TN EX). cbn [bind fst snd].
  eexists. split; [reflexivity|]. rewrite app_nil_r, told_reg. reflexivity.
Qed.
Lemma other_event_ok l d : other_line l -> no_nul l -> exists tl, event1 (EvUrc l) d = Ok (d, tl) /\ reg_told tl = [].
Proof.
  intros OL NN. unfold urc_event.
  assert (DEC : at_len_ok l \/ ~ at_len_ok l).
  { unfold at_len_ok. destruct l as [|c r]; [right; intros [Q _]; apply Q; reflexivity|]. destruct (N.leb_spec (N.of_nat (length (c :: r))) 256); [left; split; [discriminate|assumption]|right; lia]. }
  destruct DEC as [HL|HL].
  2:{ pose proof (urc_dropped alloc tbl [] [] l HA NN (or_introl HL)) as E. change (length (@nil N)) with 0%nat in E. rewrite E. cbn. eauto. }
  destruct OL as [OL|OL]; [contradiction|]. destruct (memory _ HL) as (x & X).
  assert (PF : {prefix_form l} + {~ prefix_form l}).
  { destruct (wp l) eqn:W; [left; apply wp_iff in W; apply W|right; intro P; assert (Q : wp l = true) by (apply wp_iff; split; assumption); congruence]. }
  assert (LOOK : forall name, (exists h, In (name, Some h) tbl) \/ In (name, None) tbl \/ (forall h, ~ In (name, h) tbl)).
  { clear. intro name. induction tbl as [|[n0 h0] t IH]; [right; right; intros h []|].
    destruct (list_eq_dec N.eq_dec n0 name) as [->|NE].
    - destruct h0 as [h0|]; [left; exists h0; left; reflexivity|right; left; left; reflexivity].
    - destruct IH as [(h & I)|[I|I]]; [left; exists h; right; exact I|right; left; right; exact I|right; right; intros h [Q|Q]; [injection Q as -> _; apply NE; reflexivity|exact (I h Q)]]. }
  assert (HAND : forall name h text, In (name, Some h) tbl -> (forall rt, rt <> REG_UNKNOWN -> name <> reg_name rt) -> exists tl, urc_effects bits who cb [CallHandler h text] d = Ok (d, tl) /\ reg_told tl = []).
  { intros name h text IN NE. cbn [urc_effects urc_effect_step]. destruct (who h) as [rt|] eqn:WH.
    - exfalso. destruct (proj2 HT name h rt IN WH) as [RU Q]. exact (NE rt RU Q).
    - cbn. eauto. }
  destruct PF as [(w & rest & -> & FW)|NP].
  - assert (WN : w <> []) by (intros ->; apply (proj2 (proj2 (OL REG_CREG rest ltac:(discriminate)))); reflexivity).
    destruct (urc_dispatch alloc tbl [] [] w rest x HI HA NN HL WN FW X) as (C1 & C2 & C3). change (length (@nil N)) with 0%nat in *.
    destruct (LOOK w) as [(h & I)|[I|I]].
    + rewrite (C1 h I). cbn [bind snd]. apply (HAND w h rest I). intros rt RU Q. apply (proj1 (OL rt rest RU)). rewrite Q. reflexivity.
    + rewrite (C2 I). cbn. eauto.
    + rewrite (C3 I). cbn. eauto.
  - destruct (urc_no_prefix alloc tbl [] [] l x HI HA NN HL NP X) as (C1 & C2 & C3). change (length (@nil N)) with 0%nat in *.
    destruct (LOOK l) as [(h & I)|[I|I]].
    + rewrite (C1 h I). cbn [bind snd]. apply (HAND l h l I). intros rt RU Q. apply (proj1 (proj2 (OL rt [] RU))). exact Q.
    + rewrite (C2 I). cbn. eauto.
    + rewrite (C3 I). cbn. eauto.
Qed.

Variables (cap : nat) (env : environment).
Hypothesis HQ : no_reg_query env.

Lemma reg_prefixed rt l vs : reg_urc rt l vs -> prefixed l.
Proof. intros (HR & HL & payload & _ & _ & -> & _). split; [exact HL|]. exists (reg_name rt), payload. split; [reflexivity|apply reg_name_chars, HR]. Qed.
Lemma reg_not_of_command t h rt l vs : reg_urc rt l vs -> ~ line_of_command (v_tokens (env t h)) (v_cmd (env t h)) (v_prefix (env t h)) l.
Proof.
  intros R (_ & C & P). specialize (P (reg_prefixed _ _ _ R)). destruct R as (HR & HL & payload & _ & _ & -> & _).
  destruct (HQ t h rt payload HR) as [Q|Q]; contradiction.
Qed.

Lemma line_told t h a l ev a1 rest d d' evs : line_step (env t h) a l ev a1 -> line_text l -> story cb d (l :: rest) d' evs ->
  exists d1 tl evs1, events ev d = Ok (d1, tl) /\ story cb d1 rest d' evs1 /\ evs = reg_told tl ++ evs1.
Proof.
  intros LS LT ST. apply text_no_nul in LT. inversion ST as [|? rt ? vs ? ? evs1 R S1|? ? ? ? ? OL S1]; subst.
  - inversion LS as [|C|C|C|C|C|[C|[C _]]]; subst; try (exfalso; exact (reg_not_of_command _ _ _ _ _ R C)).
    + destruct (reg_event_ok rt l vs d R LT) as (tl & E & T). exists (recorded rt vs d), tl, evs1. cbn [urc_events]. rewrite E. cbn [bind fst snd]. rewrite app_nil_r. split; [reflexivity|]. split; [exact S1|]. rewrite T. reflexivity.
    + exfalso. apply (proj2 (proj2 C)). exact (reg_prefixed _ _ _ R).
  - assert (DONE : (exists tl, events ev d = Ok (d, tl) /\ reg_told tl = []) -> exists d1 tl evs1, events ev d = Ok (d1, tl) /\ story cb d1 rest d' evs1 /\ evs = reg_told tl ++ evs1).
    { intros (tl & E & T). exists d, tl, evs. rewrite T. auto. }
    apply DONE. inversion LS; subst; try (exists []; split; reflexivity).
    destruct (other_event_ok l d OL LT) as (tl & E & T). exists tl. cbn [urc_events]. rewrite E. cbn [bind fst snd]. rewrite app_nil_r. auto.
Qed.
Lemma lines_told ls : forall h a h1 a1, dispatched env h a ls h1 a1 -> Forall line_text (map snd ls) ->
  exists x, h1 = h ++ x /\ forall more d d' evs, story cb d (map snd ls ++ more) d' evs ->
    exists d1 tl evs1, events x d = Ok (d1, tl) /\ story cb d1 more d' evs1 /\ evs = reg_told tl ++ evs1.
Proof.
  intros h a h1 a1 D. induction D as [h a|h a t l ev a1 ls h' a' LS D IH]; intro LT.
  - exists []. split; [rewrite app_nil_r; reflexivity|]. intros more d d' evs ST. exists d, [], evs. auto.
  - inversion LT as [|? ? LT1 LT2]; subst. destruct (IH LT2) as (x & -> & K). exists (ev ++ x). split; [rewrite app_assoc; reflexivity|].
    intros more d d' evs ST. cbn [map app] in ST. destruct (line_told _ _ _ _ _ _ _ _ _ _ LS LT1 ST) as (d1 & tl & evs1 & E1 & S1 & ->).
    destruct (K more d1 d' evs1 S1) as (d2 & tl2 & evs2 & E2 & S2 & ->). exists d2, (tl ++ tl2), evs2. split; [exact (events_app _ _ _ _ _ _ _ E1 E2)|].
    split; [exact S2|]. rewrite told_app, app_assoc. reflexivity.
Qed.

Lemma chunks_told t h a lft cs t' h' : text_processed cap env t h a lft cs t' h' -> line_text lft ->
  exists x kept, h' = h ++ x /\ survive cap lft cs kept /\ (~ In EvDrop x -> kept = fst (capped_lines cap lft (concat cs))) /\
    forall d d' evs, story cb d kept d' evs -> exists tl, events x d = Ok (d', tl) /\ reg_told tl = evs.
Proof.
  induction 1 as [t h a lft t' L|t h a lft c cs ls lft' t1 h1 a1 t' h' CL IO DP TP IH|t h a lft c cs ls k l rest t1 h1 a1 t' h' CL IO KT DP RJ TP IH]; intro HL.
  - exists [], []. split; [rewrite app_nil_r; reflexivity|]. split; [constructor|]. split; [reflexivity|]. intros d d' evs ST. inversion ST; subst. exists []. auto.
  - destruct (capped_text cap c lft HL) as [T1 T2]. rewrite CL in T1, T2. cbn [fst snd] in T1, T2.
    destruct (lines_told ls _ _ _ _ DP T1) as (x1 & -> & K1). destruct (IH T2) as (x2 & kept & -> & SV & KE & K2).
    exists (x1 ++ x2), (map snd ls ++ kept). split; [rewrite app_assoc; reflexivity|]. split; [econstructor; eassumption|]. split.
    + intro ND. cbn [concat]. rewrite capped_app, CL. cbn [fst snd]. rewrite <- KE; [reflexivity|]. intro I. apply ND, in_or_app. right. exact I.
    + intros d d' evs ST. destruct (K1 _ _ _ _ ST) as (d1 & tl & evs1 & E1 & S1 & ->). destruct (K2 _ _ _ S1) as (tl2 & E2 & <-).
      exists (tl ++ tl2). split; [exact (events_app _ _ _ _ _ _ _ E1 E2)|apply told_app].
  - destruct (capped_text cap c lft HL) as [T1 T2]. rewrite CL in T1. apply Forall_app in T1. destruct T1 as [TA TB]. inversion TB as [|? ? TL TR]; subst.
    destruct (lines_told ls _ _ _ _ DP TA) as (x1 & -> & K1). destruct (IH (Forall_nil _)) as (x2 & kept & -> & SV & _ & K2).
    exists (x1 ++ [EvUndef l; EvDrop] ++ x2), (map snd ls ++ l :: kept). split; [rewrite !app_assoc; reflexivity|]. split; [econstructor; eassumption|]. split.
    + intro ND. exfalso. apply ND, in_or_app. right. right. left. reflexivity.
    + intros d d' evs ST. destruct (K1 _ _ _ _ ST) as (d1 & tl & evs1 & E1 & S1 & ->).
      inversion S1 as [|? rt ? vs ? ? evs2 R S2|? ? ? ? ? OL S2]; subst.
      * exfalso. destruct RJ as [[C|[C _]] _]; [apply (proj2 (proj2 C)); exact (reg_prefixed _ _ _ R)|exact (reg_not_of_command _ _ _ _ _ R C)].
      * destruct (K2 _ _ _ S2) as (tl2 & E2 & <-). exists (tl ++ tl2). split; [|apply told_app].
        apply (events_app _ _ _ _ _ _ _ E1). cbn [app urc_events urc_event bind fst snd]. rewrite E2. reflexivity.
Qed.
End Proofs.

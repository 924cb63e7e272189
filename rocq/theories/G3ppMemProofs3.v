(** From the region of one line to all response lines. *)
From Coq Require Import String List NArith ZArith Bool Arith Lia.
From Verif Require Import Bytes AtCore AtMem SpecAt AtProofs Status Pktio SendCmd Socket RegStatus G3pp G3ppMem SpecMem G3ppMemProofs G3ppMemProofs2.
Import ListNotations.
Local Open Scope nat_scope.

Lemma cstr_frame m m' p s : cstr_get m p = Some s -> (forall i, p <= i <= p + length s -> nth_error m' i = nth_error m i) -> cstr_get m' p = Some s.
Proof.
  intros H F. apply cstr_inv in H as (pre & post & -> & <- & Hn). unfold cstr_get.
  revert pre F; induction s as [|c s IH]; intros pre F.
  - specialize (F (length pre) ltac:(cbn; lia)). unfold obj in F. rewrite (nth_error_app2 pre) in F by lia. rewrite Nat.sub_diag in F. cbn in F.
    destruct (nth_error_split m' (length pre) F) as (a & b & -> & <-). rewrite skipn_app, skipn_all, Nat.sub_diag. reflexivity.
  - apply no_nul_cons in Hn as [Hc Hn]. rewrite obj_cons in F.
    assert (K : cstr_list (skipn (length (pre ++ [c])) m') = Some s).
    { apply IH; [exact Hn|]. intros i Hi. apply F. rewrite app_length in Hi. cbn in *. lia. }
    specialize (F (length pre) ltac:(cbn; lia)). unfold obj in F. rewrite <- app_assoc, (nth_error_app2 pre) in F by lia. rewrite Nat.sub_diag in F. cbn in F.
    destruct (nth_error_split m' (length pre) F) as (a & b & -> & La). rewrite <- La. rewrite skipn_app, skipn_all, Nat.sub_diag. cbn [skipn app cstr_list].
    destruct (N.eqb_spec c 0); [congruence|].
    assert (Eb : skipn (length (pre ++ [c])) (a ++ c :: b) = b).
    { rewrite app_length, <- La. cbn [length]. rewrite skipn_app. replace (length a + 1 - length a) with 1 by lia. rewrite skipn_all2 by lia. reflexivity. }
    rewrite Eb in K. now rewrite K.
Qed.

(** The region of one line. *)
Lemma line_text m p s : cstr_get m p = Some s -> text p (p + length s) m p s /\ nth_error m (p + length s) = Some 0%N.
Proof.
  intros H. split; [split; [exact H|lia]|]. apply cstr_inv in H as (pre & post & -> & <- & _). unfold obj. rewrite app_assoc, <- app_length, nth_error_app2 by lia.
  now rewrite Nat.sub_diag.
Qed.
Lemma stored_head m p ps s ls : stored m (p :: ps) (s :: ls) -> text p (p + length s) m p s /\ nth_error m (p + length s) = Some 0%N.
Proof. intros [F _]. inversion F; subst. now apply line_text. Qed.
Lemma region_does {A} (x : res (A * list N)) m y p s ps ls :
  doesR p (p + length s) x m y -> does x m (in_lines (p :: ps) (s :: ls)) y.
Proof.
  intros H. destruct y; auto. destruct H as (m' & E & [C _]). exists m'. split; [exact E|]. eapply ch_weaken; [|exact C].
  intros i Hi. exists p, s. split; [left; reflexivity|exact Hi].
Qed.
Lemma stored_rest m m' p ps s ls : stored m (p :: ps) (s :: ls) -> only_changed (inside p (p + length s)) m m' -> stored m' ps ls.
Proof.
  intros [F D] [_ C]. inversion F as [|? ? ? ? Hp Fr]; subst. cbn [combine] in D. inversion D as [|? ? Da Dr]; subst. split; [|exact Dr].
  clear F D Dr Hp. revert Fr Da. intros Fr. induction Fr as [|p2 s2 ps2 ls2 H2 Fr IH]; intros Da; [constructor|].
  cbn [combine] in Da. inversion Da as [|? ? A1 A2]; subst. constructor; [|now apply IH].
  eapply cstr_frame; [exact H2|]. intros i Hi. apply C. unfold inside. unfold apart in A1. cbn in A1. lia.
Qed.
Lemma stored_nil m ps : stored m ps [] -> ps = [].
Proof. intros [F _]. now inversion F. Qed.
Lemma stored_cons m ps s ls : stored m ps (s :: ls) -> exists p ps', ps = p :: ps'.
Proof. intros [F _]. inversion F; subst; eauto. Qed.

Section Lift.
Context {A : Type} (cbm : list N -> list nat -> A -> res (pkt_status * A * list N)) (cb : list str -> A -> res (pkt_status * A)) (bad : pkt_status).
Lemma lift m ps ls o :
  (forall m o, cbm m [] o = Ok (bad, o, m)) -> (forall o, cb [] o = Ok (bad, o)) ->
  (forall m p ps o, cbm m (p :: ps) o = cbm m [p] o) -> (forall s ls o, cb (s :: ls) o = cb [s] o) ->
  (forall lo hi m a s o, text lo hi m a s -> doesR lo hi (cbm m [a] o) m (cb [s] o)) ->
  stored m ps ls -> does (cbm m ps o) m (in_lines ps ls) (cb ls o).
Proof.
  intros B1 B2 F1 F2 H S. destruct ls as [|s ls].
  - rewrite (stored_nil _ _ S), B1, B2. exists m. split; [reflexivity|apply ch_refl].
  - destruct (stored_cons _ _ _ _ S) as (p & ps' & ->). rewrite F1, F2. apply region_does, H. apply (stored_head _ _ _ _ _ S).
Qed.
End Lift.

Lemma eidrx_lines_does bits : forall ls ps m count e (R : nat -> Prop), stored m ps ls -> (forall i, in_lines ps ls i -> R i) ->
  does (eidrx_lines_m bits m ps count e) m R (eidrx_lines bits ls count e).
Proof.
  induction ls as [|s ls IH]; intros ps m count e R S HR.
  - rewrite (stored_nil _ _ S). exists m. split; [reflexivity|apply ch_refl].
  - destruct (stored_cons _ _ _ _ S) as (p & ps' & ->). cbn [eidrx_lines_m eidrx_lines].
    destruct (stored_head _ _ _ _ _ S) as [T _]. rewrite (pRead_ok _ _ _ _ _ T). cbn [bind].
    assert (HR2 : forall i, in_lines ps' ls i -> R i).
    { intros i (q & u & Hin & Ht). apply HR. exists q, u. split; [right; exact Hin|exact Ht]. }
    assert (HR1 : forall i, inside p (p + length s) i -> R i).
    { intros i Hi. apply HR. exists p, s. split; [left; reflexivity|exact Hi]. }
    destruct (str_eqb (s2b "+CEDRXS: 0") s || str_eqb (s2b "+CEDRXS:") s).
    + apply IH; [|exact HR2]. eapply stored_rest; [exact S|apply ch_refl].
    + pose proof (eidrx_line_doesR _ _ bits m p s count (e_list e) T) as H. unfold doesR in H.
      destruct (parseEidrxLine bits s count (e_list e)) as [[a l']| |]; cbn [bind]; [|rewrite H; reflexivity|rewrite H; reflexivity].
      destruct H as (m' & -> & [C _]). cbn [bind].
      assert (CR : only_changed R m m') by (eapply ch_weaken; [exact HR1|exact C]).
      destruct (TranslateAtCoreStatus a); try (exists m'; split; [reflexivity|exact CR]).
      pose proof (IH ps' m' ((count + 1) mod 256)%N {| e_list := l'; e_count := ((count + 1) mod 256)%N |} R (stored_rest _ _ _ _ _ _ S C) HR2) as G.
      unfold does in *. destruct (eidrx_lines bits ls _ _); auto. destruct G as (m2 & -> & C2). exists m2. split; [reflexivity|]. eapply ch_trans; eauto.
Qed.

Lemma reg_lines_does bits cb rt : forall ls ps m d (R : nat -> Prop), stored m ps ls -> (forall i, in_lines ps ls i -> R i) ->
  does (RecvFuncGetNetworkReg_m bits cb m ps rt d) m R (RecvFuncGetNetworkReg bits cb ls rt d).
Proof.
  induction ls as [|s ls IH]; intros ps m d R S HR.
  - rewrite (stored_nil _ _ S). exists m. split; [reflexivity|apply ch_refl].
  - destruct (stored_cons _ _ _ _ S) as (p & ps' & ->). cbn [RecvFuncGetNetworkReg_m RecvFuncGetNetworkReg].
    destruct (stored_head _ _ _ _ _ S) as [T Z].
    assert (HR2 : forall i, in_lines ps' ls i -> R i).
    { intros i (q & u & Hin & Ht). apply HR. exists q, u. split; [right; exact Hin|exact Ht]. }
    assert (HR1 : forall i, inside p (p + length s) i -> R i).
    { intros i Hi. apply HR. exists p, s. split; [left; reflexivity|exact Hi]. }
    pose proof (reg_line_doesR _ _ bits cb m p s rt d T Z) as H. rewrite (isurc_m_eq _ _ m p s T) in *. cbn [bind] in *. unfold doesR in H.
    destruct (if regResponseIsUrc s
         then match ATRemovePrefix (Some s) with
              | (AT_SUCCESS, l') => ParseRegStatus bits cb l' true rt d
              | (e, _) => Ok (TranslateAtCoreStatus e, d, [])
              end
         else ParseRegStatus bits cb (Some s) false rt d) as [[[st d'] ev]| |]; cbn [bind]; [|rewrite H; reflexivity|rewrite H; reflexivity].
    destruct H as (m' & -> & [C _]). cbn [bind].
    assert (CR : only_changed R m m') by (eapply ch_weaken; [exact HR1|exact C]).
    destruct st; try (exists m'; split; [reflexivity|exact CR]).
    pose proof (IH ps' m' d' R (stored_rest _ _ _ _ _ _ S C) HR2) as G. unfold does in *.
    destruct (RecvFuncGetNetworkReg bits cb ls rt d') as [[[st2 d2] ev2]| |]; cbn [bind]; [|rewrite G; reflexivity|rewrite G; reflexivity].
    destruct G as (m2 & -> & C2). cbn [bind]. exists m2. split; [reflexivity|]. eapply ch_trans; eauto.
Qed.

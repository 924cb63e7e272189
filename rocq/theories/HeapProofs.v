(** Lemmas for C89-C91. *)
From Coq Require Import List NArith ZArith Bool Arith Lia.
From Verif Require Import Bytes AtCore Status Pktio SpecPktio SpecStream Heap SpecHeap.
Import ListNotations.

Lemma upd_same h p c : upd h p c p = c.
Proof. cbn. rewrite Nat.eqb_refl. reflexivity. Qed.
Lemma upd_other h p c q : q <> p -> upd h p c q = h q.
Proof. intro D. cbn. apply Nat.eqb_neq in D. rewrite D. reflexivity. Qed.

Arguments upd : simpl never.
Lemma rb_some x : x <> COther -> receiver_block (Some x).
Proof. intro D. exists x. auto. Qed.
Lemma rb_none : ~ receiver_block None.
Proof. intros (x & E & _). discriminate. Qed.

(** The list [is] hangs at [p], in the blocks [qs]. *)
Fixpoint chain (h : heap) (p : address) (is : list item) (qs : list address) : Prop :=
  match is, qs with
  | [], [] => p = 0
  | i :: is', q :: qs' => p = q /\ q <> 0 /\ exists nx, h q = Some (CLine i nx) /\ chain h nx is' qs'
  | _, _ => False
  end.
Lemma chain_frame (h h' : heap) : forall is qs p, (forall q, In q qs -> h' q = h q) -> chain h p is qs -> chain h' p is qs.
Proof.
  induction is as [|i is IH]; intros [|q qs] p F C; cbn in *; auto.
  destruct C as (-> & NZ & nx & E & C). split; [reflexivity|]. split; [exact NZ|]. exists nx. split; [rewrite F by auto; exact E|]. apply IH; auto.
Qed.
Lemma chain_length h : forall is qs p, chain h p is qs -> length qs = length is.
Proof. induction is as [|i is IH]; intros [|q qs] p C; cbn in *; try contradiction; auto. destruct C as (_ & _ & nx & _ & C). f_equal. eauto. Qed.
Lemma chain_cells (h : heap) : forall is qs p, chain h p is qs -> forall q, In q qs -> exists i nx, h q = Some (CLine i nx).
Proof.
  induction is as [|i is IH]; intros [|q qs] p C x I; cbn in *; try contradiction. destruct C as (_ & _ & nx & E & C).
  destruct I as [<-|I]; [eauto|eapply IH; eauto].
Qed.
Lemma chain_nil h is qs : chain h 0 is qs -> is = [] /\ qs = [].
Proof. destruct is, qs; cbn; auto; try tauto. intros (A & B & _). congruence. Qed.

Definition hwf (h : heap) : Prop := h 0 = None /\ finite h.
Lemma hwf_upd h p c : hwf h -> p <> 0 -> hwf (upd h p c).
Proof.
  intros [Z F] NZ. split; [rewrite upd_other by auto; exact Z|]. intros q L. change (top (upd h p c)) with (Nat.max (top h) (S p)) in L. rewrite upd_other by lia. apply F. lia.
Qed.

Lemma append_wf new : forall k h p h', h_append k h p new = HOk h' -> hwf h -> hwf h'.
Proof.
  induction k as [|k IH]; intros h p h' E W; [discriminate|]. cbn [h_append] in E. destruct (h p) as [[| i nx | |]|] eqn:EP; try discriminate.
  destruct (nx =? 0); [|eapply IH; eassumption]. injection E as <-. apply hwf_upd; [exact W|]. intros ->. destruct W. congruence.
Qed.
Lemma free_lines_wf : forall k h p h', h_free_lines k h p = HOk h' -> hwf h -> hwf h'.
Proof.
  induction k as [|k IH]; intros h p h' E W; [discriminate|]. cbn [h_free_lines] in E. destruct (Nat.eqb_spec p 0) as [->|NZ]; [injection E as <-; exact W|].
  destruct (h p) as [[| i nx | |]|] eqn:EP; try discriminate. unfold h_free in E. rewrite EP in E. cbn [hbind] in E. eapply IH; [exact E|]. apply hwf_upd; assumption.
Qed.

(** State of the heap: the response [ro] hangs at [p], and nothing else belongs to the receive path. *)
Definition hinv (h : heap) (p : address) (ro : option response) : Prop :=
  hwf h /\
  match ro with
  | None => p = 0 /\ forall q, ~ receiver_block (h q)
  | Some r => exists itm qs, h p = Some (CResp (r_status r) itm) /\ chain h itm (r_items r) qs /\ NoDup (p :: qs) /\
                forall q, receiver_block (h q) <-> In q (p :: qs)
  end.

Lemma hinv_nz h p r : hinv h p (Some r) -> p <> 0.
Proof. intros ((Z & _) & itm & qs & E & _) ->. congruence. Qed.

Lemma holds_hinv h p ro : hinv h p ro -> holds h (blocks_of ro).
Proof.
  intros [Z I]. destruct ro as [r|].
  - destruct I as (itm & qs & E & C & ND & OW). exists (p :: qs). split; [exact ND|]. split; [cbn; rewrite (chain_length _ _ _ _ C); reflexivity|exact OW].
  - destruct I as (_ & NO). exists []. split; [constructor|]. split; [reflexivity|]. intro q. split; [intro R; destruct (NO q R)|intros []].
Qed.

Section S.
Variable cap : nat.
Variable asserts : bool.
Variable alloc : nat -> heap -> option address.
Variable others : nat -> heap -> heap.
Hypothesis AO : malloc_contract alloc.
Hypothesis OO : others_contract others.

Lemma others_inv t h p ro : hinv h p ro -> hinv (others t h) p ro.
Proof.
  intros [Z I]. destruct (OO t h) as (O0 & OF & O1). split; [split; [rewrite O0; exact (proj1 Z)|exact (OF (proj2 Z))]|]. destruct ro as [r|].
  - destruct I as (itm & qs & E & C & ND & OW). exists itm, qs.
    assert (K : forall q, In q (p :: qs) -> others t h q = h q) by (intros q I; apply O1; left; apply OW; exact I).
    split; [rewrite K by (left; reflexivity); exact E|]. split; [eapply chain_frame; [|exact C]; intros q I; apply K; right; exact I|]. split; [exact ND|].
    intro q. split.
    + intro R. apply OW. rewrite <- (O1 q (or_intror R)). exact R.
    + intro I. rewrite K by exact I. apply OW. exact I.
  - destruct I as (P & NO). split; [exact P|]. intros q R. apply (NO q). rewrite <- (O1 q (or_intror R)). exact R.
Qed.

(** Memory ran out. *)
Definition exhausted {A} (x : hres A) : Prop := x = out_of_memory asserts /\ exists t h, finite h /\ alloc t h = None.
Lemma exhausted_bind {A B} (x : hres A) (f : A -> hres B) : exhausted x -> exhausted (hbind x f).
Proof. intros [-> W]. split; [|exact W]. unfold out_of_memory. destruct asserts; reflexivity. Qed.

(** [f k] is, for all large [k], the outcome [a] satisfying [P], or memory ran out. *)
Definition turns_out {A} (f : nat -> hres A) (P : A -> Prop) : Prop :=
  exists r, eventually (fun k => f k = r) /\ (exhausted r \/ exists a, r = HOk a /\ P a).
Lemma to_ret {A} (a : A) (P : A -> Prop) : P a -> turns_out (fun _ => HOk a) P.
Proof. intro H. exists (HOk a). split; [exists 0; reflexivity|eauto]. Qed.
Lemma to_bind {A B} (f : nat -> hres A) (g : nat -> A -> hres B) P Q :
  turns_out f P -> (forall a, P a -> turns_out (fun k => g k a) Q) -> turns_out (fun k => hbind (f k) (g k)) Q.
Proof.
  intros (r & (k0 & E) & [X|(a & -> & PA)]) G.
  - exists (hbind r (g 0)). split; [|left; apply exhausted_bind; exact X]. exists k0. intros k L. rewrite (E k L). destruct X as [-> _]. unfold out_of_memory. destruct asserts; reflexivity.
  - destruct (G a PA) as (r & (k1 & E1) & R). exists r. split; [|exact R]. exists (max k0 k1). intros k L. rewrite (E k) by lia. cbn [hbind]. apply E1. lia.
Qed.
Lemma to_lift {A} (x : res A) a (P : A -> Prop) : x = Ok a -> P a -> turns_out (fun _ => lift x) P.
Proof. intros -> H. apply to_ret. exact H. Qed.
Lemma to_weak {A} (f : nat -> hres A) (P Q : A -> Prop) : turns_out f P -> (forall a, P a -> Q a) -> turns_out f Q.
Proof. intros (r & E & R) W. exists r. split; [exact E|]. destruct R as [X|(a & EQ & PA)]; [left; exact X|right; eauto]. Qed.
Lemma to_ext {A} (f g : nat -> hres A) P : (forall k, f k = g k) -> turns_out f P -> turns_out g P.
Proof. intros EQ (r & (k0 & E) & R). exists r. split; [|exact R]. exists k0. intros k L. rewrite <- EQ. auto. Qed.

(** *** Lists *)
Lemma append_ok : forall is qs h p new i, is <> [] -> chain h p is qs -> NoDup (new :: qs) -> new <> 0 -> h new = Some (CLine i 0) ->
  forall k, (length is <= k)%nat -> exists h', h_append k h p new = HOk h' /\ chain h' p (is ++ [i]) (qs ++ [new]) /\
    (forall q, ~ In q qs -> h' q = h q) /\ (forall q, In q qs -> receiver_block (h' q)).
Proof.
  induction is as [|a is IH]; intros qs h p new i NE C ND NZ HN k L; [congruence|]. destruct qs as [|q qs]; [destruct C|]. destruct C as (-> & QZ & nx & E & C).
  destruct k as [|k]; [cbn in L; lia|]. cbn [h_append]. rewrite E. inversion ND as [|? ? NI ND1]; subst. inversion ND1 as [|? ? NI1 ND2]; subst.
  assert (DQ : new <> q) by (intros ->; apply NI; left; reflexivity).
  destruct is as [|b is].
  - destruct qs; [|destruct C]. cbn in C. subst nx. cbn [Nat.eqb]. eexists. split; [reflexivity|]. split; [|split].
    + cbn. split; [reflexivity|]. split; [exact QZ|]. exists new. rewrite upd_same. split; [reflexivity|]. split; [reflexivity|]. split; [exact NZ|]. exists 0. rewrite upd_other by exact DQ. auto.
    + intros x I. apply upd_other. intros ->. apply I. left. reflexivity.
    + intros x [<-|[]]. rewrite upd_same. apply rb_some. discriminate.
  - assert (NXZ : nx <> 0) by (destruct qs; [destruct C|]; destruct C as (-> & ? & _); assumption).
    apply Nat.eqb_neq in NXZ. rewrite NXZ. destruct (IH qs h nx new i) with (k := k) as (h' & R & C' & F & RB); [discriminate|exact C| |exact NZ|exact HN|cbn in *; lia|].
    + constructor; [intro I; apply NI; right; exact I|exact ND2].
    + exists h'. split; [exact R|]. split; [|split].
      * cbn [app]. cbn [chain]. split; [reflexivity|]. split; [exact QZ|]. exists nx. split; [|exact C']. rewrite F by exact NI1. exact E.
      * intros x I. apply F. intro J. apply I. right. exact J.
      * intros x [<-|I]; [rewrite F by exact NI1; rewrite E; apply rb_some; discriminate|apply RB; exact I].
Qed.

Lemma free_lines_ok : forall is qs h p, chain h p is qs -> NoDup qs -> forall k, (length is < k)%nat ->
  exists h', h_free_lines k h p = HOk h' /\ (forall q, ~ In q qs -> h' q = h q) /\ (forall q, In q qs -> h' q = None).
Proof.
  induction is as [|a is IH]; intros [|q qs] h p C ND k L; cbn [chain] in C; try contradiction; (destruct k as [|k]; [cbn in L; lia|]).
  - subst p. exists h. split; [reflexivity|]. split; [reflexivity|intros ? []].
  - destruct C as (-> & NZ & nx & E & C). cbn [h_free_lines]. apply Nat.eqb_neq in NZ. rewrite NZ, E. unfold h_free. rewrite E. cbn [hbind].
    inversion ND as [|? ? NI ND1]; subst. destruct (IH qs (upd h q None) nx) with (k := k) as (h' & R & F & G).
    + eapply chain_frame; [|exact C]. intros x I. apply upd_other. intros ->. contradiction.
    + exact ND1.
    + cbn in L. lia.
    + exists h'. split; [exact R|]. split.
      * intros x I. rewrite F by (intro J; apply I; right; exact J). apply upd_other. intros ->. apply I. left. reflexivity.
      * intros x [<-|I]; [|apply G; exact I]. rewrite F by exact NI. apply upd_same.
Qed.
Lemma items_ok (h : heap) : forall is qs p, chain h p is qs -> forall k, (length is < k)%nat -> h_items k h p = HOk is.
Proof.
  induction is as [|a is IH]; intros [|q qs] p C k L; cbn [chain] in C; try contradiction; (destruct k as [|k]; [cbn in L; lia|]).
  - subst p. reflexivity.
  - destruct C as (-> & NZ & nx & E & C). cbn [h_items]. apply Nat.eqb_neq in NZ. rewrite NZ, E. rewrite (IH qs nx C) by (cbn in L; lia). reflexivity.
Qed.

(** *** The functions on the response *)
Lemma new_ok t h : hinv h 0 None -> turns_out (fun _ => h_AtResponseNew asserts alloc t h) (fun x => hinv (snd x) (fst x) (Some AtResponseNew)).
Proof.
  intros [Z [_ NO]]. unfold h_AtResponseNew. destruct (alloc t h) as [p|] eqn:A.
  - destruct (AO _ _ _ A) as [NZ FR]. apply to_ret. cbn [fst snd]. split; [apply hwf_upd; assumption|]. exists 0, []. rewrite upd_same. split; [reflexivity|].
    split; [reflexivity|]. split; [constructor; [intros []|constructor]|]. intro q. split.
    + intro R. destruct (Nat.eq_dec q p) as [->|D]; [left; reflexivity|]. rewrite upd_other in R by exact D. destruct (NO q R).
    + intros [<-|[]]. rewrite upd_same. apply rb_some. discriminate.
  - eexists. split; [exists 0; reflexivity|]. left. split; [reflexivity|]. exists t, h. split; [exact (proj2 Z)|exact A].
Qed.

Lemma free_ok h p ro : hinv h p ro -> turns_out (fun k => h_AtResponseFree k h p) (fun x => snd x = 0 /\ hinv (fst x) 0 None).
Proof.
  intros [Z I]. unfold h_AtResponseFree. destruct ro as [r|].
  - destruct I as (itm & qs & E & C & ND & OW). assert (NZ : p <> 0) by (intros ->; destruct Z; congruence). apply Nat.eqb_neq in NZ. rewrite NZ, E.
    inversion ND as [|? ? NI ND1]; subst. destruct (free_lines_ok _ _ _ _ C ND1 (S (length (r_items r))) ltac:(lia)) as (h' & R & F & G).
    exists (HOk (upd h' p None, 0)). split.
    + exists (S (length (r_items r))). intros k L. destruct (free_lines_ok _ _ _ _ C ND1 k ltac:(lia)) as (h2 & R2 & F2 & G2).
      assert (EQ : h_free_lines k h itm = HOk h') .
      { clear - C ND1 L R. revert h itm h' R C k L. revert qs ND1. induction (r_items r) as [|i is IH]; intros qs ND1 h itm h' R C k L.
        - destruct qs; [|destruct C]. cbn in C. subst. destruct k as [|k]; [lia|]. cbn in *. exact R.
        - destruct qs as [|q qs]; [destruct C|]. destruct C as (-> & NZ & nx & E & C). destruct k as [|k]; [lia|]. cbn [length] in *.
          cbn [h_free_lines] in *. apply Nat.eqb_neq in NZ. rewrite NZ, E in *. unfold h_free in *. rewrite E in *. cbn [hbind] in *. inversion ND1; subst.
          apply (IH qs); [assumption|exact R| |lia]. eapply chain_frame; [|exact C]. intros x I. apply upd_other. intros ->. contradiction. }
      rewrite EQ. cbn [hbind]. unfold h_free. rewrite F by exact NI. rewrite E. reflexivity.
    + right. eexists. split; [reflexivity|]. cbn [fst snd]. split; [reflexivity|]. split.
      * apply hwf_upd; [|apply Nat.eqb_neq; exact NZ]. eapply free_lines_wf; [exact R|exact Z].
      * split; [reflexivity|]. intros q RB. destruct (Nat.eq_dec q p) as [->|D]; [rewrite upd_same in RB; destruct (rb_none RB)|]. rewrite upd_other in RB by exact D.
        destruct (in_dec Nat.eq_dec q qs) as [I|I]; [rewrite G in RB by exact I; destruct (rb_none RB)|]. rewrite F in RB by exact I. apply OW in RB. destruct RB as [X|X]; [congruence|contradiction].
  - destruct I as (-> & NO). cbn. apply to_ret. cbn. split; [reflexivity|]. split; [exact Z|]. split; [reflexivity|exact NO].
Qed.

Lemma save_ok t h p r i : hinv h p (Some r) -> turns_out (fun k => h_saveData asserts alloc k t h p i) (fun h' => hinv h' p (Some (saveData r i))).
Proof.
  intros [Z (itm & qs & E & C & ND & OW)]. unfold h_saveData. destruct (alloc t h) as [new|] eqn:A.
  2: { eexists. split; [exists 0; reflexivity|]. left. split; [reflexivity|]. exists t, h. split; [exact (proj2 Z)|exact A]. }
  destruct (AO _ _ _ A) as [NZ FR].
  assert (NN : ~ In new (p :: qs)) by (intro I; apply OW in I; rewrite FR in I; destruct (rb_none I)).
  assert (DP : p <> new) by (intros ->; apply NN; left; reflexivity). rewrite upd_other by exact DP. rewrite E.
  inversion ND as [|? ? NI ND1]; subst.
  assert (CU : chain (upd h new (Some (CLine i 0))) itm (r_items r) qs).
  { eapply chain_frame; [|exact C]. intros q I. apply upd_other. intros ->. apply NN. right. exact I. }
  assert (PZ : p <> 0) by (intros ->; destruct Z; congruence).
  destruct (Nat.eqb_spec itm 0) as [->|IZ].
  - destruct (chain_nil _ _ _ C) as [EI ->]. apply to_ret. split; [apply hwf_upd; [apply hwf_upd; assumption|assumption]|]. exists new, [new]. rewrite upd_same. split; [reflexivity|].
    cbn [saveData r_items r_status]. rewrite EI. cbn [app]. split; [|split].
    + cbn. split; [reflexivity|]. split; [exact NZ|]. exists 0. rewrite upd_other by auto. rewrite upd_same. auto.
    + constructor; [intros [X|[]]; auto|constructor; [intros []|constructor]].
    + intro q. destruct (Nat.eq_dec q p) as [->|D1]; [rewrite upd_same; split; [left; reflexivity|intros _; apply rb_some; discriminate]|]. rewrite upd_other by exact D1.
      destruct (Nat.eq_dec q new) as [->|D2]; [rewrite upd_same; split; [right; left; reflexivity|intros _; apply rb_some; discriminate]|]. rewrite upd_other by exact D2.
      rewrite OW. cbn. firstorder congruence.
  - assert (NE : r_items r <> []) by (intro Q; rewrite Q in C; destruct qs; cbn in C; [congruence|contradiction]).
    assert (AP : forall k, (length (r_items r) <= k)%nat -> exists h', h_append k (upd h new (Some (CLine i 0))) itm new = HOk h' /\ hinv h' p (Some (saveData r i))).
    { intros k L. destruct (append_ok (r_items r) qs (upd h new (Some (CLine i 0))) itm new i NE CU) with (k := k) as (h' & R & C' & F & RB); [|exact NZ|apply upd_same|exact L|].
      - constructor; [intro I; apply NN; right; exact I|exact ND1].
      - exists h'. split; [exact R|]. assert (Z0 : ~ In 0 qs) by (intro I; destruct (chain_cells _ _ _ _ C 0 I) as (a & b & X); destruct Z; congruence).
        split; [eapply append_wf; [exact R|apply hwf_upd; [exact Z|exact NZ]]|]. exists itm, (qs ++ [new]). rewrite F by exact NI. rewrite upd_other by exact DP.
        split; [exact E|]. split; [exact C'|]. split.
        + constructor; [rewrite in_app_iff; intros [X|[X|[]]]; auto|]. 
          clear - ND1 NN. assert (N2 : ~ In new qs) by (intro I; apply NN; right; exact I). clear NN. induction qs as [|a qs IH]; [constructor; [intros []|constructor]|]. cbn.
          inversion ND1; subst. constructor; [rewrite in_app_iff; intros [X|[X|[]]]; [contradiction|subst; apply N2; left; reflexivity]|]. apply IH; [assumption|]. intro I. apply N2. right. exact I.
        + intro q. destruct (in_dec Nat.eq_dec q qs) as [I|I].
          * split; [intros _; right; rewrite in_app_iff; auto|]. intros _. apply RB. exact I.
          * rewrite F by exact I. destruct (Nat.eq_dec q new) as [->|D].
            -- rewrite upd_same. split; [intros _; right; rewrite in_app_iff; right; left; reflexivity|intros _; apply rb_some; discriminate].
            -- rewrite upd_other by exact D. rewrite OW. cbn. rewrite in_app_iff. cbn. split; [intros [X|X]; auto|intros [X|[X|[X|[]]]]; auto; congruence]. }
    destruct (AP (length (r_items r)) (le_n _)) as (h' & R & I). exists (HOk h'). split; [|right; eauto].
    exists (length (r_items r)). intros k L. clear - R L CU NE. revert k L. revert R CU NE. generalize (upd h new (Some (CLine i 0))) as g. revert itm qs h'. induction (r_items r) as [|a is IH]; intros itm qs h' g R C NE k L; [congruence|].
    destruct qs as [|q qs]; [destruct C|]. destruct C as (-> & NZ & nx & E & C). cbn [length] in *. destruct k as [|k]; [lia|]. cbn [h_append] in *. rewrite E in *.
    destruct (Nat.eqb_spec nx 0) as [Q|Q]; [exact R|]. apply (IH nx qs); [exact R|exact C| |lia]. intros ->. destruct qs; cbn in C; [congruence|contradiction].
Qed.

Lemma status_ok h p r b : hinv h p (Some r) -> turns_out (fun _ => h_set_status h p b) (fun h' => hinv h' p (Some {| r_status := b; r_items := r_items r |})).
Proof.
  intros [Z (itm & qs & E & C & ND & OW)]. unfold h_set_status. rewrite E. apply to_ret. assert (PZ : p <> 0) by (intros ->; destruct Z; congruence).
  inversion ND as [|? ? NI ND1]; subst.
  split; [apply hwf_upd; assumption|]. exists itm, qs. rewrite upd_same. split; [reflexivity|]. split; [|split; [exact ND|]].
  - eapply chain_frame; [|exact C]. intros q I. apply upd_other. intros ->. contradiction.
  - intro q. destruct (Nat.eq_dec q p) as [->|D]; [rewrite upd_same; split; [left; reflexivity|intros _; apply rb_some; discriminate]|]. rewrite upd_other by exact D. apply OW.
Qed.

Lemma to_ok {A} (f : nat -> hres A) (P : A -> Prop) a : (forall k, f k = HOk a) -> P a -> turns_out f P.
Proof. intros E H. exists (HOk a). split; [exists 0; intros k _; apply E|eauto]. Qed.

Lemma intermediate_ok t line h p r ty st r' : hinv h p (Some r) -> processIntermediateResponse line r ty = (st, r') ->
  turns_out (fun k => h_processIntermediateResponse asserts alloc k t line h p ty) (fun x => fst x = st /\ hinv (snd x) p (Some r')).
Proof.
  intros I E. pose proof I as [Z (itm & qs & EP & C & ND & OW)].
  assert (SV : forall st0 : pkt_status, turns_out (fun k => dh h' <- h_saveData asserts alloc k t h p (at_item line); HOk (st0, h'))
                 (fun x => fst x = st0 /\ hinv (snd x) p (Some (saveATData r line)))).
  { intro st0. eapply to_bind; [apply save_ok; exact I|]. intros a HA. apply to_ret. split; [reflexivity|exact HA]. }
  destruct ty; cbn [processIntermediateResponse h_processIntermediateResponse] in *.
  all: try (injection E as <- <-; first [apply SV | apply to_ret; split; [reflexivity|exact I]]; fail).
  all: try (injection E as <- <-; eapply to_bind; [apply save_ok; exact I|]; intros a HA; eapply to_bind; [apply (status_ok _ _ _ true HA)|]; intros b HB; apply to_ret; split; [reflexivity|exact HB]; fail).
  all: rewrite EP; destruct (r_items r) as [|i is] eqn:ER;
    [destruct qs; [cbn in C; subst itm; cbn [Nat.eqb]; injection E as <- <-; apply SV|destruct C]
    |destruct qs as [|q qs]; [destruct C|]; destruct C as (-> & NZ & nx & EQ & C); apply Nat.eqb_neq in NZ; rewrite NZ, EQ; injection E as <- <-; apply to_ret; split; [reflexivity|exact I]].
Qed.

Lemma process_ok t tt line txt h p r ty st r' : hinv h p (Some r) -> ProcessLine tt line txt r ty = Ok (st, r') ->
  turns_out (fun k => h_ProcessLine asserts alloc k t tt line txt h p ty) (fun x => fst x = st /\ hinv (snd x) p (Some r')).
Proof.
  intros I E. unfold ProcessLine, h_ProcessLine in *. destruct (tk_error tt) as [te|]; [destruct (tk_success tt) as [ts|]|].
  - destruct (check_tokens txt (tk_extra_success tt)) as [x| |]; try discriminate. cbn [bind] in E. eapply to_bind with (P := eq x); [apply to_ret; reflexivity|]. intros ? <-.
    assert (ST : forall b, turns_out (fun _ : nat => dh h' <- h_set_status h p b; HOk (PKT_OK, h')) (fun x => fst x = PKT_OK /\ hinv (snd x) p (Some {| r_status := b; r_items := r_items r |}))).
    { intro b. eapply to_bind; [apply (status_ok _ _ _ b I)|]. intros a HA. apply to_ret. split; [reflexivity|exact HA]. }
    assert (REST : forall okk, (if okk : bool then Ok (PKT_OK, {| r_status := true; r_items := r_items r |}) else do er <- check_tokens txt (Some te); if er then Ok (PKT_OK, {| r_status := false; r_items := r_items r |}) else Ok (processIntermediateResponse line r ty)) = Ok (st, r') ->
      turns_out (fun k => if okk then dh h' <- h_set_status h p true; HOk (PKT_OK, h') else dh er <- lift (check_tokens txt (Some te)); if er then dh h' <- h_set_status h p false; HOk (PKT_OK, h') else h_processIntermediateResponse asserts alloc k t line h p ty)
        (fun x => fst x = st /\ hinv (snd x) p (Some r'))).
    { intros [|] EE; [injection EE as <- <-; apply ST|]. destruct (check_tokens txt (Some te)) as [er| |]; try discriminate. cbn [bind] in EE.
      eapply to_bind with (P := eq er); [apply to_ret; reflexivity|]. intros ? <-. destruct er; [injection EE as <- <-; apply ST|]. injection EE as EE. eapply intermediate_ok; eassumption. }
    destruct x.
    + cbn [bind] in E. eapply to_bind with (P := eq true); [apply to_ret; reflexivity|]. intros ? <-. apply (REST true). exact E.
    + destruct (check_tokens txt (Some ts)) as [y| |]; try discriminate. cbn [bind] in E. eapply to_bind with (P := eq y); [apply to_ret; reflexivity|]. intros ? <-. apply (REST y). exact E.
  - injection E as <- <-. apply to_ret. split; [reflexivity|exact I].
  - injection E as <- <-. apply to_ret. split; [reflexivity|exact I].
Qed.

Lemma deliver_ok m h p r cs : hinv h p (Some r) -> deliver m (r_items r) = Ok cs -> turns_out (fun k => h_deliver k m h p) (eq (r_status r, cs)).
Proof.
  intros [Z (itm & qs & E & C & ND & OW)] D. unfold h_deliver. rewrite E. eapply to_bind with (P := eq (r_items r)).
  - exists (HOk (r_items r)). split; [|right; eauto]. exists (S (length (r_items r))). intros k L. apply (items_ok _ _ _ _ C). lia.
  - intros ? <-. rewrite D. cbn [lift hbind]. apply to_ret. reflexivity.
Qed.

Lemma urc_ok t h p ro txt : hinv h p ro -> turns_out (fun _ => h_processUrc alloc others t h txt) (fun h' => hinv h' p ro).
Proof.
  intros I. unfold h_processUrc. destruct (alloc t h) as [q|] eqn:A; [|apply to_ret; exact I].
  destruct (AO _ _ _ A) as [NZ FR]. destruct (OO t (upd h q (Some (CText txt)))) as (O0 & OF & O1).
  assert (Q : others t (upd h q (Some (CText txt))) q = Some (CText txt)).
  { rewrite O1; [apply upd_same|]. left. rewrite upd_same. apply rb_some. discriminate. }
  unfold h_free. rewrite Q. apply to_ret.
  destruct I as [Z I]. split.
  { assert (W : hwf (upd h q (Some (CText txt)))) by (apply hwf_upd; assumption). apply hwf_upd; [|exact NZ]. split; [rewrite O0; exact (proj1 W)|exact (OF (proj2 W))]. }
  assert (K : forall x, receiver_block (h x) -> upd (others t (upd h q (Some (CText txt)))) q None x = h x).
  { intros x R. assert (x <> q) by (intros ->; rewrite FR in R; destruct (rb_none R)). rewrite upd_other by assumption. rewrite O1; rewrite upd_other by assumption; auto. }
  assert (K2 : forall x, receiver_block (upd (others t (upd h q (Some (CText txt)))) q None x) -> receiver_block (h x)).
  { intros x R. destruct (Nat.eq_dec x q) as [->|D]; [rewrite upd_same in R; destruct (rb_none R)|]. rewrite upd_other in R by exact D. rewrite O1 in R by auto. rewrite upd_other in R by exact D. exact R. }
  destruct ro as [r|].
  - destruct I as (itm & qs & E & C & ND & OW). exists itm, qs. split; [rewrite K; [exact E|]; apply OW; left; reflexivity|]. split; [|split; [exact ND|]].
    + eapply chain_frame; [|exact C]. intros x IX. apply K. apply OW. right. exact IX.
    + intro x. split; [intro R; apply OW; apply K2; exact R|]. intro IX. rewrite K; apply OW; exact IX.
  - destruct I as (P & NO). split; [exact P|]. intros x R. exact (NO x (K2 x R)).
Qed.

(** *** The reader *)
Definition bare (s : rx) : rx := set_resp s None.
Definition related (s : rx) (x : hstate) : Prop := hs_rx x = bare s /\ hinv (hs_heap x) (hs_resp x) (rx_resp s).

Lemma bare_resp s ro : bare (set_resp s ro) = bare s.
Proof. reflexivity. Qed.

Lemma msg_ok t v mt s h p line txt st mt' ev s' : hinv h p (rx_resp s) -> handleMsgType cap v mt s line txt = Ok (st, mt', ev, s') ->
  turns_out (fun k => h_handleMsgType cap asserts alloc others k t v mt (bare s) h p line txt)
    (fun x => exists hs, x = (st, mt', ev, hs) /\ related s' hs).
Proof.
  intros I E. unfold handleMsgType in E.
  match type of E with bind ?A ?B = _ => destruct A as [[[[st0 mt0] ev0] s0]| |] eqn:EA; cbn [bind] in E; try discriminate end.
  unfold h_handleMsgType. eapply to_bind with (P := fun y => exists h1 p1, y = (st0, mt0, ev0, h1, p1) /\ hinv h1 p1 (rx_resp s0) /\ bare s0 = bare s).
  - destruct mt.
    + (* solicited *)
      destruct (ProcessLine (v_tokens v) line txt (match rx_resp s with Some r => r | None => AtResponseNew end) (v_cmd2 v)) as [[st1 r1]| |] eqn:EP; try discriminate.
      cbn [bind] in EA.
      eapply to_bind with (P := fun y => hinv (snd y) (fst y) (Some (match rx_resp s with Some r => r | None => AtResponseNew end))).
      { destruct (rx_resp s) as [r|] eqn:ER.
        - pose proof (hinv_nz _ _ _ I) as NZ. apply Nat.eqb_neq in NZ. rewrite NZ. apply to_ret. exact I.
        - pose proof I as [_ [-> _]]. cbn [Nat.eqb]. apply new_ok. exact I. }
      intros [p1 h1] I1. cbn [fst snd] in I1.
      eapply to_bind; [eapply process_ok; eassumption|]. intros [st2 h2] [S2 I2]. cbn [fst snd] in S2, I2. subst st2.
      destruct st1.
      all: try (injection EA as <- <- <- <-; apply to_ret; exists h2, p1; split; [reflexivity|]; split; [exact I2|reflexivity]).
      destruct (v_handler v).
      * destruct (deliver (rx_buf s) (r_items r1)) as [cs| |] eqn:ED; try discriminate. cbn [bind] in EA. injection EA as <- <- <- <-.
        eapply to_bind with (P := eq [EvResp (r_status r1) cs]).
        { eapply to_bind; [apply (deliver_ok _ _ _ _ _ I2 ED)|]. intros ? <-. apply to_ret. reflexivity. }
        intros ? <-. eapply to_bind; [apply (free_ok _ _ _ I2)|]. intros [h3 p3] [P3 I3]. cbn [fst snd] in *. subst p3. apply to_ret. exists h3, 0. split; [reflexivity|]. split; [exact I3|reflexivity].
      * cbn [bind] in EA. injection EA as <- <- <- <-. eapply to_bind with (P := eq []); [apply to_ret; reflexivity|]. intros ? <-.
        eapply to_bind; [apply (free_ok _ _ _ I2)|]. intros [h3 p3] [P3 I3]. cbn [fst snd] in *. subst p3. apply to_ret. exists h3, 0. split; [reflexivity|]. split; [exact I3|reflexivity].
    + (* unsolicited *)
      injection EA as <- <- <- <-. eapply to_bind with (P := fun h' => hinv h' p (rx_resp s)).
      { destruct (v_handler v); [apply urc_ok; exact I|apply to_ret; exact I]. }
      intros h' I'. apply to_ret. exists h', p. auto.
    + injection EA as <- <- <- <-. apply to_ret. exists h, p. auto.
  - intros y (h1 & p1 & -> & I1 & B1). cbv beta iota.
    assert (FR : turns_out (fun k => dh f <- h_AtResponseFree k h1 p1; HOk (PKT_INVALID_DATA, mt0, (if v_handler v then ev0 ++ [EvUndef txt] else ev0) ++ [EvDrop], {| hs_rx := reset_buf cap (bare s); hs_heap := fst f; hs_resp := snd f |}))
       (fun x => exists hs, x = (PKT_INVALID_DATA, mt0, (if v_handler v then ev0 ++ [EvUndef txt] else ev0) ++ [EvDrop], hs) /\ related (set_resp (reset_buf cap s0) None) hs)).
    { eapply to_bind; [apply (free_ok _ _ _ I1)|]. intros [h3 p3] [P3 I3]. cbn [fst snd] in *. subst p3. apply to_ret. eexists. split; [reflexivity|]. split; [|exact I3].
      cbn [hs_rx]. rewrite <- B1. reflexivity. }
    destruct mt0.
    + injection E as <- <- <- <-. apply to_ret. eexists. split; [reflexivity|]. split; [symmetry; exact B1|exact I1].
    + injection E as <- <- <- <-. apply to_ret. eexists. split; [reflexivity|]. split; [symmetry; exact B1|exact I1].
    + destruct (if v_handler v then v_undef v txt else st0); injection E as <- <- <- <-; try exact FR.
      apply to_ret. eexists. split; [reflexivity|]. split; [symmetry; exact B1|exact I1].
Qed.

Definition bare_result (r : pass_result) : pass_result := match r with Stop s => Stop (bare s) | Next s a b => Next (bare s) a b end.
Definition resp_of (r : pass_result) : option response := match r with Stop s | Next s _ _ => rx_resp s end.

Lemma callback_bare s st line n : handleCallbackResult cap (bare s) st line n = option_map bare (handleCallbackResult cap s st line n) /\
  (forall s', handleCallbackResult cap s st line n = Some s' -> rx_resp s' = rx_resp s).
Proof. split; [destruct st; reflexivity|]. intros s' E. destruct st; cbn in E; try discriminate; injection E as <-; reflexivity. Qed.

Lemma inbuf_bare v s line n r : preprocessInputBuffer cap v s line n = Ok r ->
  preprocessInputBuffer cap v (bare s) line n = Ok (bare_result r) /\ resp_of r = rx_resp s.
Proof.
  unfold preprocessInputBuffer. destruct (v_inbuf v) as [f|]; [|intro E; injection E as <-; split; reflexivity].
  change (rx_buf (bare s)) with (rx_buf s). destruct (rd (rx_buf s) line n) as [bs| |]; cbn [bind]; try discriminate.
  destruct (f bs) as [[st len] bs']. destruct (wr (rx_buf s) line bs') as [m| |]; cbn [bind]; try discriminate.
  change (set_buf (bare s) m) with (bare (set_buf s m)).
  destruct (callback_bare (set_buf s m) st line n) as [CB CR]. rewrite CB.
  destruct st; try (destruct (handleCallbackResult cap (set_buf s m) _ line n) as [s2|]; intro E; injection E as <-; (split; [reflexivity|]); cbn [resp_of]; try (rewrite (CR s2 eq_refl)); reflexivity).
  destruct (n <? len)%nat; intro E; injection E as <-; split; reflexivity.
Qed.

Lemma preline_bare v s line n sod r sod' : preprocessLine cap v s line n sod = Ok (r, sod') ->
  preprocessLine cap v (bare s) line n sod = Ok (bare_result r, sod') /\ resp_of r = rx_resp s.
Proof.
  unfold preprocessLine. destruct (n =? 0)%nat; [intro E; injection E as <- <-; split; reflexivity|].
  change (rx_buf (bare s)) with (rx_buf s).
  destruct (v_send v) as [f|].
  - destruct (rd (rx_buf s) line n) as [bs| |]; cbn [bind]; try discriminate. destruct (f bs) as [st bs'].
    destruct (wr (rx_buf s) line bs') as [m| |]; cbn [bind]; try discriminate. change (set_buf (bare s) m) with (bare (set_buf s m)).
    destruct (callback_bare (set_buf s m) st line (length bs')) as [CB CR]. rewrite CB.
    destruct (handleCallbackResult cap (set_buf s m) st line (length bs')) as [s2|]; intro E; injection E as <- <-; (split; [reflexivity|]); cbn [resp_of]; [rewrite (CR s2 eq_refl)|]; reflexivity.
  - destruct (v_data v) as [f|]; [|intro E; injection E as <- <-; split; reflexivity].
    destruct (rd (rx_buf s) line n) as [bs| |]; cbn [bind]; try discriminate. destruct (f bs) as [[[st start] len] bs'].
    destruct (wr (rx_buf s) line bs') as [m| |]; cbn [bind]; try discriminate. cbv zeta.
    set (s2 := match len with Some d => set_dlen (set_buf s m) d | None => set_buf s m end).
    assert (B2 : match len with Some d => set_dlen (set_buf (bare s) m) d | None => set_buf (bare s) m end = bare s2) by (destruct len; reflexivity).
    assert (R2 : rx_resp s2 = rx_resp s) by (unfold s2; destruct len; reflexivity). rewrite B2.
    destruct (callback_bare s2 st line n) as [CB CR]. rewrite CB.
    destruct (handleCallbackResult cap s2 st line n) as [s3|]; intro E; injection E as <- <-; (split; [reflexivity|]); cbn [resp_of]; [rewrite (CR s3 eq_refl)|]; exact R2.
Qed.

Lemma next_bare s line n len st mt r : getNextLine s line n len st mt = Ok r ->
  getNextLine (bare s) line n len st mt = Ok (bare_result r) /\ resp_of r = rx_resp s.
Proof.
  unfold getNextLine. change (rx_buf (bare s)) with (rx_buf s). destruct (n <? len + 1)%nat; [discriminate|]. cbv zeta.
  assert (PL : forall x, Ok (Next (set_left s (Some (line + (len + 1))%nat) (n - (len + 1))) (line + (len + 1)) (n - (len + 1))) = Ok x ->
    @Ok pass_result (Next (set_left (bare s) (Some (line + (len + 1))%nat) (n - (len + 1))) (line + (len + 1)) (n - (len + 1))) = Ok (bare_result x) /\ resp_of x = rx_resp s).
  { intros x E. injection E as <-. split; reflexivity. }
  destruct st; try exact (PL r). destruct mt; try exact (PL r).
  destruct (rd (rx_buf s) _ _) as [d| |]; cbn [bind]; try discriminate. destruct (wr (rx_buf s) 0 d) as [m| |]; cbn [bind]; try discriminate.
  intro E; injection E as <-. split; reflexivity.
Qed.

Lemma data_ok t sod s hs line n line' lft s' : related s hs -> handleData sod s line n = Ok (line', lft, s') ->
  turns_out (fun k => h_handleData asserts alloc k t sod hs line n) (fun x => exists hs', x = (line', lft, hs') /\ related s' hs').
Proof.
  intros [B I] E. unfold handleData, h_handleData in *. destruct sod as [p|]; [|discriminate]. destruct ((p <? line)%nat || (line + n <? p)%nat); [discriminate|].
  rewrite B. change (rx_dlen (bare s)) with (rx_dlen s). cbv zeta in *. destruct (rx_dlen s <=? n - (p - line))%nat.
  - destruct (rx_resp s) as [r|]; [|discriminate]. injection E as <- <- <-. eapply to_bind; [apply save_ok; exact I|]. intros h' I'. apply to_ret. eexists. split; [reflexivity|].
    split; [reflexivity|exact I'].
  - injection E as <- <- <-. apply to_ret. eexists. split; [reflexivity|]. split; [reflexivity|exact I].
Qed.

Definition result_rel (r : pass_result) (x : h_result) : Prop :=
  match r, x with
  | Stop s, HStop hs => related s hs
  | Next s a b, HNext hs a' b' => related s hs /\ a = a' /\ b = b'
  | _, _ => False
  end.
Lemma with_rx_rel r hs : hinv (hs_heap hs) (hs_resp hs) (resp_of r) -> result_rel r (with_rx hs (bare_result r)).
Proof. destruct r; cbn; intro I; [split; [reflexivity|exact I]|]. split; [split; [reflexivity|exact I]|auto]. Qed.

Lemma pass_ok t v s hs line n sod ev r sod' : related s hs -> pass cap v s line n sod = Ok (ev, r, sod') ->
  turns_out (fun k => h_pass cap asserts alloc others k t v hs line n sod) (fun y => exists x, y = (ev, x, sod') /\ result_rel r x).
Proof.
  intros [B I] E. unfold pass, h_pass in *. rewrite B. change (rx_buf (bare s)) with (rx_buf s).
  destruct (skip_eol (rx_buf s) line n) as [[line1 n1]| |]; cbn [bind lift hbind] in *; try discriminate.
  destruct (preprocessInputBuffer cap v s line1 n1) as [r1| |] eqn:E1; cbn [bind] in E; try discriminate.
  destruct (inbuf_bare _ _ _ _ _ E1) as [-> R1]. cbn [lift hbind].
  destruct r1 as [s1|s1 line2 n2]; cbn [bare_result].
  { injection E as <- <- <-. apply to_ret. eexists. split; [reflexivity|]. apply (with_rx_rel (Stop s1)). rewrite R1. exact I. }
  destruct (preprocessLine cap v s1 line2 n2 sod) as [[r2 sod2]| |] eqn:E2; cbn [bind] in E; try discriminate.
  destruct (preline_bare _ _ _ _ _ _ _ E2) as [-> R2]. cbn [lift hbind].
  cbn [resp_of] in R1. assert (R3 : resp_of r2 = rx_resp s) by congruence. clear R1 R2.
  destruct r2 as [s2|s2 line3 n3]; cbn [bare_result].
  { injection E as <- <- <-. apply to_ret. eexists. split; [reflexivity|]. apply (with_rx_rel (Stop s2)). rewrite R3. exact I. }
  cbn [resp_of] in R3. change (rx_buf (bare s2)) with (rx_buf s2).
  destruct (find_eol (rx_buf s2) line3 n3) as [[i|]| |]; cbn [bind lift hbind] in *; try discriminate.
  2: { injection E as <- <- <-. apply to_ret. eexists. split; [reflexivity|]. apply (with_rx_rel (Stop (set_left s2 (Some line3) n3))). cbn. rewrite R3. exact I. }
  destruct (st (rx_buf s2) (line3 + i) 0%N) as [m| |]; cbn [bind lift hbind] in *; try discriminate.
  destruct (cstr_get m line3) as [txt|]; cbn [bind lift hbind] in *; try discriminate.
  destruct (handleMsgType cap v (getMsgType (v_tokens v) (v_cmd v) txt (v_prefix v)) (set_buf s2 m) line3 txt) as [[[[st0 mt0] ev0] s4]| |] eqn:EM; cbn [bind] in E; try discriminate.
  eapply to_bind.
  { apply (msg_ok t v _ (set_buf s2 m) (others t (hs_heap hs)) (hs_resp hs) line3 txt); [|exact EM]. apply others_inv. cbn. rewrite R3. exact I. }
  intros y (h4 & -> & RL). cbv beta iota.
  assert (NX : forall st9, (do x <- getNextLine s4 line3 n3 i st9 mt0; Ok (ev0, x, sod2)) = Ok (ev, r, sod') ->
     turns_out (fun _ : nat => dh x <- lift (getNextLine (hs_rx h4) line3 n3 i st9 mt0); HOk (ev0, with_rx h4 x, sod2)) (fun y => exists x, y = (ev, x, sod') /\ result_rel r x)).
  { intros st9 EE. destruct (getNextLine s4 line3 n3 i st9 mt0) as [r9| |] eqn:EN; cbn [bind] in EE; try discriminate. injection EE as <- <- <-.
    destruct RL as [B4 I4]. rewrite B4. destruct (next_bare _ _ _ _ _ _ _ EN) as [-> R9]. cbn [lift hbind]. apply to_ret. eexists. split; [reflexivity|]. apply with_rx_rel. rewrite R9. exact I4. }
  destruct st0; try (apply NX; exact E); try (injection E as <- <- <-; apply to_ret; eexists; split; [reflexivity|exact RL]).
  pose proof RL as [B4 I4]. rewrite B4. change (rx_dlen (bare s4)) with (rx_dlen s4).
  destruct (negb (rx_dlen s4 =? 0)%nat).
  - destruct (handleData sod2 s4 line3 n3) as [[[l5 lf5] s5]| |] eqn:EH; cbn [bind] in E; try discriminate.
    eapply to_bind; [eapply data_ok; [exact RL|exact EH]|]. intros y (h5 & -> & RL5). cbv beta iota.
    destruct (lf5 =? 0)%nat; injection E as <- <- <-; apply to_ret; eexists; (split; [reflexivity|]); [exact RL5|]. split; [exact RL5|auto].
  - rewrite <- B4. apply NX. exact E.
Qed.

Lemma all_ok fuel env : forall t ev s hs line n sod t' ev' s', related s hs -> handleAllReceived cap fuel env t ev s line n sod = Ok (t', ev', s') ->
  turns_out (fun k => h_handleAllReceived cap asserts alloc others k fuel env t ev hs line n sod) (fun y => exists hs', y = (t', ev', hs') /\ related s' hs').
Proof.
  induction fuel as [|f IH]; intros t ev s hs line n sod t' ev' s' RL E; [discriminate|]. cbn [handleAllReceived h_handleAllReceived] in *.
  destruct (pass cap (env t ev) s line n sod) as [[[e r] sod1]| |] eqn:EP; cbn [bind] in E; try discriminate.
  eapply to_bind; [eapply pass_ok; eassumption|]. intros y (x & -> & RR). cbv beta iota. destruct r as [s1|s1 l1 n1], x as [h1|h1 l1' n1']; cbn in RR; try contradiction.
  - injection E as <- <- <-. apply to_ret. eexists. split; [reflexivity|exact RR].
  - destruct RR as (RR & <- & <-). eapply IH; eassumption.
Qed.

Lemma readline_bare s ro recv a b s1 : ReadLine cap s recv = Ok (a, b, s1) -> (ro = None <-> rx_resp s = None) ->
  exists s1', ReadLine cap (set_resp (bare s) ro) recv = Ok (a, b, s1') /\ bare s1' = bare s1 /\ rx_resp s1 = rx_resp s.
Proof.
  intros E N. unfold ReadLine in *. cbn [set_resp bare rx_buf rx_ptr rx_partial rx_resp] in *.
  assert (NN : match ro with None => true | Some _ => false end = match rx_resp s with None => true | Some _ => false end).
  { destruct ro, (rx_resp s); auto; destruct N as [N1 N2]; [discriminate (N2 eq_refl)|discriminate (N1 eq_refl)]. }
  rewrite NN. clear NN N. set (cp := _ && _ && _) in *. destruct cp.
  - destruct (rd (rx_buf s) _ _) as [d| |]; cbn [bind] in *; try discriminate. destruct (wr (rx_buf s) 0 d) as [m| |]; cbn [bind] in *; try discriminate.
    destruct (st m (rx_partial s) 0%N) as [m'| |]; cbn [bind] in *; try discriminate. cbn [set_left set_buf rx_partial rx_buf rx_ptr rx_dlen rx_resp] in *.
    destruct (0 <? cap - rx_partial s - 0)%nat.
    + destruct (wr m' _ _) as [m2| |]; cbn [bind] in *; try discriminate. destruct (0 <? length _)%nat.
      * destruct (st m2 _ _) as [m3| |]; cbn [bind] in *; try discriminate. injection E as <- <- <-. eexists. split; [reflexivity|split; reflexivity].
      * injection E as <- <- <-. eexists. split; [reflexivity|split; reflexivity].
    + injection E as <- <- <-. eexists. split; [reflexivity|split; reflexivity].
  - cbn [bind] in *. cbn [set_resp bare rx_partial rx_buf rx_ptr] in *.
    destruct (0 <? cap - rx_partial s - _)%nat.
    + destruct (wr (rx_buf s) _ _) as [m2| |]; cbn [bind] in *; try discriminate. destruct (0 <? length _)%nat.
      * destruct (st m2 _ _) as [m3| |]; cbn [bind] in *; try discriminate. injection E as <- <- <-. eexists. split; [reflexivity|split; reflexivity].
      * injection E as <- <- <-. eexists. split; [reflexivity|split; reflexivity].
    + injection E as <- <- <-. eexists. split; [reflexivity|split; reflexivity].
Qed.

Lemma event_ok fuel env t ev s hs recv b t' ev' s' : related s hs -> handleRxDataEvent cap fuel env t ev s recv = Ok (b, t', ev', s') ->
  turns_out (fun k => h_handleRxDataEvent cap asserts alloc others k fuel env t ev hs recv) (fun y => exists hs', y = (b, t', ev', hs') /\ related s' hs').
Proof.
  intros [B I] E. unfold handleRxDataEvent, h_handleRxDataEvent in *. destruct (ReadLine cap s recv) as [[[pl bytes] s1]| |] eqn:ER; cbn [bind] in E; try discriminate.
  destruct (readline_bare s (null_test (hs_resp hs)) recv pl bytes s1 ER) as (s1' & EB & BB & R1).
  { unfold null_test. destruct (rx_resp s) as [r|].
    - pose proof (hinv_nz _ _ _ I) as NZ. apply Nat.eqb_neq in NZ. rewrite NZ. split; discriminate.
    - destruct I as [_ [-> _]]. cbn. tauto. }
  rewrite B, EB. cbn [lift hbind]. fold (bare s1'). rewrite BB.
  assert (RL1 : related s1 {| hs_rx := bare s1; hs_heap := hs_heap hs; hs_resp := hs_resp hs |}) by (split; [reflexivity|cbn [hs_heap hs_resp]; rewrite R1; exact I]).
  destruct (0 <? bytes)%nat.
  2: { injection E as <- <- <- <-. apply to_ret. eexists. split; [reflexivity|exact RL1]. }
  destruct pl as [line|]; [|discriminate]. cbn [hs_rx]. change (rx_dlen (bare s1)) with (rx_dlen s1).
  match type of E with bind ?A ?G = _ => destruct A as [[[l2 lf2] s2]| |] eqn:ED; cbn [bind] in E; try discriminate end.
  eapply to_bind with (P := fun y => exists h2, y = (l2, lf2, h2) /\ related s2 h2).
  { destruct (negb (rx_dlen s1 =? 0)%nat).
    - eapply data_ok; eassumption.
    - injection ED as <- <- <-. apply to_ret. eexists. split; [reflexivity|exact RL1]. }
  intros y (h2 & -> & [B2 I2]). cbv beta iota. rewrite B2. change (rx_buf (bare s2)) with (rx_buf s2).
  destruct (0 <? lf2)%nat.
  - destruct (st (rx_buf s2) (l2 + lf2) 0%N) as [m| |]; cbn [bind lift hbind] in *; try discriminate.
    destruct (handleAllReceived cap fuel env t ev (set_buf s2 m) l2 lf2 None) as [[[t3 h3] s3]| |] eqn:EA; cbn [bind] in E; try discriminate. injection E as <- <- <- <-.
    eapply to_bind; [eapply all_ok; [|exact EA]; split; [reflexivity|exact I2]|]. intros y (h4 & -> & RL4). apply to_ret. eexists. split; [reflexivity|exact RL4].
  - injection E as <- <- <- <-. apply to_ret. eexists. split; [reflexivity|]. split; [exact B2|exact I2].
Qed.

Lemma reader_ok fuel env : forall inp t ev s hs t' ev' s', related s hs -> reader cap fuel env t ev s inp = Ok (t', ev', s') ->
  turns_out (fun k => h_reader cap asserts alloc others k fuel env t ev hs inp) (fun y => exists hs', y = (t', ev', hs') /\ related s' hs').
Proof.
  induction inp as [|r inp IH]; intros t ev s hs t' ev' s' RL E; cbn [reader h_reader] in *.
  - injection E as <- <- <-. apply to_ret. eexists. split; [reflexivity|exact RL].
  - destruct (handleRxDataEvent cap fuel env t ev s r) as [[[[b t1] e1] s1]| |] eqn:ER; cbn [bind] in E; try discriminate.
    eapply to_bind; [eapply event_ok; eassumption|]. intros y (h1 & -> & RL1). eapply IH; eassumption.
Qed.

Lemma stop_ok s hs : related s hs -> turns_out (fun k => h_stop k hs) (fun x => hs_resp x = 0 /\ holds (hs_heap x) 0).
Proof.
  intros [B I]. unfold h_stop. eapply to_bind; [apply (free_ok _ _ _ I)|]. intros [h p] [P J]. cbn [fst snd] in *. apply to_ret. cbn. split; [exact P|]. exact (holds_hinv _ _ _ J).
Qed.
End S.

(** *** Commands with single-line answers *)
Section Few.
Variable cap : nat.
Definition few (s : rx) : Prop := rx_dlen s = 0 /\ forall r, rx_resp s = Some r -> (length (r_items r) <= 1)%nat.
Definition few_result (r : pass_result) : Prop := match r with Stop s | Next s _ _ => few s end.
Definition single_view (v : view) : Prop := v_data v = None /\ ~ multi_line_type (v_cmd2 v).

Lemma few_callback s st line n s' : few s -> handleCallbackResult cap s st line n = Some s' -> few s'.
Proof. intros F E. destruct st; cbn in E; try discriminate; injection E as <-; exact F. Qed.
Lemma few_inbuf v s line n r : few s -> preprocessInputBuffer cap v s line n = Ok r -> few_result r.
Proof.
  intros F E. unfold preprocessInputBuffer in E. destruct (v_inbuf v) as [f|]; [|injection E as <-; exact F].
  destruct (rd (rx_buf s) line n) as [bs| |]; cbn [bind] in E; try discriminate. destruct (f bs) as [[st len] bs']. destruct (wr (rx_buf s) line bs') as [m| |]; cbn [bind] in E; try discriminate.
  assert (FB : few (set_buf s m)) by exact F. destruct (handleCallbackResult cap (set_buf s m) st line n) as [s2|] eqn:EC.
  - pose proof (few_callback _ _ _ _ _ FB EC) as F2. destruct st; try (injection E as <-; exact F2). destruct (n <? len)%nat; injection E as <-; exact F.
  - destruct st; try (injection E as <-; exact F). destruct (n <? len)%nat; injection E as <-; exact F.
Qed.
Lemma few_preline v s line n sod r sod' : v_data v = None -> few s -> preprocessLine cap v s line n sod = Ok (r, sod') -> few_result r.
Proof.
  intros D F E. unfold preprocessLine in E. rewrite D in E. destruct (n =? 0)%nat; [injection E as <- <-; exact F|]. destruct (v_send v) as [f|]; [|injection E as <- <-; exact F].
  destruct (rd (rx_buf s) line n) as [bs| |]; cbn [bind] in E; try discriminate. destruct (f bs) as [st bs']. destruct (wr (rx_buf s) line bs') as [m| |]; cbn [bind] in E; try discriminate.
  destruct (handleCallbackResult cap (set_buf s m) st line (length bs')) as [s2|] eqn:EC; injection E as <- <-; [|exact F]. eapply few_callback; [|exact EC]. exact F.
Qed.
Lemma few_process tt p l r ty st r' : ~ multi_line_type ty -> (length (r_items r) <= 1)%nat -> ProcessLine tt p l r ty = Ok (st, r') -> st = PKT_OK \/ (length (r_items r') <= 1)%nat.
Proof.
  intros NM L E. unfold ProcessLine in E. destruct (tk_error tt); [destruct (tk_success tt)|].
  2,3: injection E as <- <-; auto.
  destruct (check_tokens l (tk_extra_success tt)) as [x| |]; cbn [bind] in E; try discriminate.
  match type of E with bind ?A _ = _ => destruct A as [y| |]; cbn [bind] in E; try discriminate end.
  destruct y; [injection E as <- <-; auto|]. destruct (check_tokens l (Some _)) as [z| |]; cbn [bind] in E; try discriminate. destruct z; [injection E as <- <-; auto|].
  injection E as E. destruct ty; cbn in E; try (injection E as <- <-; auto; fail).
  all: try (exfalso; apply NM; unfold multi_line_type; tauto).
  all: destruct (r_items r) eqn:ER; injection E as <- <-; right; cbn; rewrite ?ER; cbn in *; lia.
Qed.
Lemma few_msg v mt s line txt st mt' ev s' : ~ multi_line_type (v_cmd2 v) -> few s -> handleMsgType cap v mt s line txt = Ok (st, mt', ev, s') -> few s'.
Proof.
  intros NM [D F] E. unfold handleMsgType in E.
  match type of E with bind ?A _ = _ => destruct A as [[[[st0 mt0] ev0] s0]| |] eqn:EA; cbn [bind] in E; try discriminate end.
  assert (F0 : few s0).
  { destruct mt; try (injection EA as <- <- <- <-; split; assumption).
    destruct (ProcessLine (v_tokens v) line txt (match rx_resp s with Some r => r | None => AtResponseNew end) (v_cmd2 v)) as [[st1 r1]| |] eqn:EP; cbn [bind] in EA; try discriminate.
    assert (L : st1 = PKT_OK \/ (length (r_items r1) <= 1)%nat).
    { eapply few_process; [exact NM| |exact EP]. destruct (rx_resp s) as [r|]; [apply F; reflexivity|cbn; lia]. }
    destruct st1; try (injection EA as <- <- <- <-; split; [exact D|]; intros r Q; injection Q as <-; destruct L as [L|L]; [discriminate|exact L]).
    destruct (v_handler v).
    - destruct (deliver (rx_buf s) (r_items r1)) as [cs| |]; cbn [bind] in EA; try discriminate. injection EA as <- <- <- <-. split; [exact D|discriminate].
    - cbn [bind] in EA. injection EA as <- <- <- <-. split; [exact D|discriminate]. }
  destruct mt0; try (injection E as <- <- <- <-; exact F0). destruct F0 as [D0 F0].
  destruct (if v_handler v then v_undef v txt else st0); injection E as <- <- <- <-; (split; [exact D0|first [exact F0|discriminate]]).
Qed.
Lemma few_next s line n len st mt r : few s -> getNextLine s line n len st mt = Ok r -> few_result r.
Proof.
  intros F E. unfold getNextLine in E. destruct (n <? len + 1)%nat; [discriminate|]. cbv zeta in E.
  destruct st; try (injection E as <-; exact F). destruct mt; try (injection E as <-; exact F).
  destruct (rd (rx_buf s) _ _) as [d| |]; cbn [bind] in E; try discriminate. destruct (wr (rx_buf s) 0 d) as [m| |]; cbn [bind] in E; try discriminate. injection E as <-. exact F.
Qed.
Lemma few_pass v s line n sod ev r sod' : single_view v -> few s -> pass cap v s line n sod = Ok (ev, r, sod') -> few_result r.
Proof.
  intros [VD VM] F E. unfold pass in E. destruct (skip_eol (rx_buf s) line n) as [[line1 n1]| |]; cbn [bind] in E; try discriminate.
  destruct (preprocessInputBuffer cap v s line1 n1) as [r1| |] eqn:E1; cbn [bind] in E; try discriminate. pose proof (few_inbuf _ _ _ _ _ F E1) as F1.
  destruct r1 as [s1|s1 line2 n2]; [injection E as <- <- <-; exact F1|].
  destruct (preprocessLine cap v s1 line2 n2 sod) as [[r2 sod2]| |] eqn:E2; cbn [bind] in E; try discriminate. pose proof (few_preline _ _ _ _ _ _ _ VD F1 E2) as F2.
  destruct r2 as [s2|s2 line3 n3]; [injection E as <- <- <-; exact F2|].
  destruct (find_eol (rx_buf s2) line3 n3) as [[i|]| |]; cbn [bind] in E; try discriminate; [|injection E as <- <- <-; exact F2].
  destruct (st (rx_buf s2) (line3 + i) 0%N) as [m| |]; cbn [bind] in E; try discriminate. destruct (cstr_get m line3) as [txt|]; cbn [bind] in E; try discriminate.
  destruct (handleMsgType cap v (getMsgType (v_tokens v) (v_cmd v) txt (v_prefix v)) (set_buf s2 m) line3 txt) as [[[[st0 mt0] ev0] s4]| |] eqn:EM; cbn [bind] in E; try discriminate.
  assert (F4 : few s4) by (eapply few_msg; [exact VM| |exact EM]; exact F2).
  assert (NX : forall st9, (do x <- getNextLine s4 line3 n3 i st9 mt0; Ok (ev0, x, sod2)) = Ok (ev, r, sod') -> few_result r).
  { intros st9 EE. destruct (getNextLine s4 line3 n3 i st9 mt0) as [r9| |] eqn:EN; cbn [bind] in EE; try discriminate. injection EE as <- <- <-. eapply few_next; eassumption. }
  destruct st0; try (eapply NX; exact E); try (injection E as <- <- <-; exact F4).
  pose proof F4 as [D4 _]. rewrite D4 in E. cbn [Nat.eqb negb] in E. eapply NX; exact E.
Qed.
Lemma few_all env : (forall t h, single_view (env t h)) -> forall fuel t ev s line n sod t' ev' s', few s -> handleAllReceived cap fuel env t ev s line n sod = Ok (t', ev', s') -> few s'.
Proof.
  intro SV. induction fuel as [|f IH]; intros t ev s line n sod t' ev' s' F E; [discriminate|]. cbn [handleAllReceived] in E.
  destruct (pass cap (env t ev) s line n sod) as [[[e r] sod1]| |] eqn:EP; cbn [bind] in E; try discriminate. pose proof (few_pass _ _ _ _ _ _ _ _ (SV t ev) F EP) as FR.
  destruct r as [s1|s1 l1 n1]; [injection E as <- <- <-; exact FR|]. eapply IH; eassumption.
Qed.
Lemma few_event env : (forall t h, single_view (env t h)) -> forall fuel t ev s recv b t' ev' s', few s -> handleRxDataEvent cap fuel env t ev s recv = Ok (b, t', ev', s') -> few s'.
Proof.
  intros SV fuel t ev s recv b t' ev' s' F E. unfold handleRxDataEvent in E. destruct (ReadLine cap s recv) as [[[pl bytes] s1]| |] eqn:ER; cbn [bind] in E; try discriminate.
  assert (F1 : few s1).
  { destruct (readline_bare cap s (rx_resp s) recv pl bytes s1 ER) as (s1' & EB & BB & R1); [tauto|]. split; [|intros r Q; rewrite R1 in Q; apply (proj2 F); exact Q].
    clear - ER F. destruct F as [F _]. unfold ReadLine in ER. set (cp := _ && _ && _) in ER. destruct cp.
    - destruct (rd (rx_buf s) _ _) as [d| |]; cbn [bind] in *; try discriminate. destruct (wr (rx_buf s) 0 d) as [m| |]; cbn [bind] in *; try discriminate.
      destruct (st m (rx_partial s) 0%N) as [m'| |]; cbn [bind] in *; try discriminate. destruct (0 <? _)%nat.
      + destruct (wr _ _ _) as [m2| |]; cbn [bind] in *; try discriminate. destruct (0 <? length _)%nat; [destruct (st m2 _ _) as [m3| |]; cbn [bind] in *; try discriminate|]; injection ER as <- <- <-; exact F.
      + injection ER as <- <- <-; exact F.
    - cbn [bind] in ER. destruct (0 <? _)%nat.
      + destruct (wr _ _ _) as [m2| |]; cbn [bind] in *; try discriminate. destruct (0 <? length _)%nat; [destruct (st m2 _ _) as [m3| |]; cbn [bind] in *; try discriminate|]; injection ER as <- <- <-; exact F.
      + injection ER as <- <- <-; exact F. }
  destruct (0 <? bytes)%nat; [|injection E as <- <- <- <-; exact F1]. destruct pl as [line|]; [|discriminate]. rewrite (proj1 F1) in E. cbn [Nat.eqb negb bind] in E.
  destruct (0 <? bytes)%nat; [|injection E as <- <- <- <-; exact F1]. destruct (st (rx_buf s1) (line + bytes) 0%N) as [m| |]; cbn [bind] in E; try discriminate.
  destruct (handleAllReceived cap fuel env t ev (set_buf s1 m) line bytes None) as [[[t3 h3] s3]| |] eqn:EA; cbn [bind] in E; try discriminate. injection E as <- <- <- <-.
  eapply few_all; [exact SV| |exact EA]. exact F1.
Qed.
Lemma few_reader env fuel : (forall t h, single_view (env t h)) -> forall inp t ev s t' ev' s', few s -> reader cap fuel env t ev s inp = Ok (t', ev', s') -> few s'.
Proof.
  intro SV. induction inp as [|r inp IH]; intros t ev s t' ev' s' F E; cbn [reader] in E; [injection E as <- <- <-; exact F|].
  destruct (handleRxDataEvent cap fuel env t ev s r) as [[[[b t1] e1] s1]| |] eqn:ER; cbn [bind] in E; try discriminate. eapply IH; [eapply few_event; eassumption|exact E].
Qed.
End Few.

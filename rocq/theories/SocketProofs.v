(** Proofs about the socket table (Socket.v). *)
From Coq Require Import List NArith ZArith Bool Lia Arith.
From Verif Require Import Bytes Status Socket.
Import ListNotations.

(** * List helpers *)
Lemma tset_length t i v : length (tset t i v) = length t.
Proof. revert i; induction t; destruct i; cbn [tset length]; auto. Qed.

Lemma tset_nth t i j v : (i < length t)%nat ->
  nth_error (tset t i v) j = if (j =? i)%nat then Some v else nth_error t j.
Proof.
  revert i j; induction t as [|x t IH]; intros i j H; [cbn in H; lia|].
  destruct i, j; cbn [tset nth_error Nat.eqb]; auto.
  apply IH; cbn [length] in H; lia.
Qed.

Lemma first_free_some t i : first_free t = Some i ->
  nth_error t i = Some None /\ forall j, (j < i)%nat -> nth_error t j <> Some None.
Proof.
  revert i; induction t as [|x t IH]; intros i H; cbn [first_free] in H; [discriminate|].
  destruct x as [a|].
  - destruct (first_free t) as [k|] eqn:E; [|discriminate]. inversion H; subst.
    destruct (IH k eq_refl) as [I1 I2]. split; [exact I1|].
    intros j Hj; destruct j; cbn [nth_error]; [discriminate|apply I2; lia].
  - inversion H; subst; split; [reflexivity|intros; lia].
Qed.

Lemma first_free_none t : first_free t = None -> forall j, nth_error t j <> Some None.
Proof.
  induction t as [|x t IH]; intros H j; cbn [first_free] in H.
  - destruct j; discriminate.
  - destruct x as [a|]; [|discriminate].
    destruct (first_free t) eqn:E; [discriminate|].
    destruct j; cbn [nth_error]; [discriminate|apply IH; reflexivity].
Qed.

Lemma find_handle_some t h i : find_handle t h = Some i -> nth_error t i = Some (Some h).
Proof.
  revert i; induction t as [|x t IH]; intros i H; cbn [find_handle] in H; [discriminate|].
  destruct x as [a|].
  - destruct (a =? h)%nat eqn:E.
    + apply Nat.eqb_eq in E; inversion H; subst; reflexivity.
    + destruct (find_handle t h) as [k|]; [|discriminate]. inversion H; subst. apply IH; reflexivity.
  - destruct (find_handle t h) as [k|]; [|discriminate]. inversion H; subst. apply IH; reflexivity.
Qed.

Lemma find_handle_none t h : find_handle t h = None -> forall i, nth_error t i <> Some (Some h).
Proof.
  induction t as [|x t IH]; intros H i; cbn [find_handle] in H.
  - destruct i; discriminate.
  - destruct x as [a|].
    + destruct (a =? h)%nat eqn:E; [discriminate|].
      destruct (find_handle t h); [discriminate|].
      destruct i; cbn [nth_error]; [|apply IH; reflexivity].
      apply Nat.eqb_neq in E; congruence.
    + destruct (find_handle t h); [discriminate|].
      destruct i; cbn [nth_error]; [discriminate|apply IH; reflexivity].
Qed.

Lemma nth_nth_error {A} (l : list A) i d x : nth_error l i = Some x -> nth i l d = x.
Proof. revert i; induction l; destruct i; cbn; intros; try discriminate; [congruence|auto]. Qed.

(** * Invariant of every history *)
Definition sinv (s : sstate) : Prop :=
  length (tbl s) = NUM_SOCKET_MAX
  /\ (forall i a, nth_error (tbl s) i = Some (Some a) ->
        exists k, heap s a = Some k /\ sk_id k = N.of_nat i)
  /\ (forall a k, heap s a = Some k -> nth_error (tbl s) (N.to_nat (sk_id k)) = Some (Some a)).

Lemma sinv_init : sinv sinit.
Proof.
  split; [reflexivity|split].
  - intros i a H. cbn [sinit tbl] in H. apply nth_error_In in H. apply repeat_spec in H. discriminate.
  - intros a k H; discriminate.
Qed.

Lemma sinv_upd s h k k' : sinv s -> heap s h = Some k -> sk_id k' = sk_id k ->
  sinv {| tbl := tbl s; heap := hset (heap s) h (Some k') |}.
Proof.
  intros (I1 & I2 & I3) Hh Hid. split; [exact I1|split]; cbn [tbl heap].
  - intros i a Hi. destruct (I2 _ _ Hi) as (k0 & E & Eid). unfold hset.
    destruct (a =? h)%nat eqn:Ea; [|eauto].
    apply Nat.eqb_eq in Ea; subst. rewrite Hh in E; inversion E; subst. exists k'; split; congruence.
  - intros a k0 H. unfold hset in H. destruct (a =? h)%nat eqn:Ea; [|auto].
    apply Nat.eqb_eq in Ea; subst. inversion H; subst. rewrite Hid. auto.
Qed.

Lemma create_inv s ctx d t p m e o s' : sinv s -> (forall a, m = Some a -> heap s a = None) ->
  CreateSocketData s ctx d t p m = (e, o, s') -> sinv s'.
Proof.
  intros (I1 & I2 & I3) Hm H. unfold CreateSocketData in H.
  destruct (first_free (tbl s)) as [i|] eqn:F; [|inversion H; subst; split; auto].
  destruct m as [a|]; [|inversion H; subst; split; auto].
  inversion H; subst; clear H. specialize (Hm a eq_refl).
  destruct (first_free_some _ _ F) as [F1 _].
  assert (Hl : (i < length (tbl s))%nat) by (apply nth_error_Some; congruence).
  split; [cbn [tbl]; rewrite tset_length; exact I1|split]; cbn [tbl heap].
  - intros j b Hj. rewrite tset_nth in Hj by exact Hl. unfold hset.
    destruct (j =? i)%nat eqn:E.
    + apply Nat.eqb_eq in E; subst. inversion Hj; subst. rewrite Nat.eqb_refl. eexists; split; reflexivity.
    + destruct (I2 _ _ Hj) as (k & Ek & Eid). destruct (b =? a)%nat eqn:Eb; [|eauto].
      apply Nat.eqb_eq in Eb; subst; congruence.
  - intros b k H. unfold hset in H. destruct (b =? a)%nat eqn:Eb.
    + apply Nat.eqb_eq in Eb; subst. inversion H; subst. cbn [new_sock sk_id].
      rewrite Nnat.Nat2N.id, tset_nth, Nat.eqb_refl by exact Hl. reflexivity.
    + rewrite tset_nth by exact Hl. specialize (I3 _ _ H).
      destruct (N.to_nat (sk_id k) =? i)%nat eqn:E; [|exact I3].
      apply Nat.eqb_eq in E. rewrite E in I3. congruence.
Qed.

Lemma remove_inv s h e s' : sinv s -> RemoveSocketData s h = Ok (e, s') -> sinv s'.
Proof.
  intros HI H. pose proof HI as (I1 & I2 & I3). unfold RemoveSocketData in H.
  destruct (heap s h) as [k|] eqn:Hh; [|discriminate].
  destruct (find_handle (tbl s) h) as [i|] eqn:F; inversion H; subst; clear H; [|exact HI].
  apply find_handle_some in F.
  assert (Hl : (i < length (tbl s))%nat) by (apply nth_error_Some; congruence).
  destruct (I2 _ _ F) as (k0 & E0 & Eid). rewrite Hh in E0; inversion E0; subst k0.
  split; [cbn [tbl]; rewrite tset_length; exact I1|split]; cbn [tbl heap].
  - intros j b Hj. rewrite tset_nth in Hj by exact Hl.
    destruct (j =? i)%nat eqn:E; [discriminate|].
    destruct (I2 _ _ Hj) as (k1 & Ek & Ejd). unfold hset.
    destruct (b =? h)%nat eqn:Eb; [|eauto].
    apply Nat.eqb_eq in Eb; subst b. apply Nat.eqb_neq in E.
    rewrite Hh in Ek; inversion Ek; subst k1. rewrite Eid in Ejd. apply Nnat.Nat2N.inj in Ejd. congruence.
  - intros b k1 H. unfold hset in H. destruct (b =? h)%nat eqn:Eb; [discriminate|].
    rewrite tset_nth by exact Hl. specialize (I3 _ _ H).
    destruct (N.to_nat (sk_id k1) =? i)%nat eqn:E; [|exact I3].
    apply Nat.eqb_eq in E. rewrite E in I3. apply Nat.eqb_neq in Eb. congruence.
Qed.

Lemma sso_transport_id opt k v e k' : SetSockOptTransport opt k v = (e, k') -> sk_id k' = sk_id k.
Proof.
  unfold SetSockOptTransport; intro H.
  destruct opt; try (destruct (_ =? _)%nat); try (destruct (is_allocated k)); cbn [andb] in H;
    inversion H; subst; reflexivity.
Qed.

Lemma sstep_inv s o e h s' : sinv s -> malloc_ok s o -> sstep s o = Ok (e, h, s') -> sinv s'.
Proof.
  intros HI Hm H. destruct o as [pdn d t p m|a|a lvl opt v|a w f c|a st]; cbn [sstep] in H.
  - unfold CommonCreateSocket in H. cbn [lib_open CheckLibraryStatus negb] in H.
    inversion H as [H1]; clear H. cbn in H1.
    destruct (IsValidPdn pdn); try (inversion H1; subst; exact HI).
    eapply create_inv; [exact HI| |exact H1]. intros a ->. exact Hm.
  - destruct (RemoveSocketData s a) as [[e1 s1]| |] eqn:R; cbn [bind] in H; try discriminate.
    inversion H; subst. eapply remove_inv; eauto.
  - unfold CommonSocketSetSockOpt in H. cbn in H.
    destruct v as [|b v]; cbn [bind fst snd] in H; [inversion H; subst; exact HI|].
    destruct lvl; cbn [bind fst snd] in H; [inversion H; subst; exact HI|].
    destruct (heap s a) as [k|] eqn:Ek; cbn [bind] in H; [|discriminate].
    destruct (SetSockOptTransport opt k (b :: v)) as [e1 k1] eqn:S1; cbn [bind fst snd] in H.
    inversion H; subst. eapply sinv_upd; eauto using sso_transport_id.
  - unfold CommonSocketRegisterCallback in H. cbn in H.
    destruct (heap s a) as [k|] eqn:Ek; cbn [bind fst snd] in H; [|discriminate].
    inversion H; subst. eapply sinv_upd; eauto. destruct w; reflexivity.
  - destruct (heap s a) as [k|] eqn:Ek; [|discriminate]. inversion H; subst.
    eapply sinv_upd; eauto.
Qed.

Lemma sreach_inv s : sreach s -> sinv s.
Proof. induction 1; [apply sinv_init|eapply sstep_inv; eauto]. Qed.

(** * Counting the live sockets *)
Fixpoint handles (t : list (option nat)) : list nat :=
  match t with [] => [] | None :: r => handles r | Some a :: r => a :: handles r end.

Lemma handles_in t a : In a (handles t) <-> exists i, nth_error t i = Some (Some a).
Proof.
  induction t as [|x t IH]; cbn [handles].
  - split; [intros []|intros [i H]; destruct i; discriminate].
  - destruct x as [b|]; cbn [In]; rewrite IH; split.
    + intros [->|[i H]]; [exists 0%nat; reflexivity|exists (S i); exact H].
    + intros [[|i] H]; cbn [nth_error] in H; [left; congruence|right; eauto].
    + intros [i H]; exists (S i); exact H.
    + intros [[|i] H]; cbn [nth_error] in H; [discriminate|eauto].
Qed.

Lemma handles_le t : (length (handles t) <= length t)%nat.
Proof. induction t as [|[a|] t IH]; cbn [handles length]; lia. Qed.

Lemma handles_full t : first_free t = None <-> length (handles t) = length t.
Proof.
  induction t as [|[a|] t IH]; cbn [first_free handles length].
  - split; reflexivity.
  - destruct (first_free t); split; intro H; try discriminate.
    + inversion H as [H1]. apply IH in H1. discriminate.
    + f_equal; apply IH; reflexivity.
    + reflexivity.
  - pose proof (handles_le t). split; [discriminate|lia].
Qed.

Lemma handles_nodup t : (forall i j a, nth_error t i = Some (Some a) -> nth_error t j = Some (Some a) -> i = j) ->
  NoDup (handles t).
Proof.
  induction t as [|x t IH]; intro H; cbn [handles]; [constructor|].
  assert (IHt : NoDup (handles t)).
  { apply IH. intros i j a Hi Hj. pose proof (H (S i) (S j) a Hi Hj). lia. }
  destruct x as [a|]; [|exact IHt]. constructor; [|exact IHt].
  rewrite handles_in. intros [i Hi]. pose proof (H 0%nat (S i) a eq_refl Hi). lia.
Qed.

Lemma sinv_handles s : sinv s -> NoDup (handles (tbl s)) /\ forall a, In a (handles (tbl s)) <-> heap s a <> None.
Proof.
  intros (I1 & I2 & I3). split.
  - apply handles_nodup. intros i j a Hi Hj.
    destruct (I2 _ _ Hi) as (k & E & Ei). destruct (I2 _ _ Hj) as (k' & E' & Ei').
    rewrite E in E'; inversion E'; subst. rewrite Ei in Ei'. apply Nnat.Nat2N.inj; exact Ei'.
  - intro a. rewrite handles_in. split.
    + intros [i Hi]. destruct (I2 _ _ Hi) as (k & E & _). congruence.
    + intro H. destruct (heap s a) as [k|] eqn:E; [|congruence]. eauto.
Qed.

(** * Facts used by Properties_Socket *)
Lemma live_slot s a k : sreach s -> heap s a = Some k ->
  (sk_id k < 12)%N /\ GetSocketData s (sk_id k) = Some a /\ IsValidSocket s (sk_id k) = C_SUCCESS.
Proof.
  intros HR Hk. destruct (sreach_inv _ HR) as (I1 & I2 & I3). specialize (I3 _ _ Hk).
  assert (L : (N.to_nat (sk_id k) < 12)%nat).
  { unfold NUM_SOCKET_MAX in I1. rewrite <- I1. apply nth_error_Some. congruence. }
  assert (L2 : (sk_id k < 12)%N) by lia.
  split; [exact L2|]. unfold GetSocketData, IsValidSocket.
  replace (N.of_nat NUM_SOCKET_MAX <=? sk_id k)%N with false
    by (symmetry; apply N.leb_gt; unfold NUM_SOCKET_MAX; lia).
  rewrite (nth_nth_error _ _ None _ I3). split; reflexivity.
Qed.

Lemma slot_live s i a : sreach s -> GetSocketData s i = Some a -> exists k, heap s a = Some k /\ sk_id k = i.
Proof.
  intros HR H. destruct (sreach_inv _ HR) as (I1 & I2 & I3). unfold GetSocketData in H.
  destruct (N.of_nat NUM_SOCKET_MAX <=? i)%N eqn:E; [discriminate|]. apply N.leb_gt in E.
  destruct (nth_error (tbl s) (N.to_nat i)) as [x|] eqn:En.
  - rewrite (nth_nth_error _ _ None _ En) in H. subst x. destruct (I2 _ _ En) as (k & Ek & Eid).
    exists k. split; [exact Ek|]. rewrite Eid. apply Nnat.N2Nat.id.
  - apply nth_error_None in En. rewrite I1 in En. lia.
Qed.

Lemma pdn_valid c : IsValidPdn c = C_SUCCESS <-> (1 <= c <= 16)%N.
Proof.
  unfold IsValidPdn, PDN_MAX, PDN_MIN. destruct (16 <? c)%N eqn:A; cbn [orb].
  - apply N.ltb_lt in A. split; [discriminate|lia].
  - apply N.ltb_ge in A. destruct (c <? 1)%N eqn:B.
    + apply N.ltb_lt in B. split; [discriminate|lia].
    + apply N.ltb_ge in B. split; [lia|reflexivity].
Qed.

Lemma create_open s pdn d t p m : CommonCreateSocket lib_open s pdn d t p true m =
  if ((1 <=? pdn) && (pdn <=? 16))%N then CreateSocketData s pdn d t p m else (C_INVALID_HANDLE, None, s).
Proof.
  unfold CommonCreateSocket. cbn.
  destruct ((1 <=? pdn) && (pdn <=? 16))%N eqn:E.
  - apply andb_true_iff in E. destruct E as [E1 E2]. apply N.leb_le in E1. apply N.leb_le in E2.
    replace (IsValidPdn pdn) with C_SUCCESS; [reflexivity|]. symmetry; apply pdn_valid; lia.
  - destruct (IsValidPdn pdn) eqn:V; try reflexivity.
    apply pdn_valid in V. apply andb_false_iff in E. destruct E as [E|E]; apply N.leb_gt in E; lia.
Qed.

Lemma create_iff s pdn d t p m : sreach s ->
  (exists o s', CommonCreateSocket lib_open s pdn d t p true m = (C_SUCCESS, o, s')) <->
  ((1 <= pdn <= 16)%N /\ m <> None /\ exists live, NoDup live /\ (forall a, In a live <-> heap s a <> None) /\ (length live < 12)%nat).
Proof.
  intros HR. pose proof (sreach_inv _ HR) as HI. destruct (sinv_handles _ HI) as [ND HIn].
  destruct HI as (I1 & _). rewrite create_open.
  destruct ((1 <=? pdn) && (pdn <=? 16))%N eqn:E.
  2:{ split; [intros (o & s' & H); discriminate|]. intros (Hp & _).
      apply andb_false_iff in E. destruct E as [E|E]; apply N.leb_gt in E; lia. }
  apply andb_true_iff in E. destruct E as [E1 E2]. apply N.leb_le in E1. apply N.leb_le in E2.
  unfold CreateSocketData. pose proof (handles_full (tbl s)) as HF. pose proof (handles_le (tbl s)) as HL.
  destruct (first_free (tbl s)) as [i|] eqn:F.
  - destruct m as [a|].
    + split; [|intros _; eauto]. intros _. split; [lia|split; [discriminate|]].
      exists (handles (tbl s)). split; [exact ND|split; [exact HIn|]].
      assert (length (handles (tbl s)) <> length (tbl s)) by (intro Q; apply HF in Q; discriminate).
      unfold NUM_SOCKET_MAX in I1. lia.
    + split; [intros (o & s' & H); discriminate|intros (_ & H & _); congruence].
  - split; [intros (o & s' & H); discriminate|].
    intros (_ & _ & live & ND' & HIn' & Hlen). exfalso.
    assert (length (handles (tbl s)) = 12%nat) by (unfold NUM_SOCKET_MAX in I1; rewrite <- I1; apply HF; reflexivity).
    assert (length (handles (tbl s)) <= length live)%nat.
    { apply NoDup_incl_length; [exact ND|]. intros a Ha. apply HIn'. apply HIn. exact Ha. }
    lia.
Qed.

Lemma create_fail_same s pdn d t p m e o s' :
  CommonCreateSocket lib_open s pdn d t p true m = (e, o, s') -> e <> C_SUCCESS -> o = None /\ s' = s.
Proof.
  rewrite create_open. destruct (_ && _)%bool; [unfold CreateSocketData|]; intros H He.
  - destruct (first_free (tbl s)); [|inversion H; auto]. destruct m; inversion H; subst; auto. congruence.
  - inversion H; auto.
Qed.

Lemma create_fresh s pdn d t p m o s' : sreach s -> malloc_ok s (OpCreate pdn d t p m) ->
  CommonCreateSocket lib_open s pdn d t p true m = (C_SUCCESS, o, s') ->
  exists a i, o = Some a /\ heap s a = None /\ (i < 12)%N /\ GetSocketData s i = None /\ GetSocketData s' i = Some a /\ (forall j, (j < i)%N -> GetSocketData s j <> None) /\ (forall j, j <> i -> GetSocketData s' j = GetSocketData s j) /\ (forall b, b <> a -> heap s' b = heap s b) /\ heap s' a = Some {| sk_ctx := pdn; sk_id := i; sk_state := SS_ALLOCATED; sk_type := t; sk_domain := d; sk_proto := p;
       sk_localPort := 0; sk_sendTo := 0; sk_recvTo := 0; sk_dataReady := 0; sk_dataReadyCtx := 0; sk_open := 0;
       sk_openCtx := 0; sk_closed := 0; sk_closedCtx := 0; sk_rest := 0 |}.
Proof.
  intros HR Hm H. destruct (sreach_inv _ HR) as (I1 & I2 & I3). rewrite create_open in H.
  destruct ((1 <=? pdn) && (pdn <=? 16))%N; [|discriminate]. unfold CreateSocketData in H.
  destruct (first_free (tbl s)) as [i|] eqn:F; [|discriminate].
  destruct m as [a|]; [|discriminate]. inversion H; subst; clear H. cbn [malloc_ok] in Hm.
  destruct (first_free_some _ _ F) as [F1 F2].
  assert (Hl : (i < length (tbl s))%nat) by (apply nth_error_Some; congruence).
  assert (Hi : (N.of_nat i < 12)%N) by (unfold NUM_SOCKET_MAX in I1; lia).
  exists a, (N.of_nat i). unfold GetSocketData. cbn [tbl heap].
  replace (N.of_nat NUM_SOCKET_MAX <=? N.of_nat i)%N with false by (symmetry; apply N.leb_gt; unfold NUM_SOCKET_MAX; lia).
  rewrite Nnat.Nat2N.id.
  repeat split.
  - exact Hm.
  - exact Hi.
  - apply nth_nth_error; exact F1.
  - apply nth_nth_error. rewrite tset_nth, Nat.eqb_refl by exact Hl. reflexivity.
  - intros j Hj. replace (N.of_nat NUM_SOCKET_MAX <=? j)%N with false by (symmetry; apply N.leb_gt; unfold NUM_SOCKET_MAX; lia).
    assert (L : (N.to_nat j < i)%nat) by lia. specialize (F2 _ L).
    destruct (nth_error (tbl s) (N.to_nat j)) as [x|] eqn:En.
    + rewrite (nth_nth_error _ _ None _ En). congruence.
    + apply nth_error_None in En. lia.
  - intros j Hj. destruct (N.of_nat NUM_SOCKET_MAX <=? j)%N eqn:E; [reflexivity|]. apply N.leb_gt in E.
    assert (L : (N.to_nat j < length (tbl s))%nat) by lia.
    destruct (nth_error (tbl s) (N.to_nat j)) as [x|] eqn:En; [|apply nth_error_None in En; lia].
    rewrite (nth_nth_error _ _ None _ En). apply nth_nth_error. rewrite tset_nth by exact Hl.
    replace (N.to_nat j =? i)%nat with false; [exact En|]. symmetry; apply Nat.eqb_neq. lia.
  - intros b Hb. unfold hset. replace (b =? a)%nat with false; [reflexivity|]. symmetry; apply Nat.eqb_neq; exact Hb.
  - unfold hset. rewrite Nat.eqb_refl. reflexivity.
Qed.

Lemma remove_live s h k : sreach s -> heap s h = Some k ->
  exists s', RemoveSocketData s h = Ok (C_SUCCESS, s') /\ heap s' h = None /\ (forall b, b <> h -> heap s' b = heap s b) /\ GetSocketData s' (sk_id k) = None /\ (forall j, j <> sk_id k -> GetSocketData s' j = GetSocketData s j).
Proof.
  intros HR Hk. destruct (sreach_inv _ HR) as (I1 & I2 & I3). unfold RemoveSocketData. rewrite Hk.
  pose proof (I3 _ _ Hk) as Hn.
  destruct (find_handle (tbl s) h) as [i|] eqn:F; [|exfalso; eapply find_handle_none; eauto].
  apply find_handle_some in F. destruct (I2 _ _ F) as (k0 & E0 & Eid). rewrite Hk in E0; inversion E0; subst k0.
  assert (Hl : (i < length (tbl s))%nat) by (apply nth_error_Some; congruence).
  eexists. split; [reflexivity|]. cbn [tbl heap]. unfold GetSocketData. cbn [tbl]. repeat split.
  - unfold hset. rewrite Nat.eqb_refl. reflexivity.
  - intros b Hb. unfold hset. replace (b =? h)%nat with false; [reflexivity|]. symmetry; apply Nat.eqb_neq; exact Hb.
  - rewrite Eid, Nnat.Nat2N.id. destruct (_ <=? _)%N; [reflexivity|].
    apply nth_nth_error. rewrite tset_nth, Nat.eqb_refl by exact Hl. reflexivity.
  - intros j Hj. destruct (N.of_nat NUM_SOCKET_MAX <=? j)%N eqn:E; [reflexivity|]. apply N.leb_gt in E.
    assert (L : (N.to_nat j < length (tbl s))%nat) by lia.
    destruct (nth_error (tbl s) (N.to_nat j)) as [x|] eqn:En; [|apply nth_error_None in En; lia].
    rewrite (nth_nth_error _ _ None _ En). apply nth_nth_error. rewrite tset_nth by exact Hl.
    replace (N.to_nat j =? i)%nat with false; [exact En|]. symmetry; apply Nat.eqb_neq. rewrite Eid in Hj. lia.
Qed.

Lemma remove_foreign s h k : heap s h = Some k -> (forall i, GetSocketData s i <> Some h) -> length (tbl s) = 12%nat ->
  RemoveSocketData s h = Ok (C_BAD_PARAMETER, s).
Proof.
  intros Hk Hn HL. unfold RemoveSocketData. rewrite Hk.
  destruct (find_handle (tbl s) h) as [i|] eqn:F; [|reflexivity]. exfalso. apply find_handle_some in F.
  assert (Hl : (i < length (tbl s))%nat) by (apply nth_error_Some; congruence).
  apply (Hn (N.of_nat i)). unfold GetSocketData.
  replace (N.of_nat NUM_SOCKET_MAX <=? N.of_nat i)%N with false by (symmetry; apply N.leb_gt; unfold NUM_SOCKET_MAX; lia).
  rewrite Nnat.Nat2N.id. apply nth_nth_error; exact F.
Qed.

(** * PDN context id of live sockets *)
Definition pdn_opt_in_range (o : sop) : Prop :=
  match o with OpSetOpt _ _ OPT_PDN_CONTEXT_ID v => (1 <= le_value v <= 16)%N | _ => True end.

Inductive sreach_pdn : sstate -> Prop :=
| sreach_pdn_init : sreach_pdn sinit
| sreach_pdn_step s o e h s' : sreach_pdn s -> malloc_ok s o -> pdn_opt_in_range o -> sstep s o = Ok (e, h, s') -> sreach_pdn s'.

Lemma pdn_range s : sreach_pdn s -> forall a k, heap s a = Some k -> (1 <= sk_ctx k <= 16)%N.
Proof.
  induction 1 as [|s o e h s' _ IH _ Hp H]; [intros a k Hk; discriminate|].
  assert (UPD : forall x k1, (1 <= sk_ctx k1 <= 16)%N -> forall a k, hset (heap s) x (Some k1) a = Some k -> (1 <= sk_ctx k <= 16)%N).
  { intros x k1 Hk1 a k Ha. unfold hset in Ha. destruct (a =? x)%nat; [inversion Ha; subst; exact Hk1|eauto]. }
  destruct o as [pdn d t p m|x|x lvl opt v|x w f c|x st]; cbn [sstep] in H.
  - inversion H as [H1]; clear H. rewrite create_open in H1.
    destruct ((1 <=? pdn) && (pdn <=? 16))%N eqn:E; [|inversion H1; subst; exact IH].
    apply andb_true_iff in E. destruct E as [E1 E2]. apply N.leb_le in E1. apply N.leb_le in E2.
    unfold CreateSocketData in H1. destruct (first_free (tbl s)); [|inversion H1; subst; exact IH].
    destruct m; inversion H1; subst; [|exact IH]. cbn [heap]. apply UPD. cbn [new_sock sk_ctx]. lia.
  - unfold RemoveSocketData in H. destruct (heap s x) eqn:Ex; cbn [bind] in H; [|discriminate].
    destruct (find_handle (tbl s) x); cbn [bind fst snd] in H; inversion H; subst; [|exact IH].
    cbn [heap]. intros a k Ha. unfold hset in Ha. destruct (a =? x)%nat; [discriminate|eauto].
  - unfold CommonSocketSetSockOpt in H. cbn in H.
    destruct v as [|b v]; cbn [bind fst snd] in H; [inversion H; subst; exact IH|].
    destruct lvl; cbn [bind fst snd] in H; [inversion H; subst; exact IH|].
    destruct (heap s x) as [k|] eqn:Ek; cbn [bind] in H; [|discriminate].
    destruct (SetSockOptTransport opt k (b :: v)) as [e1 k1] eqn:S1; cbn [bind fst snd] in H.
    inversion H; subst. cbn [heap]. apply UPD. specialize (IH _ _ Ek).
    unfold SetSockOptTransport in S1.
    destruct opt; cbn [pdn_opt_in_range] in Hp; try (destruct (_ =? _)%nat); try (destruct (is_allocated k)); cbn [andb] in S1;
      inversion S1; subst; cbn [with_sendTo with_recvTo with_ctx with_localPort sk_ctx]; assumption.
  - unfold CommonSocketRegisterCallback in H. cbn in H.
    destruct (heap s x) as [k|] eqn:Ek; cbn [bind fst snd] in H; [|discriminate].
    inversion H; subst. cbn [heap]. apply UPD. specialize (IH _ _ Ek). destruct w; exact IH.
  - destruct (heap s x) as [k|] eqn:Ek; [|discriminate]. inversion H; subst. cbn [heap]. apply UPD. exact (IH _ _ Ek).
Qed.

(** * Concurrent creation *)
Lemma crun_app l1 l2 s t1 t2 p1 p2 m1 m2 : crun (l1 ++ l2) s t1 t2 p1 p2 m1 m2 =
  let '(s', a, b) := crun l1 s t1 t2 p1 p2 m1 m2 in crun l2 s' a b p1 p2 m1 m2.
Proof.
  revert s t1 t2; induction l1 as [|[|] l1 IH]; intros; cbn [crun app]; [reflexivity| |].
  - destruct (cstep s t1 p1 m1); apply IH.
  - destruct (cstep s t2 p2 m2); apply IH.
Qed.

(** Running one thread alone to completion has the effect of the sequential function. *)
Lemma solo_scan s i c d ty p m : length (tbl s) = 12%nat -> (i <= 12)%nat ->
  (forall j, (j < i)%nat -> nth_error (tbl s) j <> Some None) ->
  forall fuel, (14 - i <= fuel)%nat -> forall t2 p2 m2,
  crun (repeat true fuel) s (CScan i) t2 (c, d, ty, p) p2 m m2 =
  let '(e, o, s') := CreateSocketData s c d ty p m in
  (s', match o with Some a => CDone a | None => CFail end, t2).
Proof.
  intros HL. remember (12 - i)%nat as n eqn:En. revert i En.
  assert (ST : forall fuel t s0 t2 p2 m2, (t = CFail \/ exists a, t = CDone a) ->
             crun (repeat true fuel) s0 t t2 (c, d, ty, p) p2 m m2 = (s0, t, t2)).
  { induction fuel as [|f IHf]; intros t s0 t2 p2 m2 Ht; cbn [repeat crun]; [reflexivity|].
    destruct Ht as [->|[a ->]]; cbn [cstep]; apply IHf; eauto. }
  induction n as [|n IH]; intros i En Hi Hpre fuel Hf t2 p2 m2.
  - assert (i = 12%nat) by lia; subst i. destruct fuel as [|f]; [lia|]. cbn [repeat crun cstep].
    unfold NUM_SOCKET_MAX. cbn [Nat.ltb Nat.leb]. rewrite ST by auto.
    unfold CreateSocketData. destruct (first_free (tbl s)) as [j|] eqn:F; [|reflexivity].
    destruct (first_free_some _ _ F) as [F1 _]. exfalso. apply (Hpre j); [|exact F1].
    rewrite <- HL. apply nth_error_Some. congruence.
  - destruct fuel as [|f]; [lia|]. cbn [repeat crun cstep].
    replace (i <? NUM_SOCKET_MAX)%nat with true by (symmetry; apply Nat.ltb_lt; unfold NUM_SOCKET_MAX; lia).
    destruct (nth_error (tbl s) i) as [x|] eqn:Ex; [|apply nth_error_None in Ex; lia].
    rewrite (nth_nth_error _ _ None _ Ex). destruct x as [a|].
    + apply IH; [lia|lia| |lia]. intros j Hj. destruct (Nat.eq_dec j i) as [->|]; [congruence|apply Hpre; lia].
    + assert (FF : first_free (tbl s) = Some i).
      { destruct (first_free (tbl s)) as [j|] eqn:F.
        - destruct (first_free_some _ _ F) as [F1 F2]. f_equal.
          destruct (lt_eq_lt_dec j i) as [[L|L]|L]; [exfalso; eapply Hpre; eauto|exact L|exfalso; eapply F2; eauto].
        - exfalso. eapply first_free_none; eauto. }
      unfold CreateSocketData. rewrite FF. destruct m as [a|]; [|rewrite ST by auto; reflexivity].
      destruct f as [|f]; [lia|]. cbn [repeat crun cstep]. rewrite ST by eauto. reflexivity.
Qed.

Lemma crun_swap l : forall s t1 t2 p1 p2 m1 m2,
  crun (map negb l) s t1 t2 p1 p2 m1 m2 = let '(s', a, b) := crun l s t2 t1 p2 p1 m2 m1 in (s', b, a).
Proof.
  induction l as [|[|] l IH]; intros; cbn [crun map negb]; [reflexivity| |].
  - destruct (cstep s t2 p2 m2); apply IH.
  - destruct (cstep s t1 p1 m1); apply IH.
Qed.

Lemma map_negb_repeat n : map negb (repeat true n) = repeat false n.
Proof. induction n; cbn [repeat map negb]; congruence. Qed.

Lemma serial_distinct s n1 n2 c1 d1 ty1 p1 c2 d2 ty2 p2 m1 m2 s' a b : sreach s -> (14 <= n1)%nat -> (14 <= n2)%nat ->
  (1 <= c1 <= 16)%N -> (1 <= c2 <= 16)%N ->
  (forall x, m1 = Some x -> heap s x = None) -> (forall x, m2 = Some x -> heap s x = None) -> m1 <> m2 ->
  crun (repeat true n1 ++ repeat false n2) s (CScan 0) (CScan 0) (c1,d1,ty1,p1) (c2,d2,ty2,p2) m1 m2 = (s', CDone a, CDone b) ->
  a <> b /\ exists i j, i <> j /\ GetSocketData s' i = Some a /\ GetSocketData s' j = Some b.
Proof.
  intros HR H1 H2 C1 C2 HM1 HM2 NE H. rewrite crun_app in H.
  pose proof (sreach_inv _ HR) as HI.
  rewrite (solo_scan s 0 c1 d1 ty1 p1 m1) in H by (try (destruct HI as [HI _]; exact HI); intros; lia).
  destruct (CreateSocketData s c1 d1 ty1 p1 m1) as [[e1 o1] s1] eqn:K1.
  cbv iota beta in H. rewrite <- map_negb_repeat, crun_swap in H.
  assert (Q1 : CommonCreateSocket lib_open s c1 d1 ty1 p1 true m1 = (e1, o1, s1)).
  { rewrite create_open. replace ((1 <=? c1) && (c1 <=? 16))%N with true; [exact K1|].
    symmetry; apply andb_true_iff; split; apply N.leb_le; lia. }
  assert (MO1 : malloc_ok s (OpCreate c1 d1 ty1 p1 m1)).
  { cbn [malloc_ok]. destruct m1; [apply HM1; reflexivity|exact I]. }
  assert (R1 : sreach s1).
  { eapply sreach_step with (o := OpCreate c1 d1 ty1 p1 m1); [exact HR|exact MO1|]. cbn [sstep]. rewrite Q1. reflexivity. }
  pose proof (sreach_inv _ R1) as HI1.
  rewrite (solo_scan s1 0 c2 d2 ty2 p2 m2) in H by (try (destruct HI1 as [HI1 _]; exact HI1); intros; lia).
  destruct (CreateSocketData s1 c2 d2 ty2 p2 m2) as [[e2 o2] s2] eqn:K2.
  cbv iota beta in H. destruct o1 as [a'|]; [|inversion H]. destruct o2 as [b'|]; [|inversion H].
  inversion H; subst; clear H.
  assert (E1 : e1 = C_SUCCESS /\ m1 = Some a).
  { unfold CreateSocketData in K1. destruct (first_free (tbl s)); [|inversion K1]. destruct m1; inversion K1; auto. }
  assert (E2 : e2 = C_SUCCESS /\ m2 = Some b).
  { unfold CreateSocketData in K2. destruct (first_free (tbl s1)); [|inversion K2]. destruct m2; inversion K2; auto. }
  destruct E1 as [-> ->], E2 as [-> ->].
  assert (AB : a <> b) by congruence. split; [exact AB|].
  destruct (create_fresh _ _ _ _ _ _ _ _ HR MO1 Q1) as (a0 & i & Ea & _ & _ & _ & Gi & _ & _ & Hh & _).
  inversion Ea; subst a0.
  assert (Q2 : CommonCreateSocket lib_open s1 c2 d2 ty2 p2 true (Some b) = (C_SUCCESS, Some b, s')).
  { rewrite create_open. replace ((1 <=? c2) && (c2 <=? 16))%N with true; [exact K2|].
    symmetry; apply andb_true_iff; split; apply N.leb_le; lia. }
  assert (MO2 : malloc_ok s1 (OpCreate c2 d2 ty2 p2 (Some b))).
  { cbn [malloc_ok]. rewrite Hh by congruence. apply HM2; reflexivity. }
  destruct (create_fresh _ _ _ _ _ _ _ _ R1 MO2 Q2) as (b0 & j & Eb & _ & _ & Gj0 & Gj & _ & Oj & _).
  inversion Eb; subst b0. exists i, j. assert (IJ : i <> j) by congruence.
  split; [exact IJ|]. split; [rewrite Oj by exact IJ; exact Gi|exact Gj].
Qed.

(** * Options *)
Definition legal_opt (opt : sock_opt) (v : list N) (st : sock_state) : Prop :=
  match opt with
  | OPT_SEND_TIMEOUT | OPT_RECV_TIMEOUT => length v = 4%nat
  | OPT_PDN_CONTEXT_ID => length v = 1%nat /\ st = SS_ALLOCATED
  | OPT_SET_LOCAL_PORT => length v = 2%nat /\ st = SS_ALLOCATED
  | OPT_MAX_IP_PACKET_SIZE => False
  end.

Lemma hset_same h a k : h a = Some k -> forall b, hset h a (Some k) b = h b.
Proof. intros H b. unfold hset. destruct (b =? a)%nat eqn:E; [|reflexivity]. apply Nat.eqb_eq in E; subst; auto. Qed.

Lemma transport_legal opt k v : legal_opt opt v (sk_state k) ->
  SetSockOptTransport opt k v = (C_SUCCESS,
    match opt with
    | OPT_SEND_TIMEOUT => with_sendTo k (le_value v)
    | OPT_RECV_TIMEOUT => with_recvTo k (le_value v)
    | OPT_PDN_CONTEXT_ID => with_ctx k (le_value v)
    | OPT_SET_LOCAL_PORT => with_localPort k (le_value v)
    | OPT_MAX_IP_PACKET_SIZE => k
    end).
Proof.
  unfold SetSockOptTransport, is_allocated. destruct opt; cbn [legal_opt]; intro H; try contradiction.
  - rewrite H; reflexivity.
  - rewrite H; reflexivity.
  - destruct H as [H S]; rewrite H, S; reflexivity.
  - destruct H as [H S]; rewrite H, S; reflexivity.
Qed.

Lemma transport_illegal opt k v : ~ legal_opt opt v (sk_state k) ->
  exists e, SetSockOptTransport opt k v = (e, k) /\ e <> C_SUCCESS.
Proof.
  unfold SetSockOptTransport, is_allocated. destruct opt; cbn [legal_opt]; intro H.
  - eexists; split; [reflexivity|discriminate].
  - destruct (length v =? 4)%nat eqn:E; [apply Nat.eqb_eq in E; contradiction|]. eexists; split; [reflexivity|discriminate].
  - destruct (length v =? 4)%nat eqn:E; [apply Nat.eqb_eq in E; contradiction|]. eexists; split; [reflexivity|discriminate].
  - destruct (length v =? 1)%nat eqn:E; [apply Nat.eqb_eq in E|]; destruct (sk_state k); cbn [andb];
      try (eexists; split; [reflexivity|discriminate]); exfalso; apply H; auto.
  - destruct (length v =? 2)%nat eqn:E; [apply Nat.eqb_eq in E|]; destruct (sk_state k); cbn [andb];
      try (eexists; split; [reflexivity|discriminate]); exfalso; apply H; auto.
Qed.

(** Proofs for C93. *)
From Coq Require Import List NArith ZArith Bool Arith Lia.
From Verif Require Import Bytes AtCore Status SpecAt Pktio SpecPktio SpecStream PktioSafe PktioStream G3pp Wire SpecWire SpecTimed PktioTimed Wakeup SpecWakeup.
Import ListNotations.

Section Proofs.
Variables (cap fuel : nat) (env : environment).

Lemma recv_of_contract f n : recv_contract (recv_of f n).
Proof. intro sp. unfold recv_of. rewrite firstn_length. lia. Qed.
Lemma recv_of_skip f n sp : f = recv_of f n sp ++ skipn (length (recv_of f n sp)) f.
Proof.
  unfold recv_of. set (k := Nat.min (S n) sp). rewrite firstn_length. destruct (Nat.le_ge_cases k (length f)).
  - rewrite Nat.min_l by lia. symmetry. apply firstn_skipn.
  - rewrite Nat.min_r by lia. rewrite skipn_all, app_nil_r. symmetry. apply firstn_all2. lia.
Qed.
Lemma recv_of_some f n sp : f <> [] -> sp <> 0%nat -> (0 < length (recv_of f n sp))%nat.
Proof. intros NE SP. unfold recv_of. rewrite firstn_length. destruct f; [congruence|]. cbn [length]. lia. Qed.

(** What a read returns. *)
Lemma event_count t h s recv k t' h' s' : recv_contract recv -> handleRxDataEvent cap fuel env t h s recv = Ok (k, t', h', s') ->
  (k = 0%nat <-> recv (offered cap s) = []).
Proof.
  intros RC. unfold handleRxDataEvent, ReadLine, offered. fold (compacts s).
  assert (TAIL : forall line bytes sx, (0 < bytes)%nat -> forall k t' h' s',
    (do d <- (if negb (rx_dlen sx =? 0)%nat then handleData (Some line) sx line bytes else Ok (line, bytes, sx));
        let '(line', lft, s2) := d in
        if (0 <? lft)%nat then
          do m <- st (rx_buf s2) (line' + lft) 0%N;
          do q <- handleAllReceived cap fuel env t h (set_buf s2 m) line' lft None;
          let '(t', h', s3) := q in Ok (bytes, t', h', s3)
        else Ok (bytes, t, h, s2)) = Ok (k, t', h', s') -> k = bytes).
  { intros line bytes sx B k0 t0 h0 s0. match goal with |- bind ?x _ = _ -> _ => destruct x as [[[l1 n1] s1]| |]; cbn [bind]; try discriminate end.
    destruct (0 <? n1)%nat; [|intro Q; inversion Q; reflexivity]. destruct (st _ _ 0%N); cbn [bind]; try discriminate.
    destruct (handleAllReceived _ _ _ _ _ _ _ _ _) as [[[? ?] ?]| |]; cbn [bind]; try discriminate. intro Q; inversion Q; reflexivity. }
  assert (NIL : forall sp, (0 <? length (recv sp))%nat = false -> recv sp = []).
  { intros sp E. apply Nat.ltb_ge in E. destruct (recv sp); [reflexivity|cbn [length] in E; lia]. }
  destruct (compacts s) eqn:EC.
  - destruct (rd _ _ _) as [d| |]; cbn [bind]; try discriminate. destruct (wr _ 0 d) as [m| |]; cbn [bind]; try discriminate.
    destruct (st _ _ _) as [m1| |]; cbn [bind]; try discriminate. cbn [set_left set_buf rx_buf rx_partial rx_ptr].
    destruct (0 <? cap - rx_partial s - 0)%nat eqn:ES.
    + apply Nat.ltb_lt in ES. destruct (wr m1 _ _) as [m2| |]; cbn [bind]; try discriminate.
      destruct (0 <? length (recv (cap - rx_partial s - 0)))%nat eqn:EB.
      * apply Nat.ltb_lt in EB. destruct (st m2 _ _) as [m3| |]; cbn [bind]; try discriminate.
        match goal with |- context [(0 <? ?x)%nat] => assert (L : (0 < x)%nat) by lia; apply Nat.ltb_lt in L; rewrite L; apply Nat.ltb_lt in L end.
        intro E. apply TAIL in E; [|exact L]. split; [lia|]. intro Q. rewrite Q in EB. cbn in EB. lia.
      * cbn [bind Nat.ltb Nat.leb]. intro E; inversion E; subst. split; [intros _; apply NIL; exact EB|reflexivity].
    + apply Nat.ltb_ge in ES. cbn [bind Nat.ltb Nat.leb]. intro E; inversion E; subst. split; [intros _|reflexivity].
      pose proof (RC (cap - rx_partial s - 0)%nat) as R. destruct (recv _); [reflexivity|cbn [length] in R; lia].
  - cbn [bind]. set (o := match rx_ptr s with Some p => p | None => 0%nat end).
    destruct (0 <? cap - rx_partial s - o)%nat eqn:ES.
    + apply Nat.ltb_lt in ES. destruct (wr _ _ _) as [m2| |]; cbn [bind]; try discriminate.
      destruct (0 <? length (recv (cap - rx_partial s - o)))%nat eqn:EB.
      * apply Nat.ltb_lt in EB. destruct (st m2 _ _) as [m3| |]; cbn [bind]; try discriminate.
        match goal with |- context [(0 <? ?x)%nat] => assert (L : (0 < x)%nat) by lia; apply Nat.ltb_lt in L; rewrite L; apply Nat.ltb_lt in L end.
        intro E. apply TAIL in E; [|exact L]. split; [lia|]. intro Q. rewrite Q in EB. cbn in EB. lia.
      * cbn [bind Nat.ltb Nat.leb]. intro E; inversion E; subst. split; [intros _; apply NIL; exact EB|reflexivity].
    + apply Nat.ltb_ge in ES. cbn [bind Nat.ltb Nat.leb]. intro E; inversion E; subst. split; [intros _|reflexivity].
      pose proof (RC (cap - rx_partial s - o)%nat) as R. destruct (recv _); [reflexivity|cbn [length] in R; lia].
Qed.

(** After a read that found the buffer full, the whole buffer is free. *)
Lemma event_full t h s recv k t' h' s' : handleRxDataEvent cap fuel env t h s recv = Ok (k, t', h', s') -> offered cap s = 0%nat -> offered cap s' = cap.
Proof.
  unfold handleRxDataEvent, ReadLine, offered. fold (compacts s). destruct (compacts s) eqn:EC.
  - destruct (rd _ _ _) as [d| |]; cbn [bind]; try discriminate. destruct (wr _ 0 d) as [m| |]; cbn [bind]; try discriminate.
    destruct (st _ _ _) as [m1| |]; cbn [bind]; try discriminate. cbn [set_left set_buf rx_buf rx_partial rx_ptr].
    destruct (0 <? cap - rx_partial s - 0)%nat eqn:ES; [apply Nat.ltb_lt in ES; intros _ Q; lia|].
    cbn [bind Nat.ltb Nat.leb]. intro E; inversion E; subst. intros _. cbn. lia.
  - cbn [bind]. set (o := match rx_ptr s with Some p => p | None => 0%nat end).
    destruct (0 <? cap - rx_partial s - o)%nat eqn:ES; [apply Nat.ltb_lt in ES; intros _ Q; lia|].
    cbn [bind Nat.ltb Nat.leb]. intro E; inversion E; subst. intros _. cbn. lia.
Qed.

(** Nothing is lost or reordered between the modem and the reader. *)
Definition conserved (s : state) : Prop := arrived s = concat (chunks s) ++ fifo s.
Lemma step_conserved l s s' : step cap fuel env l s = Some s' -> conserved s -> conserved s'.
Proof.
  unfold conserved. intros E C. destruct l as [bs|ok w| | |n|]; cbn [step] in E.
  - destruct bs as [|b bs]; [discriminate|]. inversion E; subst; cbn. rewrite C, <- app_assoc. reflexivity.
  - cbn [PktRxCallBack] in E. destruct ok; cbn [snd] in E; inversion E; subst; exact C.
  - inversion E; subst; exact C.
  - destruct (reader s); try discriminate. destruct (bit_abort s); [inversion E; subst; exact C|]. destruct (bit_rx s); [inversion E; subst; exact C|discriminate].
  - destruct (reader s); try discriminate. destruct (handleRxDataEvent _ _ _ _ _ _ _) as [[[[k t'] h'] x']| |]; try discriminate.
    inversion E; subst; cbn [arrived chunks fifo]. rewrite concat_app. cbn [concat]. rewrite app_nil_r, <- app_assoc.
    rewrite <- recv_of_skip. exact C.
  - destruct (reader s); try discriminate. inversion E; subst; exact C.
Qed.
Lemma reach_conserved ok s : reach cap fuel env ok s -> conserved s.
Proof. induction 1 as [|s l s' R IH O E]; [reflexivity|]. eapply step_conserved; eassumption. Qed.

(** Nobody sleeps while bytes wait. *)
Definition awake (s : state) : Prop :=
  fifo s <> [] -> owed s = true \/ bit_rx s = true \/ bit_abort s = true \/ (reader s <> Waiting /\ reader s <> Busy 0).
Lemma step_awake l s s' : signals_arrive s l -> ~ full_read cap s l -> step cap fuel env l s = Some s' -> awake s -> awake s'.
Proof.
  unfold awake. intros SG FR E A. destruct l as [bs|ok w| | |n|]; cbn [step] in E.
  - destruct bs as [|b bs]; [discriminate|]. inversion E; subst; cbn. tauto.
  - destruct ok; [|exfalso; exact (SG w eq_refl)]. cbn [PktRxCallBack snd] in E. inversion E; subst; cbn. tauto.
  - inversion E; subst; cbn. tauto.
  - destruct (reader s); try discriminate. destruct (bit_abort s); [inversion E; subst; cbn; intros _; right; right; right; split; discriminate|].
    destruct (bit_rx s); [inversion E; subst; cbn; intros _; right; right; right; split; discriminate|discriminate].
  - destruct (reader s) eqn:ER; try discriminate. destruct (handleRxDataEvent _ _ _ _ _ _ _) as [[[[k t'] h'] x']| |] eqn:EV; try discriminate.
    inversion E; subst; cbn [fifo owed bit_rx bit_abort reader]. intro NE. right; right; right. split; [discriminate|]. intro K. injection K as K.
    apply (event_count _ _ _ _ _ _ _ _ (recv_of_contract _ _)) in EV. apply EV in K.
    apply NE. unfold space in *. change (recv_of (fifo s) n (offered cap (rxs s)) = []) in K.
    assert (F : fifo s = []).
    { destruct (fifo s) as [|c f] eqn:EF; [reflexivity|]. exfalso. assert (P : (0 < length (recv_of (c :: f) n (offered cap (rxs s))))%nat).
      { apply recv_of_some; [discriminate|]. intro Q. apply FR. exists n. split; [reflexivity|exact Q]. }
      rewrite K in P. cbn in P. lia. }
    rewrite F. apply skipn_nil.
  - destruct (reader s) as [| |k|] eqn:ER; try discriminate. inversion E; subst; cbn [fifo owed bit_rx bit_abort reader]. intro NE. destruct (A NE) as [Q|[Q|[Q|[_ Q]]]]; auto.
    right; right; right. destruct (Nat.eqb_spec k 0) as [->|K]; [congruence|split; discriminate].
Qed.
Lemma reach_awake (ok : state -> label -> Prop) s : (forall s l, ok s l -> signals_arrive s l /\ ~ full_read cap s l) -> reach cap fuel env ok s -> awake s.
Proof. intros H. induction 1 as [|s l s' R IH O E]; [intro Q; exfalso; apply Q; reflexivity|]. destruct (H _ _ O). eapply step_awake; eassumption. Qed.

(** The reads form an execution in the sense of SpecTimed, up to the moment the reader stops. *)
Lemma execution_snoc t h s cs t1 h1 s1 recv k t2 h2 s2 : SpecTimed.execution cap fuel env t h s cs t1 h1 s1 -> recv_contract recv ->
  offered cap s1 <> 0%nat \/ rx_resp s1 = None -> handleRxDataEvent cap fuel env t1 h1 s1 recv = Ok (k, t2, h2, s2) ->
  SpecTimed.execution cap fuel env t h s (cs ++ [recv (offered cap s1)]) t2 h2 s2.
Proof.
  induction 1 as [t h s|t h s recv0 k0 ta ha sa cs tb hb sb RC RM EV RUN IH]; intros C O E.
  - cbn. econstructor; [exact C|exact O|exact E|constructor].
  - cbn [app]. econstructor; [exact RC|exact RM|exact EV|]. apply IH; assumption.
Qed.
Lemma reach_execution (ok : state -> label -> Prop) s : (forall s l, ok s l -> ~ full_read_collecting cap s l) -> reach cap fuel env ok s ->
  exists x, SpecTimed.execution cap fuel env 0 [] (rx0 cap) (chunks s) (clock s) (hist s) x /\ (reader s <> Stopped -> x = rxs s).
Proof.
  intros H. induction 1 as [|s l s' R (x & IH & IX) O E]; [exists (rx0 cap); split; [constructor|reflexivity]|].
  destruct l as [bs|ok' w| | |n|]; cbn [step] in E.
  - destruct bs; [discriminate|]. inversion E; subst. eauto.
  - cbn [PktRxCallBack] in E. destruct ok'; cbn [snd] in E; inversion E; subst; eauto.
  - inversion E; subst; eauto.
  - destruct (reader s); try discriminate. destruct (bit_abort s); [inversion E; subst; exists x; split; [exact IH|cbn; congruence]|].
    destruct (bit_rx s); [inversion E; subst; exists x; split; [exact IH|intros _; apply IX; discriminate]|discriminate].
  - destruct (reader s) eqn:ER; try discriminate. destruct (handleRxDataEvent _ _ _ _ _ _ _) as [[[[k t'] h'] x']| |] eqn:EV; try discriminate.
    rewrite IX in IH by discriminate. inversion E; subst. exists x'. split; [|reflexivity]. cbn [chunks clock hist]. 
    eapply (execution_snoc _ _ _ _ _ _ _ (recv_of (fifo s) n)); [exact IH|apply recv_of_contract| |exact EV].
    destruct (Nat.eq_dec (offered cap (rxs s)) 0) as [Z|Z]; [|left; exact Z]. right. destruct (rx_resp (rxs s)) eqn:RR; [|reflexivity].
    exfalso. apply (H _ _ O). split; [exists n; split; [reflexivity|exact Z]|congruence].
  - destruct (reader s) eqn:ER; try discriminate. inversion E; subst. exists x. split; [exact IH|]. intros _. apply IX. discriminate.
Qed.

(** ** Liveness *)
Variables (sts : nat -> state) (act : nat -> option label).
Hypothesis INF : infinite cap fuel env sts act.
Hypothesis NOABORT : forall k, act k <> Some LAbort.
Hypothesis CB : callbacks_come sts act.
Hypothesis RUNS : reader_runs sts act.

Lemma not_aborted k : bit_abort (sts k) = false /\ reader (sts k) <> Stopped.
Proof.
  destruct INF as [I0 IS]. induction k as [|k [IA IR]]; [rewrite I0; cbn; split; [reflexivity|discriminate]|].
  specialize (IS k). destruct (act k) as [l|] eqn:EA; [|rewrite IS; auto]. destruct l as [bs|ok' w| | |n|]; cbn [step] in IS.
  - destruct bs; [discriminate|]. inversion IS as [Q]; cbn; auto.
  - cbn [PktRxCallBack] in IS. destruct ok'; cbn [snd] in IS; inversion IS as [Q]; cbn; auto.
  - exfalso. exact (NOABORT k EA).
  - destruct (reader (sts k)); try discriminate. rewrite IA in IS. destruct (bit_rx (sts k)); [inversion IS as [Q]; cbn; split; [reflexivity|discriminate]|discriminate].
  - destruct (reader (sts k)); try discriminate. destruct (handleRxDataEvent _ _ _ _ _ _ _) as [[[[k0 t'] h'] x']| |]; try discriminate.
    inversion IS as [Q]; cbn. split; [exact IA|discriminate].
  - destruct (reader (sts k)); try discriminate. inversion IS as [Q]; cbn. split; [exact IA|]. destruct (_ =? 0)%nat; discriminate.
Qed.
Lemma always_conserved k : conserved (sts k).
Proof.
  destruct INF as [I0 IS]. induction k as [|k IH]; [rewrite I0; reflexivity|].
  specialize (IS k). destruct (act k) as [l|] eqn:EA; [|rewrite IS; exact IH]. eapply step_conserved; eassumption.
Qed.
Definition got (k : nat) : nat := length (concat (chunks (sts k))).
Lemma got_step k : (got k <= got (S k))%nat.
Proof.
  destruct INF as [I0 IS]. unfold got. specialize (IS k). destruct (act k) as [l|] eqn:EA; [|rewrite IS; lia]. destruct l as [bs|ok' w| | |n|]; cbn [step] in IS.
  - destruct bs; [discriminate|]. inversion IS as [Q]; cbn; lia.
  - cbn [PktRxCallBack] in IS. destruct ok'; cbn [snd] in IS; inversion IS as [Q]; cbn; lia.
  - inversion IS as [Q]; cbn; lia.
  - destruct (reader (sts k)); try discriminate. destruct (bit_abort (sts k)); [inversion IS as [Q]; cbn; lia|]. destruct (bit_rx (sts k)); [inversion IS as [Q]; cbn; lia|discriminate].
  - destruct (reader (sts k)); try discriminate. destruct (handleRxDataEvent _ _ _ _ _ _ _) as [[[[k0 t'] h'] x']| |]; try discriminate.
    inversion IS as [Q]; cbn [chunks]. rewrite concat_app, app_length. lia.
  - destruct (reader (sts k)); try discriminate. inversion IS as [Q]; cbn; lia.
Qed.
Lemma got_le i j : (i <= j)%nat -> (got i <= got j)%nat.
Proof. induction 1; [lia|]. pose proof (got_step m). lia. Qed.
Lemma arrived_step k : (length (arrived (sts k)) <= length (arrived (sts (S k))))%nat.
Proof.
  destruct INF as [I0 IS]. specialize (IS k). destruct (act k) as [l|] eqn:EA; [|rewrite IS; lia]. destruct l as [bs|ok' w| | |n|]; cbn [step] in IS.
  - destruct bs; [discriminate|]. inversion IS as [Q]; cbn [arrived]. rewrite app_length. lia.
  - cbn [PktRxCallBack] in IS. destruct ok'; cbn [snd] in IS; inversion IS as [Q]; cbn; lia.
  - inversion IS as [Q]; cbn; lia.
  - destruct (reader (sts k)); try discriminate. destruct (bit_abort (sts k)); [inversion IS as [Q]; cbn; lia|]. destruct (bit_rx (sts k)); [inversion IS as [Q]; cbn; lia|discriminate].
  - destruct (reader (sts k)); try discriminate. destruct (handleRxDataEvent _ _ _ _ _ _ _) as [[[[k0 t'] h'] x']| |]; try discriminate. inversion IS as [Q]; cbn; lia.
  - destruct (reader (sts k)); try discriminate. inversion IS as [Q]; cbn; lia.
Qed.
Lemma arrived_le i j : (i <= j)%nat -> (length (arrived (sts i)) <= length (arrived (sts j)))%nat.
Proof. induction 1; [lia|]. pose proof (arrived_step m). lia. Qed.
Lemma fifo_count k : (got k + length (fifo (sts k)) = length (arrived (sts k)))%nat.
Proof. unfold got. rewrite (always_conserved k), app_length. reflexivity. Qed.


(** What the bits say until the reader wakes up. *)
Lemma bit_stays i j : (i <= j)%nat -> reader (sts i) = Waiting -> bit_rx (sts i) = true ->
  (reader (sts j) = Waiting /\ bit_rx (sts j) = true) \/ exists m, (i <= m)%nat /\ (m <= j)%nat /\ reader (sts m) = Reading.
Proof.
  intros IJ W B. induction IJ as [|j IJ [[IW IB]|(m & M1 & M2 & M3)]]; [left; auto| |right; exists m; repeat split; [exact M1|lia|exact M3]].
  destruct INF as [I0 IS]. specialize (IS j). destruct (act j) as [l|] eqn:EA; [|left; rewrite IS; auto]. destruct l as [bs|ok' w| | |n|]; cbn [step] in IS.
  - destruct bs; [discriminate|]. inversion IS as [Q]; cbn; left; auto.
  - cbn [PktRxCallBack] in IS. destruct ok'; cbn [snd] in IS; inversion IS as [Q]; cbn; left; auto.
  - inversion IS as [Q]; cbn; left; auto.
  - rewrite IW, (proj1 (not_aborted j)), IB in IS. right. exists (S j). split; [lia|]. split; [lia|]. inversion IS as [Q]; reflexivity.
  - rewrite IW in IS. discriminate.
  - rewrite IW in IS. discriminate.
Qed.
(** A busy reader finishes; nothing else changes what it will do, and events set meanwhile stay. *)
Lemma busy_stays i j c : (i <= j)%nat -> reader (sts i) = Busy c ->
  (reader (sts j) = Busy c /\ (bit_rx (sts i) = true -> bit_rx (sts j) = true)) \/
  exists m, (i <= m)%nat /\ reader (sts m) = (if (c =? 0)%nat then Waiting else Reading) /\ (bit_rx (sts i) = true -> bit_rx (sts m) = true).
Proof.
  intros IJ RB. induction IJ as [|j IJ [[IR IB]|M]]; [left; auto| |right; exact M].
  destruct INF as [I0 IS]. specialize (IS j). destruct (act j) as [l|] eqn:EA; [|left; rewrite IS; auto]. destruct l as [bs|ok' w| | |n|]; cbn [step] in IS.
  - destruct bs; [discriminate|]. inversion IS as [Q]; cbn; left; auto.
  - cbn [PktRxCallBack] in IS. destruct ok'; cbn [snd] in IS; inversion IS as [Q]; cbn; left; auto.
  - inversion IS as [Q]; cbn; left; auto.
  - rewrite IR in IS. discriminate.
  - rewrite IR in IS. discriminate.
  - rewrite IR in IS. right. exists (S j). split; [lia|]. inversion IS as [Q]; cbn. auto.
Qed.
Lemma busy_ends i c : reader (sts i) = Busy c ->
  exists m, (i <= m)%nat /\ reader (sts m) = (if (c =? 0)%nat then Waiting else Reading) /\ (bit_rx (sts i) = true -> bit_rx (sts m) = true).
Proof.
  intro RB. destruct (proj1 (proj2 RUNS) i c RB) as (j & IJ & EA). destruct (busy_stays i j c IJ RB) as [[RJ BJ]|M]; [|exact M].
  exists (S j). split; [lia|]. destruct INF as [I0 IS]. specialize (IS j). rewrite EA in IS. cbn [step] in IS. rewrite RJ in IS. inversion IS as [Q]; cbn. auto.
Qed.
Lemma read_in_order i : (exists j, (i <= j)%nat /\ (length (arrived (sts i)) <= got j)%nat) -> exists j, (i <= j)%nat /\ exists more, concat (chunks (sts j)) = arrived (sts i) ++ more.
Proof.
  intros (j & IJ & L). exists j. split; [exact IJ|].
  assert (PR : exists b, arrived (sts j) = arrived (sts i) ++ b).
  { clear L. induction IJ as [|j IJ (b & IHb)]; [exists []; rewrite app_nil_r; reflexivity|]. destruct INF as [I0 IS]. specialize (IS j).
    destruct (act j) as [l|] eqn:EA; [|rewrite IS; eauto]. destruct l as [bs|ok' w| | |n|]; cbn [step] in IS.
    - destruct bs; [discriminate|]. inversion IS as [Q]; cbn [arrived]. rewrite IHb, <- app_assoc. eauto.
    - cbn [PktRxCallBack] in IS. destruct ok'; cbn [snd] in IS; inversion IS as [Q]; cbn; eauto.
    - inversion IS as [Q]; cbn; eauto.
    - destruct (reader (sts j)); try discriminate. destruct (bit_abort (sts j)); [inversion IS as [Q]; cbn; eauto|]. destruct (bit_rx (sts j)); [inversion IS as [Q]; cbn; eauto|discriminate].
    - destruct (reader (sts j)); try discriminate. destruct (handleRxDataEvent _ _ _ _ _ _ _) as [[[[k0 t'] h'] x']| |]; try discriminate. inversion IS as [Q]; cbn; eauto.
    - destruct (reader (sts j)); try discriminate. inversion IS as [Q]; cbn; eauto. }
  destruct PR as (b & PR). pose proof (always_conserved j) as C. unfold conserved in C. rewrite PR in C. unfold got in L.
  exists (skipn (length (arrived (sts i))) (concat (chunks (sts j)))).
  assert (F : firstn (length (arrived (sts i))) (concat (chunks (sts j))) = arrived (sts i)).
  { assert (E : firstn (length (arrived (sts i))) (arrived (sts i) ++ b) = firstn (length (arrived (sts i))) (concat (chunks (sts j)) ++ fifo (sts j))) by (rewrite C; reflexivity).
    rewrite firstn_app, Nat.sub_diag, firstn_all, app_nil_r in E. rewrite firstn_app in E. replace (_ - _)%nat with 0%nat in E by lia. rewrite app_nil_r in E. symmetry. exact E. }
  rewrite <- F at 1. symmetry. apply firstn_skipn.
Qed.
Section NoFull.
Hypothesis SIG : forall k l, act k = Some l -> signals_arrive (sts k) l.
Hypothesis NOFULL : forall k l, act k = Some l -> ~ full_read cap (sts k) l.
Lemma always_awake k : awake (sts k).
Proof.
  destruct INF as [I0 IS]. induction k as [|k IH]; [rewrite I0; intro Q; exfalso; apply Q; reflexivity|].
  specialize (IS k). destruct (act k) as [l|] eqn:EA; [|rewrite IS; exact IH]. eapply step_awake; [exact (SIG k l EA)|exact (NOFULL k l EA)|exact IS|exact IH].
Qed.
(** A read with bytes waiting makes progress. *)
Lemma read_progress j n : act j = Some (LRead n) -> (got j < length (arrived (sts j)))%nat -> (got j < got (S j))%nat.
Proof.
  intros EA LT. destruct INF as [I0 IS]. pose proof (NOFULL j _ EA) as NF. specialize (IS j). rewrite EA in IS. cbn [step] in IS. unfold got in *.
  pose proof (fifo_count j) as FC. unfold got in FC.
  destruct (reader (sts j)); try discriminate. destruct (handleRxDataEvent _ _ _ _ _ _ _) as [[[[k0 t'] h'] x']| |]; try discriminate.
  inversion IS as [Q]; cbn [chunks]. rewrite concat_app, app_length. cbn [concat]. rewrite app_nil_r.
  assert (P : (0 < length (recv_of (fifo (sts j)) n (space cap (rxs (sts j)))))%nat).
  { apply recv_of_some; [intro Z; rewrite Z in FC; cbn in FC; lia|]. intro Z. apply NF. exists n. split; [reflexivity|exact Z]. }
  lia.
Qed.
(** The reader, once reading, gets on. *)
Lemma reading_progress i : reader (sts i) = Reading -> (got i < length (arrived (sts i)))%nat -> exists j, (i <= j)%nat /\ (got i < got j)%nat.
Proof.
  intros RD LT. destruct (proj1 RUNS i RD) as (j & n & IJ & EA). pose proof (got_le i j IJ) as G. pose proof (arrived_le i j IJ) as A.
  destruct (Nat.eq_dec (got i) (got j)) as [E|E]; [|exists j; split; [exact IJ|lia]]. exists (S j). split; [lia|]. rewrite E. apply (read_progress j n EA). lia.
Qed.
Lemma waiting_progress i : reader (sts i) = Waiting -> bit_rx (sts i) = true -> (got i < length (arrived (sts i)))%nat -> exists j, (i <= j)%nat /\ (got i < got j)%nat.
Proof.
  intros W B LT. destruct (proj2 (proj2 RUNS) i W B) as (j & IJ & EA).
  assert (RD : exists m, (i <= m)%nat /\ reader (sts m) = Reading).
  { destruct (bit_stays i j IJ W B) as [[W2 B2]|(m & M1 & _ & M3)]; [|eauto]. exists (S j). split; [lia|]. destruct INF as [I0 IS]. specialize (IS j). rewrite EA in IS. cbn [step] in IS.
    rewrite W2, (proj1 (not_aborted j)), B2 in IS. inversion IS as [Q]; reflexivity. }
  destruct RD as (m & IM & RM). pose proof (got_le i m IM) as G. pose proof (arrived_le i m IM) as A.
  destruct (Nat.eq_dec (got i) (got m)) as [E|E]; [|exists m; split; [exact IM|lia]].
  destruct (reading_progress m RM) as (j2 & J1 & J2); [lia|]. exists j2. split; lia.
Qed.
Lemma busy_progress i c : reader (sts i) = Busy c -> c <> 0%nat -> (got i < length (arrived (sts i)))%nat -> exists j, (i <= j)%nat /\ (got i < got j)%nat.
Proof.
  intros ER C LT. destruct (busy_ends i c ER) as (j & IJ & RJ & _). rewrite (proj2 (Nat.eqb_neq c 0) C) in RJ.
  pose proof (got_le i j ltac:(lia)) as G. pose proof (arrived_le i j ltac:(lia)) as A. destruct (Nat.eq_dec (got i) (got j)) as [E|E]; [|exists j; split; lia].
  destruct (reading_progress j RJ) as (j2 & J1 & J2); [lia|]. exists j2. split; lia.
Qed.
Lemma busy_bit_progress i c : reader (sts i) = Busy c -> bit_rx (sts i) = true -> (got i < length (arrived (sts i)))%nat -> exists j, (i <= j)%nat /\ (got i < got j)%nat.
Proof.
  intros ER B LT. destruct (busy_ends i c ER) as (j & IJ & RJ & BJ). specialize (BJ B).
  pose proof (got_le i j ltac:(lia)) as G. pose proof (arrived_le i j ltac:(lia)) as A. destruct (Nat.eq_dec (got i) (got j)) as [E|E]; [|exists j; split; lia].
  destruct (c =? 0)%nat; [destruct (waiting_progress j RJ BJ) as (j2 & J1 & J2)|destruct (reading_progress j RJ) as (j2 & J1 & J2)]; try lia; exists j2; split; lia.
Qed.
Lemma any_progress i : (got i < length (arrived (sts i)))%nat -> exists j, (i <= j)%nat /\ (got i < got j)%nat.
Proof.
  intro LT. assert (NE : fifo (sts i) <> []). { intro Z. pose proof (fifo_count i) as FC. rewrite Z in FC. cbn in FC. lia. }
  assert (CORE : forall i, bit_rx (sts i) = true -> (got i < length (arrived (sts i)))%nat -> exists j, (i <= j)%nat /\ (got i < got j)%nat).
  { intros k B L. destruct (reader (sts k)) as [| |c|] eqn:ER; [apply waiting_progress; assumption|apply reading_progress; assumption|eapply busy_bit_progress; eassumption|exfalso; exact (proj2 (not_aborted k) ER)]. }
  destruct (always_awake i NE) as [O|[B|[A|R]]].
  - destruct (CB i O) as (j & w & IJ & EA). pose proof (got_le i (S j) ltac:(lia)) as G. pose proof (arrived_le i (S j) ltac:(lia)) as A.
    destruct (Nat.eq_dec (got i) (got (S j))) as [E|E]; [|exists (S j); split; lia]. destruct (CORE (S j)) as (j2 & J1 & J2).
    + destruct INF as [I0 IS]. specialize (IS j). rewrite EA in IS. cbn in IS. inversion IS as [Q]; reflexivity.
    + lia.
    + exists j2. split; lia.
  - apply CORE; assumption.
  - rewrite (proj1 (not_aborted i)) in A. discriminate.
  - destruct (reader (sts i)) as [| |c|] eqn:ER; [exfalso; exact (proj1 R eq_refl)|apply reading_progress; assumption| |exfalso; exact (proj2 (not_aborted i) ER)].
    apply (busy_progress i c ER); [|exact LT]. intros ->. exact (proj2 R eq_refl).
Qed.
Lemma all_read i : exists j, (i <= j)%nat /\ (length (arrived (sts i)) <= got j)%nat.
Proof.
  assert (H : forall d k, (i <= k)%nat -> (length (arrived (sts i)) <= got k + d)%nat -> exists j, (i <= j)%nat /\ (length (arrived (sts i)) <= got j)%nat).
  { induction d as [|d IH]; intros k IK L; [exists k; split; lia|]. destruct (Nat.le_gt_cases (length (arrived (sts i))) (got k)) as [D|D]; [exists k; split; lia|].
    pose proof (arrived_le i k IK). destruct (any_progress k) as (j & KJ & GJ); [lia|]. apply (IH j); lia. }
  apply (H (length (arrived (sts i))) i); lia.
Qed.
End NoFull.

(** ** When the modem keeps talking, a full buffer only delays *)
Section Talk.
Hypothesis CAP : (0 < cap)%nat.
Hypothesis TALKS : forall k, exists j bs, (k <= j)%nat /\ act j = Some (LArrive bs).
Lemma bit_then_read k : bit_rx (sts k) = true -> exists j n, (k <= j)%nat /\ act j = Some (LRead n).
Proof.
  assert (W : forall k, reader (sts k) = Waiting -> bit_rx (sts k) = true -> exists j n, (k <= j)%nat /\ act j = Some (LRead n)); cycle 1.
  { intro B. destruct (reader (sts k)) as [| |c|] eqn:ER; [apply W; assumption|apply (proj1 RUNS); exact ER| |exfalso; exact (proj2 (not_aborted k) ER)].
    destruct (busy_ends k c ER) as (m & KM & RM & BM). specialize (BM B). destruct (c =? 0)%nat;
      [destruct (W m RM BM) as (j & n & MJ & EA)|destruct (proj1 RUNS m RM) as (j & n & MJ & EA)]; exists j, n; (split; [lia|exact EA]). }
  clear k. intros k ER B.
  destruct (proj2 (proj2 RUNS) k ER B) as (j & IJ & EA).
  assert (RD : exists m, (k <= m)%nat /\ reader (sts m) = Reading).
  { destruct (bit_stays k j IJ ER B) as [[W2 B2]|(m & M1 & _ & M3)]; [|eauto]. exists (S j). split; [lia|]. destruct INF as [I0 IS]. specialize (IS j). rewrite EA in IS. cbn [step] in IS.
    rewrite W2, (proj1 (not_aborted j)), B2 in IS. inversion IS as [Q]; reflexivity. }
  destruct RD as (m & IM & RM). destruct (proj1 RUNS m RM) as (j2 & n & J & A). exists j2, n. split; [lia|exact A].
Qed.
Lemma read_again i : exists j n, (i <= j)%nat /\ act j = Some (LRead n).
Proof.
  destruct (TALKS i) as (j & bs & IJ & EA). assert (O : owed (sts (S j)) = true).
  { destruct INF as [I0 IS]. specialize (IS j). rewrite EA in IS. cbn [step] in IS. destruct bs; [discriminate|]. inversion IS as [Q]; reflexivity. }
  destruct (CB (S j) O) as (k & w & JK & EC). assert (B : bit_rx (sts (S k)) = true).
  { destruct INF as [I0 IS]. specialize (IS k). rewrite EC in IS. cbn in IS. inversion IS as [Q]; reflexivity. }
  destruct (bit_then_read (S k) B) as (j2 & n & J & A). exists j2, n. split; [lia|exact A].
Qed.
Lemma free_read_progress j n : act j = Some (LRead n) -> offered cap (rxs (sts j)) <> 0%nat -> (got j < length (arrived (sts j)))%nat -> (got j < got (S j))%nat.
Proof.
  intros EA NF LT. destruct INF as [I0 IS]. specialize (IS j). rewrite EA in IS. cbn [step] in IS. unfold got in *.
  pose proof (fifo_count j) as FC. unfold got in FC.
  destruct (reader (sts j)); try discriminate. destruct (handleRxDataEvent _ _ _ _ _ _ _) as [[[[k0 t'] h'] x']| |]; try discriminate.
  inversion IS as [Q]; cbn [chunks]. rewrite concat_app, app_length. cbn [concat]. rewrite app_nil_r.
  assert (P : (0 < length (recv_of (fifo (sts j)) n (space cap (rxs (sts j)))))%nat).
  { apply recv_of_some; [intro Z; rewrite Z in FC; cbn in FC; lia|exact NF]. }
  lia.
Qed.
Lemma free_stays i j : (i <= j)%nat -> offered cap (rxs (sts i)) = cap -> (got i < length (arrived (sts i)))%nat ->
  offered cap (rxs (sts j)) = cap \/ (got i < got j)%nat.
Proof.
  intros IJ OF LT. induction IJ as [|j IJ IH]; [left; exact OF|]. pose proof (got_step j) as GS. pose proof (got_le i j IJ) as GI. pose proof (arrived_le i j IJ) as AI.
  destruct IH as [IH|IH]; [|right; lia]. pose proof INF as [I0 IS]. specialize (IS j). destruct (act j) as [l|] eqn:EA; [|rewrite IS; auto]. destruct l as [bs|ok' w| | |n|].
  - cbn [step] in IS. destruct bs; [discriminate|]. inversion IS as [Q]; cbn; auto.
  - cbn [step PktRxCallBack] in IS. destruct ok'; cbn [snd] in IS; inversion IS as [Q]; cbn; auto.
  - exfalso. exact (NOABORT j EA).
  - cbn [step] in IS. destruct (reader (sts j)); try discriminate. rewrite (proj1 (not_aborted j)) in IS. destruct (bit_rx (sts j)); [inversion IS as [Q]; cbn; auto|discriminate].
  - right. destruct (Nat.eq_dec (got i) (got j)) as [E|E]; [|lia]. pose proof (free_read_progress j n EA ltac:(lia) ltac:(lia)). lia.
  - cbn [step] in IS. destruct (reader (sts j)); try discriminate. inversion IS as [Q]; cbn; auto.
Qed.
Lemma talking_progress i : (got i < length (arrived (sts i)))%nat -> exists j, (i <= j)%nat /\ (got i < got j)%nat.
Proof.
  intro LT. destruct (read_again i) as (j & n & IJ & EA). pose proof (got_le i j IJ) as G. pose proof (arrived_le i j IJ) as A.
  destruct (Nat.eq_dec (got i) (got j)) as [E|E]; [|exists j; split; lia].
  destruct (Nat.eq_dec (offered cap (rxs (sts j))) 0) as [Z|Z].
  - assert (OF : offered cap (rxs (sts (S j))) = cap).
    { destruct INF as [I0 IS]. specialize (IS j). rewrite EA in IS. cbn [step] in IS. destruct (reader (sts j)); try discriminate.
      destruct (handleRxDataEvent _ _ _ _ _ _ _) as [[[[k0 t'] h'] x']| |] eqn:EV; try discriminate. inversion IS as [Q]; cbn [rxs]. eapply event_full; eassumption. }
    pose proof (got_step j) as GS. pose proof (arrived_step j) as AS.
    destruct (Nat.eq_dec (got j) (got (S j))) as [E2|E2]; [|exists (S j); split; lia].
    destruct (read_again (S j)) as (j2 & n2 & J2 & EA2). pose proof (got_le (S j) j2 J2) as G2. pose proof (arrived_le (S j) j2 J2) as A2.
    destruct (free_stays (S j) j2 J2 OF ltac:(lia)) as [OF2|OF2]; [|exists j2; split; lia].
    destruct (Nat.eq_dec (got (S j)) (got j2)) as [E3|E3]; [|exists j2; split; lia].
    exists (S j2). split; [lia|]. pose proof (free_read_progress j2 n2 EA2 ltac:(lia) ltac:(lia)). lia.
  - exists (S j). split; [lia|]. pose proof (free_read_progress j n EA Z ltac:(lia)). lia.
Qed.
Lemma all_read_talking i : exists j, (i <= j)%nat /\ (length (arrived (sts i)) <= got j)%nat.
Proof.
  assert (H : forall d k, (i <= k)%nat -> (length (arrived (sts i)) <= got k + d)%nat -> exists j, (i <= j)%nat /\ (length (arrived (sts i)) <= got j)%nat).
  { induction d as [|d IH]; intros k IK L; [exists k; split; lia|]. destruct (Nat.le_gt_cases (length (arrived (sts i))) (got k)) as [D|D]; [exists k; split; lia|].
    pose proof (arrived_le i k IK). destruct (talking_progress k) as (j & KJ & GJ); [lia|]. apply (IH j); lia. }
  apply (H (length (arrived (sts i))) i); lia.
Qed.
End Talk.
End Proofs.

(** ** Stopping *)
Section Stop.
Variables (cap fuel : nat) (env : environment) (sts : nat -> state) (act : nat -> option label).
Hypothesis INF : infinite cap fuel env sts act.
Hypothesis RR : forall k, reader (sts k) = Reading -> exists j n, (k <= j)%nat /\ act j = Some (LRead n).
Hypothesis RB : forall k n, reader (sts k) = Busy n -> exists j, (k <= j)%nat /\ act j = Some LDone.
Hypothesis RW : forall k, reader (sts k) = Waiting -> bit_abort (sts k) = true -> exists j, (k <= j)%nat /\ act j = Some LWake.

(** Until the reader stops, the request to stop stays. *)
Lemma abort_stays i : bit_abort (sts i) = true -> bit_abort (sts (S i)) = true \/ reader (sts (S i)) = Stopped.
Proof.
  intro A. destruct INF as [_ IS]. specialize (IS i). destruct (act i) as [l|]; [|rewrite IS; auto]. destruct l as [bs|ok' w| | |n|]; cbn [step] in IS.
  - destruct bs; [discriminate|]. inversion IS; cbn; auto.
  - cbn [PktRxCallBack] in IS. destruct ok'; cbn [snd] in IS; inversion IS; cbn; auto.
  - inversion IS; cbn; auto.
  - destruct (reader (sts i)); try discriminate. rewrite A in IS. inversion IS; cbn; auto.
  - destruct (reader (sts i)); try discriminate. destruct (handleRxDataEvent _ _ _ _ _ _ _) as [[[[k t'] h'] x']| |]; try discriminate. inversion IS; cbn; auto.
  - destruct (reader (sts i)); try discriminate. inversion IS; cbn; auto.
Qed.
Lemma abort_until i j : (i <= j)%nat -> bit_abort (sts i) = true -> bit_abort (sts j) = true \/ exists m, (i <= m)%nat /\ (m <= j)%nat /\ reader (sts m) = Stopped.
Proof.
  intros IJ A. induction IJ as [|j IJ [IH|(m & M1 & M2 & M3)]]; [auto| |right; exists m; repeat split; [exact M1|lia|exact M3]].
  destruct (abort_stays j IH) as [Q|Q]; [auto|]. right. exists (S j). repeat split; [lia|lia|exact Q].
Qed.
Lemma waiting_stays i j : (i <= j)%nat -> reader (sts i) = Waiting -> bit_abort (sts i) = true ->
  (reader (sts j) = Waiting /\ bit_abort (sts j) = true) \/ exists m, (i <= m)%nat /\ (m <= j)%nat /\ reader (sts m) = Stopped.
Proof.
  intros IJ W A. induction IJ as [|j IJ [[IW IA]|(m & M1 & M2 & M3)]]; [left; auto| |right; exists m; repeat split; [exact M1|lia|exact M3]].
  destruct INF as [_ IS]. specialize (IS j). destruct (act j) as [l|]; [|left; rewrite IS; auto]. destruct l as [bs|ok' w| | |n|]; cbn [step] in IS.
  - destruct bs; [discriminate|]. inversion IS; cbn; left; auto.
  - cbn [PktRxCallBack] in IS. destruct ok'; cbn [snd] in IS; inversion IS; cbn; left; auto.
  - inversion IS; cbn; left; auto.
  - rewrite IW, IA in IS. right. exists (S j). inversion IS; cbn. repeat split; lia.
  - rewrite IW in IS. discriminate.
  - rewrite IW in IS. discriminate.
Qed.
Lemma waiting_stops i : reader (sts i) = Waiting -> bit_abort (sts i) = true -> exists j, (i <= j)%nat /\ reader (sts j) = Stopped.
Proof.
  intros W A. destruct (RW i W A) as (j & IJ & EA). destruct (waiting_stays i j IJ W A) as [[W2 A2]|(m & M1 & _ & M3)]; [|eauto].
  exists (S j). split; [lia|]. destruct INF as [_ IS]. specialize (IS j). rewrite EA in IS. cbn [step] in IS. rewrite W2, A2 in IS. inversion IS; reflexivity.
Qed.
Variable i0 : nat.
Hypothesis SILENT : forall k bs, (i0 <= k)%nat -> act k <> Some (LArrive bs).
Lemma fifo_shrinks k : (i0 <= k)%nat -> (length (fifo (sts (S k))) <= length (fifo (sts k)))%nat.
Proof.
  intro K. destruct INF as [_ IS]. specialize (IS k). destruct (act k) as [l|] eqn:EA; [|rewrite IS; lia]. destruct l as [bs|ok' w| | |n|]; cbn [step] in IS.
  - exfalso. exact (SILENT k bs K EA).
  - cbn [PktRxCallBack] in IS. destruct ok'; cbn [snd] in IS; inversion IS; cbn; lia.
  - inversion IS; cbn; lia.
  - destruct (reader (sts k)); try discriminate. destruct (bit_abort (sts k)); [inversion IS; cbn; lia|]. destruct (bit_rx (sts k)); [inversion IS; cbn; lia|discriminate].
  - destruct (reader (sts k)); try discriminate. destruct (handleRxDataEvent _ _ _ _ _ _ _) as [[[[k0 t'] h'] x']| |]; try discriminate. inversion IS; cbn [fifo]. rewrite skipn_length. lia.
  - destruct (reader (sts k)); try discriminate. inversion IS; cbn; lia.
Qed.
Lemma fifo_le j k : (i0 <= j)%nat -> (j <= k)%nat -> (length (fifo (sts k)) <= length (fifo (sts j)))%nat.
Proof. intros J JK. induction JK as [|k JK IH]; [lia|]. pose proof (fifo_shrinks k ltac:(lia)). lia. Qed.
Lemma busy_goes i j c : (i <= j)%nat -> reader (sts i) = Busy c -> bit_abort (sts i) = true ->
  (reader (sts j) = Busy c /\ bit_abort (sts j) = true) \/ exists m, (i <= m)%nat /\ reader (sts m) = (if (c =? 0)%nat then Waiting else Reading) /\ bit_abort (sts m) = true.
Proof.
  intros IJ RBi A. induction IJ as [|j IJ [[IR IA]|M]]; [left; auto| |right; exact M].
  destruct INF as [I0 IS]. specialize (IS j). destruct (act j) as [l|] eqn:EA; [|left; rewrite IS; auto]. destruct l as [bs|ok' w| | |n|]; cbn [step] in IS.
  - destruct bs; [discriminate|]. inversion IS as [Q]; cbn; left; auto.
  - cbn [PktRxCallBack] in IS. destruct ok'; cbn [snd] in IS; inversion IS as [Q]; cbn; left; auto.
  - inversion IS as [Q]; cbn; left; auto.
  - rewrite IR in IS. discriminate.
  - rewrite IR in IS. discriminate.
  - rewrite IR in IS. right. exists (S j). split; [lia|]. inversion IS as [Q]; cbn. auto.
Qed.
Lemma busy_through i c : reader (sts i) = Busy c -> bit_abort (sts i) = true ->
  exists m, (i <= m)%nat /\ reader (sts m) = (if (c =? 0)%nat then Waiting else Reading) /\ bit_abort (sts m) = true.
Proof.
  intros RBi A. destruct (RB i c RBi) as (j & IJ & EA). destruct (busy_goes i j c IJ RBi A) as [[RJ AJ]|M]; [|exact M].
  exists (S j). split; [lia|]. destruct INF as [I0 IS]. specialize (IS j). rewrite EA in IS. cbn [step] in IS. rewrite RJ in IS. inversion IS as [Q]; cbn. auto.
Qed.
Lemma reading_stops d : forall k, (i0 <= k)%nat -> (length (fifo (sts k)) <= d)%nat -> bit_abort (sts k) = true -> reader (sts k) = Reading -> exists j, (k <= j)%nat /\ reader (sts j) = Stopped.
Proof.
  induction d as [d IH] using lt_wf_ind. intros k K L A ER.
  destruct (RR k ER) as (j & n & KJ & EA). destruct (abort_until k j KJ A) as [A2|(m & M1 & _ & M3)]; [|eauto].
  pose proof (fifo_le k j K KJ) as FJ. destruct (abort_stays j A2) as [A3|S3]; [|exists (S j); split; [lia|exact S3]].
  pose proof INF as [_ IS]. specialize (IS j). rewrite EA in IS. cbn [step] in IS. destruct (reader (sts j)); try discriminate.
  destruct (handleRxDataEvent _ _ _ _ _ _ _) as [[[[k0 t'] h'] x']| |] eqn:EV; try discriminate.
  apply (event_count cap fuel env _ _ _ _ _ _ _ _ (recv_of_contract _ _)) in EV.
  assert (RJ : reader (sts (S j)) = Busy k0) by (inversion IS; reflexivity).
  destruct (busy_through (S j) k0 RJ A3) as (m & JM & RM & AM). destruct (Nat.eqb_spec k0 0) as [Z|Z].
  - destruct (waiting_stops m RM AM) as (j2 & J2 & S2). exists j2. split; [lia|exact S2].
  - assert (G : (0 < length (recv_of (fifo (sts j)) n (offered cap (rxs (sts j)))))%nat).
    { destruct (recv_of (fifo (sts j)) n (offered cap (rxs (sts j)))) eqn:Q; [exfalso; apply Z, EV; reflexivity|cbn [length]; lia]. }
    assert (F2 : (length (fifo (sts (S j))) < length (fifo (sts j)))%nat).
    { assert (NE : (0 < length (fifo (sts j)))%nat) by (unfold recv_of in G; rewrite firstn_length in G; lia).
      replace (fifo (sts (S j))) with (skipn (length (recv_of (fifo (sts j)) n (offered cap (rxs (sts j))))) (fifo (sts j))) by (inversion IS; reflexivity). rewrite skipn_length. lia. }
    pose proof (fifo_le (S j) m ltac:(lia) JM) as FM.
    destruct (IH (length (fifo (sts m))) ltac:(lia) m ltac:(lia) ltac:(lia) AM RM) as (j2 & J2 & S2). exists j2. split; [lia|exact S2].
Qed.
Lemma stops_from k : (i0 <= k)%nat -> bit_abort (sts k) = true -> exists j, (k <= j)%nat /\ reader (sts j) = Stopped.
Proof.
  intros K A. destruct (reader (sts k)) as [| |c|] eqn:ER; [apply waiting_stops; assumption|apply (reading_stops (length (fifo (sts k)))); [exact K|lia|exact A|exact ER]| |eauto].
  destruct (busy_through k c ER A) as (m & KM & RM & AM). destruct (c =? 0)%nat.
  - destruct (waiting_stops m RM AM) as (j & J & S). exists j. split; [lia|exact S].
  - destruct (reading_stops (length (fifo (sts m))) m ltac:(lia) ltac:(lia) AM RM) as (j & J & S). exists j. split; [lia|exact S].
Qed.
End Stop.

(** Property theorems: sockets (C41-C45). *)
From Coq Require Import List NArith ZArith Bool Lia.
From Verif Require Import Bytes Status Socket SocketProofs.
Import ListNotations.

(** C41.  [sreach s]: [s] is reached by some history of creations, removals, option settings, callback
    registrations and port state changes on an open library, with Platform_Malloc returning unused addresses. *)

(** Live sockets occupy distinct slots 0..11; each is found under its own id, and every occupied slot holds a live socket. *)
Theorem c41_live_sockets_have_distinct_slots : forall s, sreach s ->
  (forall a k, heap s a = Some k ->
     (sk_id k < 12)%N /\ GetSocketData s (sk_id k) = Some a /\ IsValidSocket s (sk_id k) = C_SUCCESS) /\
  (forall i a, GetSocketData s i = Some a -> exists k, heap s a = Some k /\ sk_id k = i) /\
  (forall a b k k', heap s a = Some k -> heap s b = Some k' -> sk_id k = sk_id k' -> a = b).
Proof.
  intros s HR. repeat split.
  - apply (live_slot s a k HR H).
  - apply (live_slot s a k HR H).
  - apply (live_slot s a k HR H).
  - intros i a H. exact (slot_live s i a HR H).
  - intros a b k k' Ha Hb E. destruct (live_slot s a k HR Ha) as (_ & G & _).
    destruct (live_slot s b k' HR Hb) as (_ & G' & _). congruence.
Qed.
Print Assumptions c41_live_sockets_have_distinct_slots.

(** The index check accepts exactly the occupied slots, and rejects everything else with BAD_PARAMETER. *)
Theorem c41_index_check_exact : forall s i,
  (IsValidSocket s i = C_SUCCESS <-> exists h, GetSocketData s i = Some h) /\
  (IsValidSocket s i <> C_SUCCESS -> IsValidSocket s i = C_BAD_PARAMETER) /\ ((12 <= i)%N -> GetSocketData s i = None).
Proof.
  intros s i. unfold IsValidSocket, GetSocketData. change (N.of_nat NUM_SOCKET_MAX) with 12%N.
  destruct (12 <=? i)%N eqn:E; [|apply N.leb_gt in E].
  - repeat split; try congruence. intros [h H]; discriminate.
  - destruct (nth (N.to_nat i) (tbl s) None) as [h|]; repeat split; try congruence; try lia; eauto. intros [h H]; discriminate.
Qed.
Print Assumptions c41_index_check_exact.

(** Creation succeeds exactly for a valid PDN context, available memory and fewer than 12 live sockets. *)
Theorem c41_create_succeeds_iff : forall s pdn domain type proto m, sreach s ->
  (exists o s', CommonCreateSocket lib_open s pdn domain type proto true m = (C_SUCCESS, o, s')) <->
  ((1 <= pdn <= 16)%N /\ m <> None /\
   exists live, NoDup live /\ (forall a, In a live <-> heap s a <> None) /\ (length live < 12)%nat).
Proof. exact create_iff. Qed.
Print Assumptions c41_create_succeeds_iff.

(** Unusable arguments: a NULL output handle, a PDN context outside 1..16, a library that is not open. *)
Theorem c41_create_rejects : forall lib s pdn domain type proto out m e o s',
  CommonCreateSocket lib s pdn domain type proto out m = (e, o, s') ->
  (CheckLibraryStatus lib <> C_SUCCESS -> e = CheckLibraryStatus lib /\ o = None /\ s' = s) /\
  (CheckLibraryStatus lib = C_SUCCESS -> out = false -> e = C_BAD_PARAMETER /\ o = None /\ s' = s) /\
  (CheckLibraryStatus lib = C_SUCCESS -> out = true -> ~ (1 <= pdn <= 16)%N -> e = C_INVALID_HANDLE /\ o = None /\ s' = s).
Proof.
  intros lib s pdn d t p out m e o s' H. unfold CommonCreateSocket in H. split; [|split].
  - intro G. destruct (CheckLibraryStatus lib); try congruence; inversion H; subst; auto.
  - intros G ->. rewrite G in H. inversion H; auto.
  - intros G -> NP. rewrite G in H. cbn [negb] in H. unfold IsValidPdn, PDN_MAX, PDN_MIN in H.
    destruct ((16 <? pdn) || (pdn <? 1))%N eqn:E; [inversion H; auto|].
    apply orb_false_iff in E as [E1 E2]. apply N.ltb_ge in E1, E2. lia.
Qed.
Print Assumptions c41_create_rejects.

Theorem c41_create_failure_changes_nothing : forall s pdn domain type proto m e o s',
  CommonCreateSocket lib_open s pdn domain type proto true m = (e, o, s') -> e <> C_SUCCESS -> o = None /\ s' = s.
Proof. exact create_fail_same. Qed.
Print Assumptions c41_create_failure_changes_nothing.

(** A new socket sits in the lowest free slot, with the requested parameters and default everything else; no other
    socket or slot changes. *)
Theorem c41_new_socket_is_fresh : forall s pdn domain type proto m o s', sreach s ->
  malloc_ok s (OpCreate pdn domain type proto m) ->
  CommonCreateSocket lib_open s pdn domain type proto true m = (C_SUCCESS, o, s') ->
  exists a i, o = Some a /\ heap s a = None /\ (i < 12)%N /\ GetSocketData s i = None /\ GetSocketData s' i = Some a /\
    (forall j, (j < i)%N -> GetSocketData s j <> None) /\
    (forall j, j <> i -> GetSocketData s' j = GetSocketData s j) /\
    (forall b, b <> a -> heap s' b = heap s b) /\
    heap s' a = Some {| sk_ctx := pdn; sk_id := i; sk_state := SS_ALLOCATED; sk_type := type; sk_domain := domain;
       sk_proto := proto; sk_localPort := 0; sk_sendTo := 0; sk_recvTo := 0; sk_dataReady := 0; sk_dataReadyCtx := 0;
       sk_open := 0; sk_openCtx := 0; sk_closed := 0; sk_closedCtx := 0; sk_rest := 0 |}.
Proof. exact create_fresh. Qed.
Print Assumptions c41_new_socket_is_fresh.

(** A removed slot can be used again: after removing any live socket a creation succeeds. *)
Theorem c41_removed_slot_is_reusable : forall s h k s' pdn domain type proto a, sreach s -> heap s h = Some k ->
  RemoveSocketData s h = Ok (C_SUCCESS, s') -> (1 <= pdn <= 16)%N ->
  exists o s'', CommonCreateSocket lib_open s' pdn domain type proto true (Some a) = (C_SUCCESS, o, s'').
Proof.
  intros s h k s' pdn d t p a HR Hk HRm Hp.
  assert (R' : sreach s').
  { eapply sreach_step with (o := OpRemove h); [exact HR|exact I|]. cbn [sstep]. rewrite HRm. reflexivity. }
  apply create_iff; [exact R'|]. split; [exact Hp|split; [discriminate|]].
  pose proof (sreach_inv _ R') as HI. destruct (sinv_handles _ HI) as [ND HIn].
  exists (handles (tbl s')). split; [exact ND|split; [exact HIn|]].
  destruct (remove_live s h k HR Hk) as (s1 & E & _ & _ & G & _). rewrite HRm in E. inversion E; subst s1.
  destruct (live_slot s h k HR Hk) as (L & _).
  pose proof (handles_full (tbl s')) as HF. pose proof (handles_le (tbl s')) as HL. destruct HI as (I1 & _).
  unfold NUM_SOCKET_MAX in I1.
  assert (length (handles (tbl s')) <> length (tbl s')); [|lia].
  intro Q. apply HF in Q. unfold GetSocketData in G.
  replace (N.of_nat NUM_SOCKET_MAX <=? sk_id k)%N with false in G by (symmetry; apply N.leb_gt; exact L).
  destruct (nth_error (tbl s') (N.to_nat (sk_id k))) as [x|] eqn:En.
  - rewrite (nth_nth_error _ _ None _ En) in G. subst x. exact (first_free_none _ Q _ En).
  - apply nth_error_None in En. lia.
Qed.
Print Assumptions c41_removed_slot_is_reusable.

(** A concrete history: two creations, removal of the first, a third creation reusing slot 0; and capacity 12. *)
Fixpoint run_ops (s : sstate) (l : list sop) : res (list (cell_error * option nat) * sstate) :=
  match l with
  | [] => Ok ([], s)
  | o :: r => do x <- sstep s o; let '(e, h, s') := x in do y <- run_ops s' r; Ok ((e, h) :: fst y, snd y)
  end.
Example c41_ex : match run_ops sinit [OpCreate 1 0 0 0 (Some 10%nat); OpCreate 2 0 1 0 (Some 20%nat); OpRemove 10; OpCreate 3 0 0 1 (Some 30%nat)] with
  | Ok (l, s) => l = [(C_SUCCESS, Some 10%nat); (C_SUCCESS, Some 20%nat); (C_SUCCESS, None); (C_SUCCESS, Some 30%nat)]
                 /\ GetSocketData s 0 = Some 30%nat /\ GetSocketData s 1 = Some 20%nat
  | _ => False end.
Proof. cbn. repeat split; reflexivity. Qed.
Example c41_ex_full : match run_ops sinit (map (fun n => OpCreate 1 0 0 0 (Some n)) (seq 100 13)) with
  | Ok (l, _) => map fst l = repeat C_SUCCESS 12 ++ [C_NO_MEMORY] | _ => False end.
Proof. vm_compute. reflexivity. Qed.

(** C42 *)
Theorem c42_remove_affects_only_that_socket : forall s h k, sreach s -> heap s h = Some k ->
  exists s', RemoveSocketData s h = Ok (C_SUCCESS, s') /\ heap s' h = None /\
    (forall b, b <> h -> heap s' b = heap s b) /\
    GetSocketData s' (sk_id k) = None /\ (forall j, j <> sk_id k -> GetSocketData s' j = GetSocketData s j).
Proof. exact remove_live. Qed.
Print Assumptions c42_remove_affects_only_that_socket.
(** A live object that no slot of this context holds (another context's socket): BAD_PARAMETER, nothing changes. *)
Theorem c42_unknown_handle_is_rejected : forall s h k, heap s h = Some k -> (forall i, GetSocketData s i <> Some h) ->
  length (tbl s) = 12%nat -> RemoveSocketData s h = Ok (C_BAD_PARAMETER, s).
Proof. exact remove_foreign. Qed.
Print Assumptions c42_unknown_handle_is_rejected.
Example c42_ex : let s := {| tbl := repeat None 12; heap := hset (fun _ => None) 5 (Some (new_sock 1 0 0 0 0)) |} in
  RemoveSocketData s 5 = Ok (C_BAD_PARAMETER, s).
Proof. reflexivity. Qed.
(** The claim fails for a handle that was already removed: the state is read through the dangling handle before the
    table is searched (cellular_common.c:588), so a second removal is undefined behaviour instead of BAD_PARAMETER. *)
Theorem c42_double_remove_refuted : forall s h k s', sreach s -> heap s h = Some k ->
  RemoveSocketData s h = Ok (C_SUCCESS, s') -> RemoveSocketData s' h = UB.
Proof.
  intros s h k s' HR Hk H. destruct (remove_live s h k HR Hk) as (s1 & E & N & _). rewrite H in E. inversion E; subst.
  unfold RemoveSocketData. rewrite N. reflexivity.
Qed.
Print Assumptions c42_double_remove_refuted.
Example c42_ex2 : exists s h k, sreach s /\ heap s h = Some k.
Proof.
  eexists _, 7%nat, _. split.
  - eapply sreach_step with (o := OpCreate 1 0 0 0 (Some 7%nat)); [apply sreach_init|reflexivity|reflexivity].
  - reflexivity.
Qed.

(** C43 refuted: there is a schedule in which both creations report success, for distinct sockets, and both sockets claim
    slot 0, but the table only holds the second: the first is lost (it can be neither found nor removed). *)
Theorem c43_concurrent_create_refuted : exists sched s k1 k2,
  crun sched sinit (CScan 0) (CScan 0) (1, 0, 0, 0)%N (2, 0, 0, 0)%N (Some 10%nat) (Some 20%nat) = (s, CDone 10, CDone 20) /\
  heap s 10%nat = Some k1 /\ heap s 20%nat = Some k2 /\ sk_id k1 = sk_id k2 /\
  (forall i, GetSocketData s i <> Some 10%nat) /\
  RemoveSocketData s 10 = Ok (C_BAD_PARAMETER, s).
Proof.
  exists [true; false; true; false]. eexists _, _, _. split; [reflexivity|]. repeat split.
  intros i. unfold GetSocketData. cbn [tbl]. destruct (N.of_nat NUM_SOCKET_MAX <=? i)%N; [discriminate|].
  generalize (N.to_nat i). intro n. cbv [tset repeat NUM_SOCKET_MAX sinit tbl].
  do 13 (destruct n as [|n]; [discriminate|]). cbn [nth]. destruct n; discriminate.
Qed.
Print Assumptions c43_concurrent_create_refuted.
(** What does hold: when one creation runs to its end before the other starts, both sockets are in the table.
    Missing for the full property: the overlapping schedules (false, see above). *)
Theorem c43_serialised_create_partial : forall s n1 n2 c1 d1 ty1 p1 c2 d2 ty2 p2 m1 m2 s' a b, sreach s ->
  (14 <= n1)%nat -> (14 <= n2)%nat -> (1 <= c1 <= 16)%N -> (1 <= c2 <= 16)%N ->
  (forall x, m1 = Some x -> heap s x = None) -> (forall x, m2 = Some x -> heap s x = None) -> m1 <> m2 ->
  crun (repeat true n1 ++ repeat false n2) s (CScan 0) (CScan 0) (c1,d1,ty1,p1) (c2,d2,ty2,p2) m1 m2 = (s', CDone a, CDone b) ->
  a <> b /\ exists i j, i <> j /\ GetSocketData s' i = Some a /\ GetSocketData s' j = Some b.
Proof. exact serial_distinct. Qed.
Print Assumptions c43_serialised_create_partial.
Example c43_ex : exists s', crun (repeat true 14 ++ repeat false 14) sinit (CScan 0) (CScan 0) (1,0,0,0)%N (2,0,0,0)%N
   (Some 10%nat) (Some 20%nat) = (s', CDone 10, CDone 20).
Proof. eexists. reflexivity. Qed.

(** C44.  A legal option: transport level; 4-byte time-outs in any state; 1-byte PDN context id and 2-byte local port
    while the socket is only allocated. *)
Definition only_field_changed (opt : sock_opt) (v : N) (k k' : sock) : Prop :=
  k' = {| sk_ctx := match opt with OPT_PDN_CONTEXT_ID => v | _ => sk_ctx k end; sk_id := sk_id k; sk_state := sk_state k;
          sk_type := sk_type k; sk_domain := sk_domain k; sk_proto := sk_proto k;
          sk_localPort := match opt with OPT_SET_LOCAL_PORT => v | _ => sk_localPort k end;
          sk_sendTo := match opt with OPT_SEND_TIMEOUT => v | _ => sk_sendTo k end;
          sk_recvTo := match opt with OPT_RECV_TIMEOUT => v | _ => sk_recvTo k end;
          sk_dataReady := sk_dataReady k; sk_dataReadyCtx := sk_dataReadyCtx k; sk_open := sk_open k; sk_openCtx := sk_openCtx k;
          sk_closed := sk_closed k; sk_closedCtx := sk_closedCtx k; sk_rest := sk_rest k |}.

(** The option value as a number: little-endian integer of 1, 2 or 4 bytes. *)
Definition opt_value (v : list N) : N :=
  match v with
  | [a] => a
  | [a; b] => a + 256 * b
  | [a; b; c; d] => a + 256 * b + 65536 * c + 16777216 * d
  | _ => 0
  end%N.

Theorem c44_legal_option_is_applied_exactly : forall s h k opt v, heap s h = Some k -> v <> [] ->
  legal_opt opt v (sk_state k) ->
  exists s' k', CommonSocketSetSockOpt lib_open s (Some h) LEVEL_TRANSPORT opt (Some v) = Ok (C_SUCCESS, s') /\
    tbl s' = tbl s /\ heap s' h = Some k' /\ (forall b, b <> h -> heap s' b = heap s b) /\
    only_field_changed opt (opt_value v) k k'.
Proof.
  intros s h k opt v Hk Hv HL. unfold CommonSocketSetSockOpt. cbn [lib_open CheckLibraryStatus].
  cbn. destruct v as [|b v]; [congruence|]. rewrite Hk. rewrite (transport_legal _ _ _ HL).
  eexists _, _. split; [reflexivity|]. cbn [tbl heap]. split; [reflexivity|]. split.
  - unfold hset. rewrite Nat.eqb_refl. reflexivity.
  - split.
    + intros c Hc. unfold hset. replace (c =? h)%nat with false; [reflexivity|]. symmetry; apply Nat.eqb_neq; exact Hc.
    + unfold only_field_changed.
      assert (V : le_value (b :: v) = opt_value (b :: v)).
      { destruct opt; cbn [legal_opt] in HL; try contradiction;
          repeat match goal with H : _ /\ _ |- _ => destruct H end;
          destruct v as [|b1 [|b2 [|b3 [|b4 v]]]]; cbn [length] in *; try discriminate; cbn [le_value opt_value]; try lia. }
      rewrite <- V. destruct opt; cbn [legal_opt] in HL; try contradiction; reflexivity.
Qed.
Print Assumptions c44_legal_option_is_applied_exactly.

Theorem c44_illegal_option_changes_nothing : forall lib s h lvl opt v e s',
  (CheckLibraryStatus lib <> C_SUCCESS \/ h = None \/ v = None \/ v = Some [] \/ lvl = LEVEL_IP \/
   (exists a k w, h = Some a /\ heap s a = Some k /\ v = Some w /\ ~ legal_opt opt w (sk_state k))) ->
  CommonSocketSetSockOpt lib s h lvl opt v = Ok (e, s') ->
  e <> C_SUCCESS /\ tbl s' = tbl s /\ forall b, heap s' b = heap s b.
Proof.
  intros lib s h lvl opt v e s' HC H. unfold CommonSocketSetSockOpt in H.
  assert (G : CheckLibraryStatus lib = C_SUCCESS \/ (e <> C_SUCCESS /\ s' = s)).
  { destruct (CheckLibraryStatus lib); auto; right; inversion H; subst; split; congruence. }
  destruct G as [G|[G ->]]; [|auto]. rewrite G in H.
  destruct h as [a|]; [|inversion H; subst; repeat split; congruence].
  destruct v as [[|b v]|]; [inversion H; subst; repeat split; congruence| |inversion H; subst; repeat split; congruence].
  destruct lvl; [inversion H; subst; repeat split; congruence|].
  destruct (heap s a) as [k|] eqn:Ek; [|discriminate].
  destruct HC as [HC|[HC|[HC|[HC|[HC|HC]]]]]; try congruence.
  destruct HC as (a0 & k0 & w & Ha & Hk & Hw & Hn). inversion Ha; inversion Hw; subst. rewrite Ek in Hk. inversion Hk; subst k0.
  destruct (transport_illegal _ _ _ Hn) as (e0 & E0 & Ne). rewrite E0 in H. inversion H; subst.
  split; [exact Ne|split; [reflexivity|]]. cbn [heap]. apply hset_same; exact Ek.
Qed.
Print Assumptions c44_illegal_option_changes_nothing.
Example c44_ex : let s := {| tbl := Some 3%nat :: repeat None 11; heap := hset (fun _ => None) 3 (Some (new_sock 1 0 0 0 0)) |} in
  (match CommonSocketSetSockOpt lib_open s (Some 3%nat) LEVEL_TRANSPORT OPT_SEND_TIMEOUT (Some [16;39;0;0]%N) with
   | Ok (e, s') => e = C_SUCCESS /\ option_map sk_sendTo (heap s' 3%nat) = Some 10000%N | _ => False end) /\
  (match CommonSocketSetSockOpt lib_open s (Some 3%nat) LEVEL_TRANSPORT OPT_SEND_TIMEOUT (Some [16;39]%N) with
   | Ok (e, s') => e = C_INTERNAL_FAILURE | _ => False end).
Proof. repeat split; reflexivity. Qed.

(** C75: registering a socket callback replaces that callback and its context on that socket and nothing else; it is refused
    without effect while the library is not open or the handle is NULL. *)
Theorem c75_socket_callback_exact : forall s h k w f c, heap s h = Some k ->
  exists s', CommonSocketRegisterCallback lib_open s (Some h) w f c = Ok (C_SUCCESS, s') /\ tbl s' = tbl s /\
    (forall b, b <> h -> heap s' b = heap s b) /\
    heap s' h = Some {| sk_ctx := sk_ctx k; sk_id := sk_id k; sk_state := sk_state k; sk_type := sk_type k; sk_domain := sk_domain k;
      sk_proto := sk_proto k; sk_localPort := sk_localPort k; sk_sendTo := sk_sendTo k; sk_recvTo := sk_recvTo k;
      sk_dataReady := match w with CB_DATA_READY => f | _ => sk_dataReady k end;
      sk_dataReadyCtx := match w with CB_DATA_READY => c | _ => sk_dataReadyCtx k end;
      sk_open := match w with CB_OPEN => f | _ => sk_open k end; sk_openCtx := match w with CB_OPEN => c | _ => sk_openCtx k end;
      sk_closed := match w with CB_CLOSED => f | _ => sk_closed k end; sk_closedCtx := match w with CB_CLOSED => c | _ => sk_closedCtx k end;
      sk_rest := sk_rest k |}.
Proof.
  intros s h k w f c Hk. unfold CommonSocketRegisterCallback. cbn [lib_open CheckLibraryStatus]. cbn. rewrite Hk.
  eexists. split; [reflexivity|]. cbn [tbl heap]. split; [reflexivity|]. split.
  - intros b Hb. unfold hset. replace (b =? h)%nat with false; [reflexivity|]. symmetry; apply Nat.eqb_neq; exact Hb.
  - unfold hset. rewrite Nat.eqb_refl. destruct w; reflexivity.
Qed.
Print Assumptions c75_socket_callback_exact.
Theorem c75_socket_callback_refused : forall lib s h w f c,
  (CheckLibraryStatus lib <> C_SUCCESS -> CommonSocketRegisterCallback lib s h w f c = Ok (CheckLibraryStatus lib, s)) /\
  (CheckLibraryStatus lib = C_SUCCESS -> CommonSocketRegisterCallback lib s None w f c = Ok (C_INVALID_HANDLE, s)).
Proof.
  intros. unfold CommonSocketRegisterCallback. split.
  - intro G. destruct (CheckLibraryStatus lib); congruence.
  - intros G. rewrite G. reflexivity.
Qed.
Print Assumptions c75_socket_callback_refused.
Example c75_ex : let s := {| tbl := Some 3%nat :: repeat None 11; heap := hset (fun _ => None) 3 (Some (new_sock 1 0 0 0 0)) |} in
  match CommonSocketRegisterCallback lib_open s (Some 3%nat) CB_CLOSED 7 8 with
  | Ok (e, s') => e = C_SUCCESS /\ option_map sk_closed (heap s' 3%nat) = Some 7%N /\ option_map sk_closedCtx (heap s' 3%nat) = Some 8%N
  | _ => False end.
Proof. repeat split; reflexivity. Qed.

(** C45 refuted: CELLULAR_SOCKET_OPTION_PDN_CONTEXT_ID accepts any byte, e.g. 200 (and 0). *)
Theorem c45_pdn_context_id_refuted : exists s k, sreach s /\ heap s 7%nat = Some k /\ sk_ctx k = 200%N.
Proof.
  eexists _, _. split.
  - eapply sreach_step with (o := OpSetOpt 7 LEVEL_TRANSPORT OPT_PDN_CONTEXT_ID [200]%N);
    [eapply sreach_step with (o := OpCreate 1 0 0 0 (Some 7%nat)); [apply sreach_init|reflexivity|reflexivity]|exact I|reflexivity].
  - split; reflexivity.
Qed.
Print Assumptions c45_pdn_context_id_refuted.
(** What does hold: in histories that only set the PDN option to values 1..16 (missing: all other histories, false). *)
Theorem c45_pdn_context_id_in_range_partial : forall s, sreach_pdn s -> forall a k, heap s a = Some k -> (1 <= sk_ctx k <= 16)%N.
Proof. exact pdn_range. Qed.
Print Assumptions c45_pdn_context_id_in_range_partial.
Example c45_ex : exists s k, sreach_pdn s /\ heap s 7%nat = Some k /\ sk_ctx k = 16%N.
Proof.
  eexists _, _. split.
  - eapply sreach_pdn_step with (o := OpSetOpt 7 LEVEL_TRANSPORT OPT_PDN_CONTEXT_ID [16]%N);
    [eapply sreach_pdn_step with (o := OpCreate 1 0 0 0 (Some 7%nat)); [apply sreach_pdn_init|reflexivity|exact I|reflexivity]|exact I|cbn; lia|reflexivity].
  - split; reflexivity.
Qed.

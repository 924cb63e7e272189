(** C46, C47, C49, C50 and the initialisation part of C33. *)
From Coq Require Import String List NArith Bool Arith Lia.
From Verif Require Import Bytes AtCore Status Pktio PktHandler Lifecycle SpecLifecycle LifecycleInv LifecycleProofs.
Import ListNotations.
Local Open Scope string_scope.
Local Open Scope list_scope.
Local Open Scope nat_scope.

(** ** Sample runs *)
Definition all_functions : comm_intf := {| ci_open := true; ci_send := true; ci_recv := true; ci_close := true |}.
Definition with_urcs (u : list urc_entry) : params :=
  {| p_handle := true; p_intf := Some all_functions; p_tok := Some {| ct_urcs := Some u; ct_error := true; ct_success := true; ct_wo_prefix := true |} |}.
Definition sample_params : params := with_urcs [(s2b "CREG", None); (s2b "QIND", None)].
Definition unsorted_params : params := with_urcs [(s2b "QIND", None); (s2b "CREG", None)].
Definition ok : label := LMain true C_SUCCESS.
(** Up to and including thread creation: parameters, context, 4 mutexes, queue, event group, thread. *)
Definition start (p : params) : list label := LInit p :: repeat ok 9.
Definition good_init (p : params) : list label := start p ++ [LReader true; LReader true] ++ repeat ok 5.
(** Module clean-up, closing flag, ABORT, reader: stop waiting, close, shutdown, ABORTED; then the rest. *)
Definition close_down : list label := repeat ok 3 ++ [LReader true; LReader true; LReader true; LReader true] ++ repeat ok 9.
Definition good_cleanup : list label := LCleanup false :: close_down.

Lemma reached static ls s : exec_all static ls init = Some s -> reach static s.
Proof. apply reach_exec_all. constructor. Qed.
Ltac run_ex := match goal with |- exists s, exec_all ?st ?ls init = Some s /\ _ =>
  let r := eval vm_compute in (exec_all st ls init) in match r with Some ?x => exists x; split; [vm_compute; reflexivity|] end end.

(** ** C46 *)
(** Successful initialisation: the library is open and holds exactly its resources, each once. *)
Theorem c46_success_is_open : forall static s s', returns static s s' (RetInit C_SUCCESS) ->
  slot s' = true /\ opened (cx s') = true /\ closing (cx s') = false /\
  (forall r, In r (RModule :: library_resources) -> held r (tr s')) /\
  (forall r, ~ In r (RModule :: library_resources) -> released r (tr s')) /\
  (static = false -> api_status s' = C_SUCCESS).
Proof.
  intros static s s' (R & [lb E] & Rs).
  assert (I : Inv static s') by (eapply inv_step; [apply inv_reach, R|exact E]).
  pose proof (inv_reach _ _ R) as I0. pose proof (i_phase _ _ I0) as P0.
  pose proof (ret_cases _ _ _ _ _ E Rs) as C. inversion C as [p e M Ne X|p e M Ne X|e M X|M X|re M X Eq|]; subst; try congruence.
  - unfold phase in P0. rewrite M in P0. decompose [and] P0. congruence.
  - pose proof (i_bal _ _ I) as B. unfold phase in P0. rewrite M in P0. destruct P0 as [(Sl & (Q & Ev & _ & Op & Cl) & (Cu & _ & _) & Sd) Sk].
    cbn. split; [exact Sl|]. split; [exact Op|]. split; [exact Cl|]. split; [|split].
    + intros r Hr. unfold held. specialize (B r). cbn [tr upd_results] in B |- *. rewrite B. cbn in Hr.
      decompose [or] Hr; subst; cbn; rewrite ?Sl, ?Q, ?Ev, ?Cu; cbn; lia.
    + intros r Hr. unfold released. specialize (B r). cbn [tr upd_results] in B |- *. rewrite B. cbn in Hr.
      destruct r; cbn; rewrite ?Sl, ?Sk; cbn; try (exfalso; tauto).
      * destruct k as [|[|[|[|k]]]]; try (exfalso; tauto). cbn. lia.
      * lia.
    + intro St. unfold api_status. cbn. rewrite Sl. unfold flags_of, CheckLibraryStatus. cbn. rewrite Op, Cl, (Sd St). reflexivity.
  - exfalso. unfold phase in P0. rewrite M in P0. destruct P0 as (_ & _ & _ & Ns & _). destruct re; [apply Ns|]; congruence.
Qed.
Print Assumptions c46_success_is_open.

(** Failed initialisation: a context exists afterwards exactly if one existed before; and if none existed, everything that was
    acquired has been released the same number of times. *)
Theorem c46_failure_releases_everything : forall static s s' e, returns static s s' (RetInit e) -> e <> C_SUCCESS ->
  slot s' = at_call s' /\ (at_call s' = false -> opened (cx s') = false /\ forall r, released r (tr s')).
Proof.
  intros static s s' e (R & [lb E] & Rs) Ne.
  assert (I : Inv static s') by (eapply inv_step; [apply inv_reach, R|exact E]).
  pose proof (inv_reach _ _ R) as I0. pose proof (i_phase _ _ I0) as P0. pose proof (at_call_reach _ _ R) as A. unfold at_call_ok in A.
  assert (Sl : slot s' = at_call s' /\ main s' = MIdle).
  { pose proof (ret_cases _ _ _ _ _ E Rs) as C. inversion C as [p ? M ? X|p ? M ? X|? M X|M X|re M X Eq|]; subst; try congruence; rewrite M in A.
    - cbn. auto.
    - cbn. auto.
    - cbn. auto.
    - destruct re; [cbn; auto|discriminate]. }
  destruct Sl as [Sl Mi]. split; [exact Sl|]. intro Z. rewrite Z in Sl.
  split; [apply (i_closed _ _ I Sl)|]. intro r. unfold released. rewrite (i_bal _ _ I r).
  pose proof (i_phase _ _ I) as P. unfold phase in P. rewrite Mi, Sl in P.
  destruct r; cbn; rewrite ?Mi, ?Sl, ?P; cbn; lia.
Qed.
Print Assumptions c46_failure_releases_everything.

(** At every moment of every schedule nothing is released that is not held, and nothing acquired while held. *)
Theorem c46_never_twice : forall static s r, reach static s -> released r (tr s) \/ held r (tr s).
Proof.
  intros static s r R. unfold released, held. rewrite (i_bal _ _ (inv_reach _ _ R) r). destruct (alive s r); cbn; [right|left]; lia.
Qed.
Print Assumptions c46_never_twice.

(** If the slot is free, the parameters are there and nothing fails, initialisation can only return success. *)
Theorem c46_succeeds_when_nothing_fails : forall static s p ls s', reach static s -> main s = MIdle -> slot s = false ->
  usable_arguments p -> Forall nothing_fails ls ->
  exec_all static (LInit p :: ls) s = Some s' ->
  results s' = results s \/ exists rest, results s' = rest ++ RetInit C_SUCCESS :: results s.
Proof.
  intros static s p ls s' R M Sl Us F E. apply usable_checked in Us. cbn [exec_all] in E.
  destruct (exec static (LInit p) s) as [s0|] eqn:E0; [|discriminate].
  assert (R0 : reach static s0) by exact (reach_step _ _ _ _ R E0).
  assert (O : on_path (results s) p s0). { cbn in E0. rewrite M in E0. injection E0 as <-. cbn. auto. }
  clear E0 R M Sl. revert s0 R0 O E. induction F as [|lb ls N F IH]; intros s0 R0 O E; cbn [exec_all] in E.
  - injection E as <-. left. unfold on_path in O. destruct (main s0); tauto.
  - destruct (exec static lb s0) as [s1|] eqn:E1; [|discriminate].
    assert (R1 : reach static s1) by exact (reach_step _ _ _ _ R0 E1).
    destruct (path_step _ _ _ _ _ _ (inv_reach _ _ R0) Us N O E1) as [O1 | [Rs _]]; [eapply IH; eassumption|].
    right. clear -Rs E. revert s1 Rs E. assert (G : forall ls s1 s', exec_all static ls s1 = Some s' -> exists rest, results s' = rest ++ results s1).
    { clear. induction ls as [|lb ls IH]; intros s1 s' E; cbn [exec_all] in E; [injection E as <-; exists []; reflexivity|].
      destruct (exec static lb s1) as [s2|] eqn:X; [|discriminate]. destruct (IH _ _ E) as [rest Er].
      assert (results s2 = results s1 \/ exists r, results s2 = r :: results s1) as [H | [r H]].
      { destruct lb; cbn [exec] in X.
        - destruct (main s1); try discriminate; injection X as <-; now left.
        - destruct (main s1); try discriminate. destruct null; [injection X as <-; right; eexists; reflexivity|]. destruct (slot s1); [|discriminate]. injection X as <-. now left.
        - unfold main_step in X. destruct (main s1); try discriminate;
          repeat match type of X with
            | (if ?c then _ else _) = _ => destruct c
            | (match ?c with _ => _ end) = _ => destruct c
            end; try discriminate; injection X as <-; try (now left); try (right; eexists; reflexivity); try (left; cbn; destruct (queue_p _); reflexivity); try (left; destruct (aborted _); reflexivity).
          left. cbn. match goal with |- context [fold_right ?f ?a ?l] => pose proof (fold_sock_same l a) as Fs end. tauto.
        - left. apply reader_results in X. tauto.
        - left. apply old_results in X. tauto.
        - destruct (main s1); try discriminate. destruct (_ && _); [|discriminate]. destruct (api_status s1); try discriminate. injection X as <-. now left.
        - destruct (main s1); try discriminate. destruct (_ && _); [|discriminate]. injection X as <-. now left. }
      - rewrite H in Er. exists rest. exact Er.
      - rewrite H in Er. exists (rest ++ [r]). rewrite Er, <- app_assoc. reflexivity. }
    intros s1 Rs E. destruct (G _ _ _ E) as [rest Er]. exists rest. rewrite Er, Rs. reflexivity.
Qed.
Print Assumptions c46_succeeds_when_nothing_fails.

(** While a context exists, another initialisation returns an error and changes nothing. *)
Theorem c46_second_init_changes_nothing : forall static s p ls s', reach static s -> main s = MIdle -> slot s = true ->
  exec_all static (LInit p :: ls) s = Some s' -> (forall s1 k, k < length ls -> exec_all static (LInit p :: firstn k ls) s = Some s1 -> main s1 <> MIdle) ->
  tr s' = tr s /\ handle s' = handle s /\ slot s' = true /\
  (results s' = results s \/ exists e, e <> C_SUCCESS /\ results s' = RetInit e :: results s).
Proof.
  intros static s p ls s' R M Sl E Fst. cbn [exec_all] in E, Fst.
  destruct (exec static (LInit p) s) as [s0|] eqn:E0; [|discriminate].
  assert (R0 : reach static s0) by exact (reach_step _ _ _ _ R E0).
  assert (O : refusing (tr s) (results s) (handle s) s0). { cbn in E0. rewrite M in E0. injection E0 as <-. cbn. auto. }
  clear E0 R M Sl. revert s0 R0 O E Fst. induction ls as [|lb ls IH]; intros s0 R0 O E Fst; cbn [exec_all] in E.
  - injection E as <-. unfold refusing in O. destruct (main s0); tauto.
  - destruct (exec static lb s0) as [s1|] eqn:E1; [|discriminate].
    assert (R1 : reach static s1) by exact (reach_step _ _ _ _ R0 E1).
    destruct (refuse_step _ _ _ _ _ _ _ (inv_reach _ _ R0) O E1) as [O1 | (Rs & M1 & S1 & T1 & H1)].
    + eapply IH; [exact R1|exact O1|exact E|]. intros s2 k K X. apply (Fst s2 (S k)); [cbn; lia|]. cbn [firstn exec_all]. rewrite E1. exact X.
    + destruct ls as [|lb2 ls].
      * injection E as <-. auto.
      * exfalso. apply (Fst s1 1); [cbn; lia| |exact M1]. cbn [firstn exec_all]. rewrite E1. reflexivity.
Qed.
Print Assumptions c46_second_init_changes_nothing.

(** Under a fair scheduler every initialisation and every clean-up returns: the application thread is idle again and again. *)
Theorem c46_c47_calls_return : forall static st lab, execution static st lab ->
  fair_for static app_thread st lab -> fair_for static reader_thread st lab ->
  forall i, exists j, i <= j /\ main (st j) = MIdle.
Proof. intros static st lab X Fm Fr i. exact (returns_eventually static st lab X Fm Fr i). Qed.
Print Assumptions c46_c47_calls_return.

Example c46_ex_success : exists s, exec_all false (good_init sample_params) init = Some s /\ results s = [RetInit C_SUCCESS] /\ api_status s = C_SUCCESS.
Proof. run_ex. split; reflexivity. Qed.
(** The third mutex cannot be created; the comm interface cannot be opened; the module refuses. *)
Example c46_ex_mutex : exists s, exec_all false (LInit sample_params :: repeat ok 4 ++ [LMain false C_SUCCESS] ++ repeat ok 3) init = Some s /\
  results s = [RetInit C_RESOURCE_CREATION_FAIL] /\ slot s = false /\ creates (RMutex 1) (tr s) = 1.
Proof. run_ex. repeat split. Qed.
Example c46_ex_comm : exists s, exec_all false (start sample_params ++ [LReader false; LReader true] ++ repeat ok 8) init = Some s /\
  results s = [RetInit C_INTERNAL_FAILURE] /\ slot s = false /\ creates REvent (tr s) = 1 /\ creates RQueue (tr s) = 1.
Proof. run_ex. repeat split. Qed.
Example c46_ex_second : exists s, exec_all false (good_init sample_params ++ [LInit sample_params; ok; ok]) init = Some s /\
  results s = [RetInit C_NO_MEMORY; RetInit C_SUCCESS] /\ slot s = true.
Proof. run_ex. repeat split. Qed.

(** ** C47 *)
(** When clean-up returns success, the slot is free, the library closed, and every resource - sockets included - acquired at any
    time in the past has been released exactly as often as acquired. *)
Theorem c47_cleanup_releases_everything : forall static s s', returns static s s' (RetCleanup C_SUCCESS) ->
  slot s' = false /\ opened (cx s') = false /\ forall r, released r (tr s').
Proof.
  intros static s s' (R & [lb E] & Rs).
  assert (I : Inv static s') by (eapply inv_step; [apply inv_reach, R|exact E]).
  pose proof (inv_reach _ _ R) as I0.
  assert (Sl : slot s' = false /\ main s' = MIdle).
  { pose proof (ret_cases _ _ _ _ _ E Rs) as C. inversion C as [| | | |re M X Eq|]; subst. destruct re; [discriminate|]. split; reflexivity. }
  destruct Sl as [Sl Mi]. split; [exact Sl|]. split; [apply (i_closed _ _ I Sl)|].
  intro r. unfold released. rewrite (i_bal _ _ I r). pose proof (i_phase _ _ I) as P. unfold phase in P. rewrite Mi, Sl in P.
  destruct r; cbn; rewrite ?Mi, ?Sl, ?P; cbn; lia.
Qed.
Print Assumptions c47_cleanup_releases_everything.

(** Whenever API calls are accepted - in particular at every moment of a clean-up at which they still are - the context, the
    mutexes, the response queue, the event group and the comm interface are all there. *)
Theorem c47_accepted_only_with_resources : forall static s r, reach static s -> api_status s = C_SUCCESS ->
  In r library_resources -> held r (tr s).
Proof.
  intros static s r R A Hr. pose proof (inv_reach _ _ R) as I. pose proof (i_phase _ _ I) as P.
  unfold api_status in A. destruct (slot s) eqn:Sl; [|discriminate].
  unfold CheckLibraryStatus, flags_of in A. cbn in A. destruct (opened (cx s)) eqn:Op; [|discriminate].
  destruct (closing (cx s)) eqn:Cl; [destruct (shutdown (cx s)); discriminate|]. clear A.
  assert (K : is_open static s /\ forall k, mutex_alive (main s) (slot s) k = (k <? 4)).
  { unfold phase in P. unfold mutex_alive. rewrite Sl in *. destruct (main s) eqn:M; unfold resources in P; try (decompose [and] P; congruence);
      (split; [tauto|intro k; destruct (k <? 4); reflexivity]). }
  destruct K as [(_ & (Q & Ev & _) & (Cu & _) & _) Mu]. unfold held. rewrite (i_bal _ _ I r). cbn in Hr.
  decompose [or] Hr; subst; try contradiction; cbn [alive]; rewrite ?Mu, ?Sl, ?Q, ?Ev, ?Cu; cbn; lia.
Qed.
Print Assumptions c47_accepted_only_with_resources.

(** After clean-up no call is accepted, even if the context object is static and the application still passes its address. *)
Theorem c47_closed_library_refuses : forall static s, reach static s -> slot s = false ->
  api_status s = C_INVALID_HANDLE /\ CheckLibraryStatus (Some (flags_of (cx s))) = C_LIBRARY_NOT_OPEN.
Proof.
  intros static s R Sl. destruct (i_closed _ _ (inv_reach _ _ R) Sl) as [Op _]. unfold api_status. rewrite Sl. split; [reflexivity|].
  unfold CheckLibraryStatus, flags_of. cbn. now rewrite Op.
Qed.
Print Assumptions c47_closed_library_refuses.

(** Between calls a socket can be created exactly when calls are accepted and its slot (12 of them) is not in use; it then holds its memory,
    and removing it gives the memory back. *)
Theorem c47_sockets_served_exactly : forall static s k, reach static s -> main s = MIdle ->
  ((exists s', exec static (LSockOpen k) s = Some s') <-> api_status s = C_SUCCESS /\ k < 12 /\ ~ In k (socks (cx s))) /\
  (forall s', exec static (LSockOpen k) s = Some s' -> held (RSocket k) (tr s') /\
     exists s'', exec static (LSockClose k) s' = Some s'' /\ released (RSocket k) (tr s'')).
Proof.
  intros static s k R M. pose proof (inv_reach _ _ R) as I.
  assert (Ex : existsb (Nat.eqb k) (socks (cx s)) = true <-> In k (socks (cx s))).
  { rewrite existsb_exists. split; [intros (x & Hx & Hk); apply Nat.eqb_eq in Hk; now subst|intros H; exists k; split; [exact H|apply Nat.eqb_refl]]. }
  split.
  - cbn [exec]. rewrite M. destruct (existsb (Nat.eqb k) (socks (cx s))) eqn:Eb; cbn [negb andb].
    + split; [intros [s' H]; discriminate|]. intros (_ & _ & N). exfalso. apply N. now apply Ex.
    + destruct (Nat.ltb_spec k 12) as [L|L].
      * assert (NI : ~ In k (socks (cx s))) by (intros Hk; apply Ex in Hk; congruence).
        destruct (api_status s) eqn:A; (split; [intros [s' H]; first [discriminate|now auto]|intros (H & _); first [discriminate|eauto]]).
      * split; [intros [s' H]; discriminate|]. intros (_ & N & _). lia.
  - intros s' E. assert (I' : Inv static s') by (eapply inv_step; eauto).
    cbn [exec] in E. rewrite M in E. destruct (existsb (Nat.eqb k) (socks (cx s))) eqn:Eb; cbn [negb andb] in E; [discriminate|].
    destruct (k <? 12); [|discriminate]. destruct (api_status s) eqn:A; try discriminate. injection E as <-.
    assert (NS : ~ In k (socks (cx s))) by (intros Hk; apply Ex in Hk; congruence).
    assert (Sl : slot s = true) by (unfold api_status in A; destruct (slot s); [reflexivity|discriminate]).
    destruct (c46_never_twice static s (RSocket k) R) as [H|H].
    + split; [unfold held in *; unfold released in H; cbn [tr create destroy upd_tr upd_cx creates destroys]; destruct (resource_eq_dec (RSocket k) (RSocket k)); [lia|congruence]|].
      cbn. rewrite M, Nat.eqb_refl, Sl. cbn. eexists. split; [reflexivity|]. unfold released in *. cbn [tr create destroy upd_tr upd_cx creates destroys].
      destruct (resource_eq_dec (RSocket k) (RSocket k)); [lia|congruence].
    + exfalso. unfold held in H. rewrite (i_bal _ _ I (RSocket k)) in H. cbn [alive] in H. rewrite Eb, Bool.andb_false_r in H. cbn in H. lia.
Qed.
Print Assumptions c47_sockets_served_exactly.

(** A new initialisation behaves like the first one (heap-allocated context): whatever happens after a point where the slot is
    free could happen, with the same results and platform calls, on a library never used before, and vice versa.  Steps of
    readers of earlier contexts, which the first run cannot have, are left out of the comparison: they change nothing. *)
Theorem c47_restart_like_first_partial : forall s, reach false s -> main s = MIdle -> slot s = false ->
  (forall ls s', exec_all false ls s = Some s' ->
     exists t, exec_all false (filter (fun lb => negb (late_reader lb)) ls) init = Some t /\
       results s' = results t ++ results s /\ tr s' = tr t ++ tr s /\ api_status s' = api_status t) /\
  (forall ls t, forallb (fun lb => negb (late_reader lb)) ls = true -> exec_all false ls init = Some t ->
     exists s', exec_all false ls s = Some s' /\
       results s' = results t ++ results s /\ tr s' = tr t ++ tr s /\ api_status s' = api_status t).
Proof.
  intros s R M Sl. pose proof (view_idle s R M Sl) as V. split.
  - intros ls s' E. destruct (sim_all ls s init s' R (reach_init false) V E) as (t & Xt & V' & dr & dt & A & B & C & D).
    exists t. split; [exact Xt|]. cbn in B, D. rewrite app_nil_r in B, D. rewrite A, B, C, D. repeat split. apply view_api, V'.
  - intros ls t F E. destruct (sim_all ls init s t (reach_init false) R (view_sym _ _ V) E) as (s' & Xt & V' & dr & dt & A & B & C & D).
    assert (Fl : filter (fun lb => negb (late_reader lb)) ls = ls).
    { clear -F. induction ls as [|lb ls IH]; [reflexivity|]. cbn in F |- *. apply andb_prop in F. destruct F as [F1 F2]. rewrite F1. f_equal. apply IH, F2. }
    rewrite Fl in Xt. exists s'. split; [exact Xt|]. cbn in A, C. rewrite app_nil_r in A, C. rewrite A, B, C, D. repeat split. symmetry. apply view_api, V'.
Qed.
Print Assumptions c47_restart_like_first_partial.

Example c47_ex : exists s, exec_all false (good_init sample_params ++ [LSockOpen 3; LSockOpen 5; LSockClose 3] ++ good_cleanup) init = Some s /\
  results s = [RetCleanup C_SUCCESS; RetInit C_SUCCESS] /\ main s = MIdle /\ slot s = false /\ creates (RSocket 5) (tr s) = 1 /\ destroys (RSocket 5) (tr s) = 1.
Proof. run_ex. repeat split. Qed.

(** With a static context (CELLULAR_CONFIG_STATIC_ALLOCATION_CONTEXT) it does not: the reader of the first life still runs after
    clean-up has returned, and its last action marks the second life as shut down: initialisation returns success, and every
    API call is refused. *)
Theorem c47_static_restart_refuted : exists s,
  exec_all true (good_init sample_params ++ good_cleanup ++ good_init sample_params ++ [LOld 0; LOld 0]) init = Some s /\
  results s = [RetInit C_SUCCESS; RetCleanup C_SUCCESS; RetInit C_SUCCESS] /\ main s = MIdle /\ api_status s = C_INTERNAL_FAILURE.
Proof. run_ex. repeat split. Qed.
Print Assumptions c47_static_restart_refuted.

(** ** C49 *)
(** If the module functions succeed, a failing initialisation leaves the caller's variable alone, and a successful one puts the new
    context there. *)
Theorem c49_handle_partial : forall static s p ls s1 s', reach static s -> main s = MIdle -> Forall module_succeeds ls ->
  exec_all static (LInit p :: ls) s = Some s1 -> main s1 <> MIdle -> (forall k s2, k <= length ls -> exec_all static (LInit p :: firstn k ls) s = Some s2 -> main s2 <> MIdle) ->
  forall lb e, module_succeeds lb -> exec static lb s1 = Some s' -> results s' = RetInit e :: results s1 ->
  (e = C_SUCCESS -> handle s' = Some (gen s') /\ slot s' = true) /\ (e <> C_SUCCESS -> handle s' = handle s).
Proof.
  intros static s p ls s1 s' R M F E Ni Fst lb e N E' Rs. cbn [exec_all] in E, Fst.
  destruct (exec static (LInit p) s) as [s0|] eqn:E0; [|discriminate].
  assert (R0 : reach static s0) by exact (reach_step _ _ _ _ R E0).
  assert (O : keeps_handle (handle s) (results s) s0). { cbn in E0. rewrite M in E0. injection E0 as <-. cbn. auto. }
  clear E0. assert (G : keeps_handle (handle s) (results s) s1 /\ reach static s1).
  { clear R M E' Rs. revert s0 R0 O E Fst. induction F as [|lb0 ls N0 F IH]; intros s0 R0 O E Fst; cbn [exec_all] in E.
    - injection E as <-. auto.
    - destruct (exec static lb0 s0) as [s2|] eqn:E1; [|discriminate].
      assert (R1 : reach static s2) by exact (reach_step _ _ _ _ R0 E1).
      destruct (handle_step _ _ _ _ _ _ (inv_reach _ _ R0) N0 O E1) as [O1 | (e0 & _ & M2 & _)].
      + eapply IH; [exact R1|exact O1|exact E|]. intros k s3 K X. apply (Fst (S k) s3); [cbn; lia|]. cbn [firstn exec_all]. rewrite E1. exact X.
      + exfalso. apply (Fst 1 s2); [cbn; lia| |exact M2]. cbn [firstn exec_all]. rewrite E1. reflexivity. }
  destruct G as [G R1]. assert (Rs1 : results s1 = results s) by (unfold keeps_handle in G; destruct (main s1); tauto).
  destruct (handle_step _ _ _ _ _ _ (inv_reach _ _ R1) N G E') as [O1 | (e0 & Re & M2 & H)].
  - assert (results s' = results s) by (unfold keeps_handle in O1; destruct (main s'); tauto).
    exfalso. rewrite H, <- Rs1 in Rs. exact (cons_neq _ _ Rs).
  - rewrite Rs, Rs1 in Re. injection Re as ->. exact H.
Qed.
Print Assumptions c49_handle_partial.

(** Violated by the code if a module function fails: Cellular_CommonInit returns the error, the context is released, and the
    caller's variable designates it. *)
Theorem c49_dangling_handle_refuted : exists s,
  exec_all false (start sample_params ++ [LReader true; LReader true; ok; ok; LMain true C_TIMEOUT] ++ tl close_down) init = Some s /\
  results s = [RetInit C_TIMEOUT] /\ main s = MIdle /\ slot s = false /\ handle s = Some (gen s).
Proof. run_ex. repeat split. Qed.
Print Assumptions c49_dangling_handle_refuted.

(** ** C50 *)
(** Readers of released contexts have already announced their end (event bit ABORTED): all they can still do is read the shutdown
    callback pointer and call it.  In particular no reader handles data or uses the comm interface of a released context. *)
Theorem c50_only_after_announcing_partial : forall static s r, reach static s -> In r (old s) -> r = RB \/ r = RC \/ r = REnd.
Proof.
  intros static s r R Hr. pose proof (i_old _ _ (inv_reach _ _ R)) as O. rewrite Forall_forall in O. specialize (O _ Hr). destruct r; cbn in O; tauto.
Qed.
Print Assumptions c50_only_after_announcing_partial.

(** Runs in which the scheduler lets the reader finish before the context is released. *)
Inductive reach_orderly : state -> Prop :=
| ro_init : reach_orderly init
| ro_step s lb s' : reach_orderly s -> exec false lb s = Some s' -> (slot s = true -> slot s' = false -> cur s = None \/ cur s = Some REnd) -> reach_orderly s'.
Theorem c50_no_use_after_release_partial : forall s, reach_orderly s -> uaf s = false.
Proof.
  intros s R. enough (uaf s = false /\ all_ended (old s)) by tauto.
  induction R as [|s lb s' R [U A] E O]; [split; [reflexivity|constructor]|].
  destruct lb; cbn [exec] in E.
  - destruct (main s); try discriminate. injection E as <-. auto.
  - destruct (main s); try discriminate. destruct null; [injection E as <-; auto|]. destruct (slot s); [|discriminate]. injection E as <-. auto.
  - assert (R0 : reach false s) by (clear -R; induction R; [constructor|econstructor; eassumption]).
    destruct (main_old _ _ _ _ _ (inv_reach _ _ R0) E) as [Eu [Eo | (S1 & S2 & Eo)]]; rewrite Eu, Eo; [auto|]. split; [exact U|].
    destruct (cur s) as [r|]; [|exact A]. destruct (O S1 S2) as [X | X]; [discriminate|]. injection X as ->. constructor; [reflexivity|exact A].
  - apply reader_results in E. destruct E as (_ & _ & _ & -> & -> & _). auto.
  - unfold old_step in E. destruct (nth_error (old s) k) as [[]|] eqn:X; try discriminate; exfalso; eapply set_nth_ended; eauto.
  - destruct (main s); try discriminate. destruct (_ && _); [|discriminate]. destruct (api_status s); try discriminate. injection E as <-. auto.
  - destruct (main s); try discriminate. destruct (_ && _); [|discriminate]. injection E as <-. auto.
Qed.
Print Assumptions c50_no_use_after_release_partial.
(** Such a run: the reader ends before the mutexes are destroyed. *)
Fixpoint orderly_run (ls : list label) (s : state) : option state :=
  match ls with
  | [] => Some s
  | lb :: t => match exec false lb s with
      | Some s1 => if slot s && negb (slot s1) then match cur s with None | Some REnd => orderly_run t s1 | _ => None end else orderly_run t s1
      | None => None
      end
  end.
Lemma orderly_run_ok ls : forall s t, reach_orderly s -> orderly_run ls s = Some t -> reach_orderly t.
Proof.
  induction ls as [|lb ls IH]; intros s t R E; cbn [orderly_run] in E; [injection E as <-; exact R|].
  destruct (exec false lb s) as [s1|] eqn:X; [|discriminate].
  destruct (slot s && negb (slot s1)) eqn:B.
  - destruct (cur s) as [[]|] eqn:C; try discriminate; (apply (IH s1 t); [|exact E]; econstructor; [exact R|exact X|auto]).
  - apply (IH s1 t); [|exact E]. econstructor; [exact R|exact X|]. intros S1 S2. rewrite S1, S2 in B. discriminate.
Qed.
Example c50_ex : exists s, reach_orderly s /\ results s = [RetCleanup C_SUCCESS; RetInit C_SUCCESS] /\ old s = [REnd].
Proof.
  let r := eval vm_compute in (orderly_run (good_init sample_params ++ [LCleanup false] ++ repeat ok 3 ++ repeat (LReader true) 6 ++ repeat ok 9) init) in
  match r with Some ?x => exists x end.
  split; [|split; reflexivity].
  apply (orderly_run_ok (good_init sample_params ++ [LCleanup false] ++ repeat ok 3 ++ repeat (LReader true) 6 ++ repeat ok 9) init); [constructor|vm_compute; reflexivity].
Qed.

(** Violated by the code: clean-up waits for the event bit, not for the thread; the reader touches the context after
    Platform_Free.  The same happens when initialisation fails because the comm interface does not open. *)
Theorem c50_use_after_release_refuted :
  (exists s, exec_all false (good_init sample_params ++ good_cleanup ++ [LOld 0]) init = Some s /\ uaf s = true) /\
  (exists s, exec_all false (start sample_params ++ [LReader false; LReader true] ++ repeat ok 8 ++ [LOld 0]) init = Some s /\ uaf s = true).
Proof. split; run_ex; reflexivity. Qed.
Print Assumptions c50_use_after_release_refuted.

(** ** C33 *)
(** Violated by the code: an unsorted URC table, which the check refuses, is accepted by initialisation. *)
Theorem c33_unsorted_table_accepted_refuted : AtParseInit (p_urcs unsorted_params) <> PKT_OK /\
  exists s, exec_all false (good_init unsorted_params) init = Some s /\ results s = [RetInit C_SUCCESS] /\ api_status s = C_SUCCESS.
Proof. split; [vm_compute; discriminate|]. run_ex. repeat split. Qed.
Print Assumptions c33_unsorted_table_accepted_refuted.

(** ** C94 *)
(** Unusable arguments, under any interleaving with the reader and what is left of earlier ones: the call has not returned, or it returned
    INVALID_HANDLE for a NULL handle pointer and BAD_PARAMETER for anything else; nothing was acquired or released, the handle
    variable was not written and an open library stays open. *)
Theorem c94_unusable_arguments_are_refused : forall static s p ls s', reach static s -> main s = MIdle -> ~ usable_arguments p ->
  exec_all static (LInit p :: ls) s = Some s' -> Forall (fun lb => ~ makes_a_call lb) ls ->
  (results s' = results s \/ results s' = RetInit (if p_handle p then C_BAD_PARAMETER else C_INVALID_HANDLE) :: results s) /\
  tr s' = tr s /\ handle s' = handle s /\ slot s' = slot s /\ opened (cx s') = opened (cx s).
Proof. exact unusable_refused. Qed.
Print Assumptions c94_unusable_arguments_are_refused.

(** Usable arguments pass: the call goes on to acquire the context. *)
Theorem c94_usable_arguments_pass : forall static s p, reach static s -> main s = MIdle -> usable_arguments p ->
  exists s', exec_all static [LInit p; LMain true C_SUCCESS; LMain true C_SUCCESS] s = Some s' /\
  (slot s = false -> results s' = results s /\ tr s' = OpCreate RCtx :: tr s) /\
  (slot s = true -> results s' = RetInit C_NO_MEMORY :: results s /\ tr s' = tr s).
Proof.
  intros static s p R M U. apply usable_checked in U. cbn. rewrite M. cbn. rewrite U. cbn. destruct (slot s) eqn:S.
  - eexists. split; [reflexivity|]. split; [discriminate|]. cbn. auto.
  - eexists. split; [reflexivity|]. split; [|discriminate]. cbn. auto.
Qed.
Print Assumptions c94_usable_arguments_pass.

(** The hypotheses are met: a missing receive function, on an open library. *)
Example c94_ex : let p := {| p_handle := true; p_intf := Some {| ci_open := true; ci_send := true; ci_recv := false; ci_close := true |};
                             p_tok := p_tok sample_params |} in
  ~ usable_arguments p /\ usable_arguments sample_params /\
  exists s, exec_all false (good_init sample_params ++ [LInit p; ok]) init = Some s /\
    results s = [RetInit C_BAD_PARAMETER; RetInit C_SUCCESS] /\ api_status s = C_SUCCESS.
Proof.
  cbv zeta. split; [rewrite usable_checked; discriminate|]. split; [rewrite usable_checked; reflexivity|].
  run_ex. split; reflexivity.
Qed.

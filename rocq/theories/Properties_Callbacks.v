(** Property theorems: event callbacks (C74). *)
From Coq Require Import List Bool Arith Lia.
From Verif Require Import Callbacks SpecCallbacks CallbackProofs.
Import ListNotations.

(** Every schedule: an invocation calls a function that was stored for this kind of event at some moment while the event was being
    handled, with a context that was stored for it at some such moment.  So nothing is called that was unregistered before the event
    came, and nothing that is registered only after it was handled. *)
Theorem c74_only_current : forall t x n k e f c,
  execution t x (S n) -> log (x (S n)) = Invoked k e f c :: log (x n) ->
  exists i, window x i n k e /\ (exists j, i < j <= n /\ fns (x j) k = Some f) /\ (exists j, i < j <= n /\ ctxs (x j) k = c).
Proof.
  intros t x n k e f c HE HL. pose proof (invoked_from _ _ _ _ _ _ _ HE HL) as HR.
  apply (called_was_current t); [destruct HE as [A B]; split; [exact A|intros; apply B; lia]|exact HR].
Qed.
Print Assumptions c74_only_current.

(** Partial: "exactly the registered callback with its context, exactly once" holds for every event during whose handling no
    registration for that kind was half done.  Missing (refuted below): registration concurrent with the handling. *)
Theorem c74_exact_partial : forall t x n i k e,
  execution t x (S n) -> window x i n k e -> (forall m, i <= m <= n -> ~ half_registered (x m) k) -> ~ handling (x (S n)) k e ->
  rd (x (S n)) = RIdle /\
  invocations (log (x (S n))) = match last_registration k (log (x i)) with
                                | (Some f, c) => [Invoked k e f c]
                                | (None, _) => []
                                end ++ invocations (log (x i)).
Proof. exact quiet_exact. Qed.
Print Assumptions c74_exact_partial.

(** A registration takes effect with exactly the callback the application passed and the context it passed (unregistering the
    undefined-response or the input-buffer callback stores the NULL context, whatever was passed): it is the thread's latest call. *)
Theorem c74_registered_as_passed : forall t0 x n k f c, execution t0 x (S n) -> log (x (S n)) = Registered k f c :: log (x n) ->
  exists t c0 i, i < n /\ nth_error (ths (x i)) t = Some AIdle /\ step (LCall t k f c0) (x i) = Some (x (S i)) /\
    (forall j, i < j <= n -> nth_error (ths (x j)) t <> Some AIdle) /\
    (f = None /\ (k = EvUndefined \/ k = EvInput) -> c = 0) /\ (~ (f = None /\ (k = EvUndefined \/ k = EvInput)) -> c = c0).
Proof.
  intros t0 x n k f c HE HL. destruct (proj2 HE n (Nat.lt_succ_diag_r n)) as (l & S). destruct (registered_step _ _ _ _ _ _ S HL) as (t & c0 & U & ->).
  destruct (args_from t0 x n (conj (proj1 HE) (fun i L => proj2 HE i (Nat.lt_lt_succ_r _ _ L))) t (k, f, c0)) as (i & L & E & C & NI); [exists (AUnlock k f c0); auto|].
  exists t, c0, i. split; [exact L|]. split; [exact E|]. split; [exact C|]. split; [exact NI|]. split.
  - intros [-> [-> | -> ]]; reflexivity.
  - intro Q. destruct f as [f|], k; try reflexivity; destruct Q; auto.
Qed.
Print Assumptions c74_registered_as_passed.

(** When no registration for [k] is in progress, what is stored is the last registration of [k] (each kind on its own). *)
Theorem c74_table : forall t x n k, execution t x n -> ~ half_registered (x n) k ->
  (fns (x n) k, ctxs (x n) k) = last_registration k (log (x n)).
Proof. intros t x n k HE H. exact (table_last t x n n k HE (le_n _) H). Qed.
Print Assumptions c74_table.

(** The input buffer callback, which is called under the lock registration takes: in every schedule function and context called
    are those of the last registration. *)
Theorem c74_input_pair : forall t x n e f c,
  execution t x (S n) -> log (x (S n)) = Invoked EvInput e f c :: log (x n) -> last_registration EvInput (log (x n)) = (Some f, c).
Proof.
  intros t x n e f c HE HL. pose proof (invoked_from _ _ _ _ _ _ _ HE HL) as HR.
  apply (input_pair t x n e (Some f) c); [destruct HE as [A B]; split; [exact A|intros; apply B; lia]|exact HR].
Qed.
Print Assumptions c74_input_pair.

(** Refuted: the reader calls a function with the context of another registration (f1 is only ever registered with 11 and f2 with
    22; f1 is called with 22).  All kinds but the input buffer callback: registration locks, invocation does not. *)
Definition mix (k : kind) : list label :=
  [LCall 0 k (Some 1) 11; LThread 0; LThread 0; LThread 0; LThread 0; LEvent k 5] ++
  match k with EvNetwork => [LReader true] | _ => [] end ++
  [LReader true; LReader true; LCall 0 k (Some 2) 22; LThread 0; LThread 0; LThread 0; LThread 0; LReader true; LReader true].
Theorem c74_mismatched_context_refuted : forall k, k <> EvInput -> exists x n,
  execution 1 x n /\ log (x n) = [Invoked k 5 1 22; Registered k (Some 2) 22; Registered k (Some 1) 11].
Proof.
  intros k NK. destruct k; try congruence;
    (match goal with |- context [Invoked ?k _ _ _] => destruct (run (mix k) (init 1)) as [s|] eqn:E; [|vm_compute in E; discriminate] end;
     destruct (run_execution _ _ _ E) as (x & HE & HX); exists x; eexists; split; [exact HE|rewrite HX; vm_compute in E; injection E as <-; reflexivity]).
Qed.
Print Assumptions c74_mismatched_context_refuted.

(** Refuted: a callback unregistered between the NULL check and the call is called through NULL.  Every kind, the input buffer
    callback included (its NULL check precedes the lock). *)
Definition unhook (k : kind) : list label :=
  [LCall 0 k (Some 1) 11; LThread 0; LThread 0; LThread 0; LThread 0; LEvent k 5; LReader true] ++
  match k with EvNetwork => [LReader true] | _ => [] end ++
  [LCall 0 k None 0; LThread 0; LThread 0; LThread 0; LThread 0] ++
  match k with EvInput => [LReader true] | _ => [] end ++ [LReader true; LReader true; LReader true].
Theorem c74_null_call_refuted : forall k, exists x n s, execution 1 x n /\ x n = s /\ rd s = RCrash /\
  log s = [Registered k None 0; Registered k (Some 1) 11].
Proof.
  intros k. destruct k;
    (match goal with |- context [Registered ?k _ _] => destruct (run (unhook k) (init 1)) as [s|] eqn:E; [|vm_compute in E; discriminate] end;
     destruct (run_execution _ _ _ E) as (x & HE & HX); exists x; eexists; exists s; split; [exact HE|split; [exact HX|]]; vm_compute in E; injection E as <-; split; reflexivity).
Qed.
Print Assumptions c74_null_call_refuted.

(** The hypotheses are met: an event after a registration is handled in a quiet window and calls the callback once; the same with
    two threads registering different kinds meanwhile. *)
Definition plain : list label :=
  [LCall 0 EvPdn (Some 1) 11; LThread 0; LThread 0; LThread 0; LThread 0; LEvent EvPdn 5; LReader true;
   LCall 1 EvSignal (Some 3) 33; LThread 1; LThread 1; LReader false; LThread 1; LReader false].
Definition half_b (k : kind) (s : state) : bool :=
  existsb (fun p => match p with ACtx k' _ _ => kind_eqb k' k | AUnlock k' _ _ => kind_eqb k' k | _ => false end) (ths s).
Lemma half_b_spec k s : half_b k s = false -> ~ half_registered s k.
Proof.
  intros H (t & f & c & E). unfold half_b in H. rewrite <- not_true_iff_false, existsb_exists in H. apply H.
  destruct E as [E|E]; eexists; (split; [exact (nth_error_In _ _ E)|]; cbn; apply kind_eqb_refl).
Qed.
Definition handling_b (r : rpc) : bool :=
  match r with RFirst EvPdn 5 | RCheck EvPdn 5 | RLock EvPdn 5 | RGet EvPdn 5 _ _ | RCall EvPdn 5 _ _ => true | _ => false end.
Lemma handling_b_spec s : handling_b (rd s) = true <-> handling s EvPdn 5.
Proof.
  unfold handling. split.
  - destruct (rd s) as [|[] e|[] e|[] e|[] e f c|[] e f c|]; cbn; intro H; try discriminate; do 6 (destruct e as [|e]; try discriminate); eauto 12.
  - intros [->|[->|[->|[(f & c & ->)|(f & c & ->)]]]]; reflexivity.
Qed.
Example c74_ex : exists x, execution 2 x 14 /\ window x 5 13 EvPdn 5 /\ (forall m, 5 <= m <= 13 -> ~ half_registered (x m) EvPdn) /\
  ~ handling (x 14) EvPdn 5 /\ log (x 14) = Invoked EvPdn 5 1 11 :: log (x 13).
Proof.
  assert (E : exists s, run (plain ++ [LReader true]) (init 2) = Some s) by (eexists; vm_compute; reflexivity).
  destruct E as [s E]. destruct (path_run _ _ _ E) as [_ P]. set (x := path (plain ++ [LReader true]) (init 2)) in *.
  assert (Q : forallb (fun m => handling_b (rd (x m))) (seq 6 8) = true) by (vm_compute; reflexivity).
  assert (H : forallb (fun m => negb (half_b EvPdn (x m))) (seq 5 9) = true) by (vm_compute; reflexivity).
  rewrite forallb_forall in Q, H. exists x. split; [|split; [|split; [|split]]].
  - split; [reflexivity|exact P].
  - split; [lia|]. split; [vm_compute; reflexivity|]. intros m L. apply handling_b_spec, Q, in_seq. lia.
  - intros m L. apply half_b_spec. apply negb_true_iff, H, in_seq. lia.
  - intro A. apply handling_b_spec in A. vm_compute in A. discriminate.
  - vm_compute. reflexivity.
Qed.

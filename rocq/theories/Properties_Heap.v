(** Properties C89-C91: the memory of the receive path (model: Heap.v). *)
From Coq Require Import String List NArith ZArith Bool Arith Lia.
From Verif Require Import Bytes AtCore SpecAt Status Pktio SpecPktio SpecStream PktioSafe Heap SpecHeap HeapProofs Properties_Pktio.
Import ListNotations.
Local Open Scope string_scope.
Local Open Scope list_scope.

(** ** C89 *)
(** Whatever the modem sends in whatever chunks, whatever the callbacks (within their contracts) and other threads do, as long as
    memory does not run out: no block is accessed or freed that is not in use (the outcome is [HOk]), lines and responses are
    dispatched as with lists that cost nothing (Pktio.v: same history), the receive path holds exactly the blocks of the response in
    progress, and none once it has stopped. *)
Theorem c89_receive_memory : forall cap asserts alloc others, malloc_contract alloc -> others_contract others -> never_fails alloc ->
  forall fuel env inp, (cap < fuel)%nat -> (forall t h, view_contract (env t h) /\ announcements_expected (env t h)) -> Forall recv_contract inp ->
  forall h0 : heap, h0 0%nat = None -> finite h0 -> holds h0 0 ->
  exists t' h' s' hs hs2, reader cap fuel env 0 [] (rx0 cap) inp = Ok (t', h', s') /\
    eventually (fun k => h_reader cap asserts alloc others k fuel env 0 [] {| hs_rx := rx0 cap; hs_heap := h0; hs_resp := 0%nat |} inp = HOk (t', h', hs)) /\
    holds (hs_heap hs) (blocks_of (rx_resp s')) /\
    eventually (fun k => h_stop k hs = HOk hs2) /\ holds (hs_heap hs2) 0.
Proof.
  intros cap asserts alloc others AO OO NF fuel env inp F HE HI h0 Z0 F0 H0.
  destruct (reader_safe cap env fuel HE F inp 0%nat [] (rx0 cap) (wf_rx0 cap) HI) as (t' & h' & s' & E & _).
  assert (RL : related (rx0 cap) {| hs_rx := rx0 cap; hs_heap := h0; hs_resp := 0%nat |}).
  { split; [reflexivity|]. split; [split; [exact Z0|exact F0]|]. split; [reflexivity|]. intros q R. destruct H0 as (l & _ & L & OW). destruct l; [|discriminate]. apply OW in R. exact R. }
  destruct (reader_ok cap asserts alloc others AO OO fuel env inp _ _ _ _ _ _ _ RL E) as (r & EV & [[_ (t & h & FH & X)]|(a & -> & hs & -> & RL2)]); [destruct (NF t h FH X)|].
  destruct (stop_ok asserts alloc _ _ RL2) as (r2 & EV2 & [[_ (t & h & FH & X)]|(hs2 & -> & P0 & HH)]); [destruct (NF t h FH X)|].
  exists t', h', s', hs, hs2. split; [exact E|]. split; [exact EV|]. split; [exact (holds_hinv _ _ _ (proj2 RL2))|]. split; [exact EV2|exact HH].
Qed.
Print Assumptions c89_receive_memory.


(** An allocator that takes the first free address, a program around the receive path that keeps blocks of its own at changing places,
    and a session: a URC, then two lines of an answer. *)
Fixpoint first_free (h : heap) (n p : nat) : option address :=
  match n with O => None | S n' => match h p with None => Some p | Some _ => first_free h n' (S p) end end.
Definition first_fit (t : nat) (h : heap) : option address := first_free h (S (top h)) 1.
Definition busy_others (t : nat) (h : heap) : heap :=
  {| cell_at := fun p =>
       match h p with
       | None => if (0 <? p)%nat && (p <? 4)%nat && Nat.even (p + t) then Some COther else None
       | Some COther => if (p =? 0)%nat || Nat.even (p + t) then Some COther else None
       | c => c
       end;
     top := Nat.max (top h) 4 |}.
Definition heap_chunks : list (nat -> str) := [chunk (s2b "+CREG: 1" ++ crlf ++ s2b "+A: 1" ++ crlf); chunk (s2b "+A: 2" ++ crlf)].
Definition heap_view : view := sample_view T_MULTI_WITH_PREFIX (Some (s2b "+A")) None.
Definition heap0 : heap := {| cell_at := fun _ => None; top := 0 |}.

Lemma first_fit_contract : malloc_contract first_fit.
Proof.
  intros t h p. unfold first_fit. generalize (S (top h)) as n. intro n. assert (G : forall n q, first_free h n q = Some p -> (q <= p)%nat /\ h p = None).
  { clear n. induction n as [|n IH]; intros q E; cbn in E; [discriminate|]. destruct (h q) eqn:Q; [destruct (IH _ E); split; [lia|assumption]|]. injection E as <-. auto. }
  intro E. destruct (G _ _ E). split; [lia|assumption].
Qed.
Lemma first_fit_finds : never_fails first_fit.
Proof.
  intros t h F. unfold first_fit. assert (G : forall n q, (top h < q + n)%nat -> (0 < n)%nat -> first_free h n q <> None).
  { induction n as [|n IH]; intros q L P; [lia|]. cbn. destruct (h q) eqn:Q; [|discriminate]. destruct (Nat.le_gt_cases (top h) q) as [K|K]; [rewrite (F q K) in Q; discriminate|]. apply IH; lia. }
  apply G; lia.
Qed.
Lemma busy_contract : others_contract busy_others.
Proof.
  intros t h. split; [|split].
  - unfold busy_others. cbn. destruct (h 0%nat) as [[]|]; reflexivity.
  - intros F p L. unfold busy_others in *. cbn [cell_at top] in *. rewrite F by lia. destruct (Nat.ltb_spec p 4) as [K|K]; [lia|]. rewrite andb_false_r. reflexivity.
  - intros p R. unfold busy_others in *. cbn [cell_at] in *. destruct (h p) as [[]|] eqn:E; try reflexivity.
    + destruct R as [(x & Q & D)|(x & Q & D)]; [congruence|]. destruct ((p =? 0)%nat || _); congruence.
    + destruct R as [(x & Q & D)|(x & Q & D)]; [congruence|]. destruct (_ && _); congruence.
Qed.
Example c89_ex : malloc_contract first_fit /\ never_fails first_fit /\ others_contract busy_others /\ heap0 0%nat = None /\ finite heap0 /\ holds heap0 0 /\
  view_contract heap_view /\ announcements_expected heap_view /\ Forall recv_contract heap_chunks /\
  exists t' h' s' hs, reader code_cap 2000 (always heap_view) 0 [] (rx0 code_cap) heap_chunks = Ok (t', h', s') /\ blocks_of (rx_resp s') = 3%nat /\
    h_reader code_cap true first_fit busy_others 10 2000 (always heap_view) 0 [] {| hs_rx := rx0 code_cap; hs_heap := heap0; hs_resp := 0%nat |} heap_chunks = HOk (t', h', hs) /\
    h' = [EvUrc (s2b "+CREG: 1")] /\ map (fun p => match hs_heap hs p with Some COther => 1 | Some (CResp _ _) => 2 | Some (CLine _ _) => 3 | Some _ => 4 | None => 0 end)%nat (seq 0 7) = [0; 1; 2; 1; 3; 3; 0]%nat.
Proof.
  split; [exact first_fit_contract|]. split; [exact first_fit_finds|]. split; [exact busy_contract|]. split; [reflexivity|]. split; [intros p _; reflexivity|].
  split; [exists []; split; [constructor|]; split; [reflexivity|]; intro p; split; [intros (x & Q & _); discriminate|intros []]|].
  split; [split; [discriminate|]; split; [discriminate|]; split; [discriminate|exact sample_tables]|]. split; [intros f bs st start d bs' _ Q; discriminate|].
  split; [repeat constructor; apply chunk_contract|]. eexists _, _, _, _. split; [vm_compute; reflexivity|]. split; [reflexivity|]. split; [vm_compute; reflexivity|]. split; vm_compute; reflexivity.
Qed.

(** ** C90: memory runs out *)
(** With CELLULAR_CONFIG_ASSERT active: the allocation may fail at any moment; then the program either stops at the assertion or has
    gone on as if it had succeeded (a failed copy of a URC text loses that URC, C35); it never accesses or frees a block not in use. *)
Theorem c90_out_of_memory_partial : forall cap alloc others, malloc_contract alloc -> others_contract others ->
  forall fuel env inp, (cap < fuel)%nat -> (forall t h, view_contract (env t h) /\ announcements_expected (env t h)) -> Forall recv_contract inp ->
  forall h0 : heap, h0 0%nat = None -> finite h0 -> holds h0 0 ->
  exists r t' h' s', eventually (fun k => h_reader cap true alloc others k fuel env 0 [] {| hs_rx := rx0 cap; hs_heap := h0; hs_resp := 0%nat |} inp = r) /\
    reader cap fuel env 0 [] (rx0 cap) inp = Ok (t', h', s') /\
    (r = HHalt \/ exists hs, r = HOk (t', h', hs) /\ holds (hs_heap hs) (blocks_of (rx_resp s'))).
Proof.
  intros cap alloc others AO OO fuel env inp F HE HI h0 Z0 F0 H0.
  destruct (reader_safe cap env fuel HE F inp 0%nat [] (rx0 cap) (wf_rx0 cap) HI) as (t' & h' & s' & E & _).
  assert (RL : related (rx0 cap) {| hs_rx := rx0 cap; hs_heap := h0; hs_resp := 0%nat |}).
  { split; [reflexivity|]. split; [split; [exact Z0|exact F0]|]. split; [reflexivity|]. intros q R. destruct H0 as (l & _ & L & OW). destruct l; [|discriminate]. apply OW in R. exact R. }
  destruct (reader_ok cap true alloc others AO OO fuel env inp _ _ _ _ _ _ _ RL E) as (r & EV & R). exists r, t', h', s'. split; [exact EV|]. split; [exact E|].
  destruct R as [[-> _]|(a & -> & hs & -> & RL2)]; [left; reflexivity|right]. exists hs. split; [reflexivity|exact (holds_hinv _ _ _ (proj2 RL2))].
Qed.
Print Assumptions c90_out_of_memory_partial.
(** Memory for two blocks only: the third line of this answer does not fit. *)
Definition two_blocks (t : nat) (h : heap) : option address :=
  match h 1%nat, h 2%nat with None, _ => Some 1%nat | _, None => Some 2%nat | _, _ => None end.
Example c90_ex : malloc_contract two_blocks /\
  h_reader code_cap true two_blocks (fun _ h => h) 10 2000 (always heap_view) 0 [] {| hs_rx := rx0 code_cap; hs_heap := heap0; hs_resp := 0%nat |} heap_chunks = HHalt.
Proof.
  split; [|vm_compute; reflexivity]. intros t h p E. unfold two_blocks in E. destruct (h 1%nat) eqn:A; [destruct (h 2%nat) eqn:B; [discriminate|]|]; injection E as <-; auto.
Qed.
(** With assertions compiled out (configASSERT left empty) the same input makes the reader write through NULL. *)
Theorem c90_no_assertions_refuted : exists alloc env inp, malloc_contract alloc /\ (forall t h, view_contract (env t h) /\ announcements_expected (env t h)) /\ Forall recv_contract inp /\
  forall k, (2 <= k)%nat -> h_reader code_cap false alloc (fun _ h => h) k 2000 env 0 [] {| hs_rx := rx0 code_cap; hs_heap := heap0; hs_resp := 0%nat |} inp = HUB.
Proof.
  exists two_blocks, (always heap_view), heap_chunks. split; [exact (proj1 c90_ex)|].
  split; [intros t h; split; [split; [discriminate|]; split; [discriminate|]; split; [discriminate|exact sample_tables]|intros f bs st start d bs' _ Q; discriminate]|].
  split; [repeat constructor; apply chunk_contract|]. intros k L. destruct k as [|[|k]]; [lia|lia|]. vm_compute. reflexivity.
Qed.
Print Assumptions c90_no_assertions_refuted.

(** ** C91: memory taken by one command *)
(** Eight lines of 199 characters fill the read buffer exactly. *)
Definition endless_lines : str := concat (repeat (repeat 97%N 199 ++ [10%N]) 8).
Definition endless_view : view := sample_view T_MULTI_WO_PREFIX None None.
Definition endless_buf : list N := concat (repeat (repeat 97%N 199 ++ [0%N]) 8) ++ [0%N].
Definition endless_state (r : response) : rx := {| rx_buf := endless_buf; rx_ptr := None; rx_partial := 0; rx_dlen := 0; rx_resp := Some r |}.
Definition eight_more (r : response) : response := fold_left saveATData (map (fun i => i * 200) (seq 0 8))%nat r.
Fixpoint times {A} (n : nat) (l : list A) : list A := match n with O => [] | S n' => l ++ times n' l end.
Definition endless_input : list (nat -> str) := [chunk endless_lines; chunk []].
Lemma endless_cycle t r : reader code_cap 2000 (always endless_view) t [] (endless_state r) endless_input = Ok (9 + t, [], endless_state (eight_more r))%nat.
Proof. vm_compute. reflexivity. Qed.
Lemma endless_first : reader code_cap 2000 (always endless_view) 0 [] (rx0 code_cap) endless_input = Ok (9, [], endless_state (eight_more AtResponseNew))%nat.
Proof. vm_compute. reflexivity. Qed.
Lemma reader_app cap fuel env : forall inp1 inp2 t ev s t1 e1 s1, reader cap fuel env t ev s inp1 = Ok (t1, e1, s1) ->
  reader cap fuel env t ev s (inp1 ++ inp2) = reader cap fuel env t1 e1 s1 inp2.
Proof.
  induction inp1 as [|r inp1 IH]; intros inp2 t ev s t1 e1 s1 E; [injection E as <- <- <-; reflexivity|]. cbn [app reader] in *.
  destruct (handleRxDataEvent _ _ _ _ _ _ _) as [[[[b t2] e2] s2]| |]; cbn [bind] in *; try discriminate. apply IH. exact E.
Qed.
Lemma endless_times : forall n t r, exists t' r', length (r_items r') = (length (r_items r) + 8 * n)%nat /\
  reader code_cap 2000 (always endless_view) t [] (endless_state r) (times n endless_input) = Ok (t', [], endless_state r').
Proof.
  induction n as [|n IH]; intros t r; [exists t, r; split; [lia|reflexivity]|]. destruct (IH (9 + t)%nat (eight_more r)) as (t' & r' & L & E). exists t', r'. split.
  - rewrite L. replace (length (r_items (eight_more r))) with (length (r_items r) + 8)%nat; [lia|]. unfold eight_more. cbn [map seq fold_left saveATData saveData r_items]. rewrite !app_length. cbn. lia.
  - cbn [times]. refine (eq_trans _ E). exact (reader_app _ _ _ _ _ _ _ _ _ _ _ (endless_cycle t r)).
Qed.
Lemma endless_more n : exists t r, (8 * n < length (r_items r))%nat /\
  reader code_cap 2000 (always endless_view) 0 [] (rx0 code_cap) (endless_input ++ times n endless_input) = Ok (t, [], endless_state r).
Proof.
  destruct (endless_times n 9%nat (eight_more AtResponseNew)) as (t' & r' & L & E). exists t', r'. split; [rewrite L; cbn; lia|].
  exact (eq_trans (reader_app _ _ _ _ _ _ _ _ _ _ _ endless_first) E).
Qed.

(** The claim "the answer to one command takes a bounded amount of memory" is false: as long as a command that takes several lines is
    in flight, a modem that goes on sending lines makes the receive path hold more than [n] blocks, for every [n] (the read buffer,
    when full, is simply filled from the start again). *)
Theorem c91_unbounded_refuted : forall n, exists inp, Forall recv_contract inp /\
  forall asserts alloc others, malloc_contract alloc -> never_fails alloc -> others_contract others ->
  exists t hs m, eventually (fun k => h_reader code_cap asserts alloc others k 2000 (always endless_view) 0 [] {| hs_rx := rx0 code_cap; hs_heap := heap0; hs_resp := 0%nat |} inp = HOk (t, [], hs)) /\
    (n < m)%nat /\ holds (hs_heap hs) m.
Proof.
  intro n. exists (endless_input ++ times n endless_input). split.
  - apply Forall_app. split; [repeat constructor; apply chunk_contract|]. induction n as [|n IH]; [constructor|]. cbn [times]. apply Forall_app. split; [repeat constructor; apply chunk_contract|exact IH].
  - intros asserts alloc others AO NF OO. destruct (endless_more n) as (t & r & L & E).
    assert (RL : related (rx0 code_cap) {| hs_rx := rx0 code_cap; hs_heap := heap0; hs_resp := 0%nat |}).
    { split; [reflexivity|]. split; [split; [reflexivity|intros p _; reflexivity]|]. split; [reflexivity|]. intros q (x & Q & _). discriminate. }
    destruct (reader_ok code_cap asserts alloc others AO OO 2000 _ _ _ _ _ _ _ _ _ RL E) as (r2 & EV & [[_ (t1 & h1 & FH & X)]|(a & -> & hs & -> & RL2)]); [destruct (NF t1 h1 FH X)|].
    exists t, hs, (S (length (r_items r))). split; [exact EV|]. split; [lia|exact (holds_hinv _ _ _ (proj2 RL2))].
Qed.
Print Assumptions c91_unbounded_refuted.
(** What holds: while only commands with at most one line of answer are used (and no data callback), it is never more than two blocks. *)
Theorem c91_single_line_partial : forall cap asserts alloc others, malloc_contract alloc -> others_contract others ->
  forall fuel env inp, (cap < fuel)%nat -> (forall t h, view_contract (env t h) /\ v_data (env t h) = None /\ ~ multi_line_type (v_cmd2 (env t h))) -> Forall recv_contract inp ->
  forall h0 : heap, h0 0%nat = None -> finite h0 -> holds h0 0 ->
  exists r, eventually (fun k => h_reader cap asserts alloc others k fuel env 0 [] {| hs_rx := rx0 cap; hs_heap := h0; hs_resp := 0%nat |} inp = r) /\
    forall t' h' hs, r = HOk (t', h', hs) -> exists m, (m <= 2)%nat /\ holds (hs_heap hs) m.
Proof.
  intros cap asserts alloc others AO OO fuel env inp F HE HI h0 Z0 F0 H0.
  assert (HE' : forall t h, view_contract (env t h) /\ announcements_expected (env t h)).
  { intros t h. destruct (HE t h) as (A & B & _). split; [exact A|]. intros f bs st start d bs' _ Q. congruence. }
  destruct (reader_safe cap env fuel HE' F inp 0%nat [] (rx0 cap) (wf_rx0 cap) HI) as (t' & h' & s' & E & _).
  assert (RL : related (rx0 cap) {| hs_rx := rx0 cap; hs_heap := h0; hs_resp := 0%nat |}).
  { split; [reflexivity|]. split; [split; [exact Z0|exact F0]|]. split; [reflexivity|]. intros q R. destruct H0 as (l & _ & L & OW). destruct l; [|discriminate]. apply OW in R. exact R. }
  destruct (reader_ok cap asserts alloc others AO OO fuel env inp _ _ _ _ _ _ _ RL E) as (r & EV & R). exists r. split; [exact EV|]. intros t1 h1 hs Q.
  destruct R as [[X _]|(a & X & hs' & Y & RL2)]; [rewrite Q in X; unfold out_of_memory in X; destruct asserts; discriminate|].
  assert (HS : hs' = hs) by congruence. subst hs'. exists (blocks_of (rx_resp s')). split; [|exact (holds_hinv _ _ _ (proj2 RL2))].
  assert (FW : few s'). { refine (few_reader cap env fuel _ inp 0%nat [] (rx0 cap) t' h' s' _ E); [|split; [reflexivity|discriminate]]. intros t h. destruct (HE t h) as (_ & A & B). split; assumption. }
  destruct FW as [_ FW]. destruct (rx_resp s') as [r0|]; [|cbn; lia]. specialize (FW r0 eq_refl). cbn. lia.
Qed.
Print Assumptions c91_single_line_partial.
Example c91_ex : (view_contract (sample_view T_WITH_PREFIX (Some (s2b "+A")) None) /\ ~ multi_line_type T_WITH_PREFIX) /\
  exists t hs, h_reader code_cap true first_fit busy_others 10 2000 (always (sample_view T_WITH_PREFIX (Some (s2b "+A")) None)) 0 [] {| hs_rx := rx0 code_cap; hs_heap := heap0; hs_resp := 0%nat |}
    [chunk (s2b "+A: 1" ++ crlf)] = HOk (t, [], hs) /\ receiver_block (hs_heap hs (hs_resp hs)).
Proof.
  split; [split; [split; [discriminate|]; split; [discriminate|]; split; [discriminate|exact sample_tables]|intros [Q|[Q|Q]]; discriminate]|].
  eexists _, _. split; [vm_compute; reflexivity|]. eexists. split; [vm_compute; reflexivity|discriminate].
Qed.

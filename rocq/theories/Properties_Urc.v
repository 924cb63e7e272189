(** Property theorems: the URC table and URC dispatch (C33-C35). *)
From Coq Require Import String List NArith ZArith Bool Arith Lia.
From Verif Require Import Bytes AtCore AtMem SpecAt AtProofs Status Pktio PktHandler SpecUrc UrcProofs.
Import ListNotations.
Local Open Scope string_scope.
Local Open Scope list_scope.

(** A table such as ports provide. *)
Definition sample_urcs : list urc_entry := [(s2b "CEREG", Some 0%nat); (s2b "CGREG", Some 1%nat); (s2b "CREG", Some 2%nat); (s2b "QIURC", None); (s2b "RDY", Some 3%nat)].
Lemma sample_urcs_sorted : increasing (map fst sample_urcs).
Proof.
  apply adjacent_increasing. cbn [map fst sample_urcs adjacent].
  repeat split; try exact I; apply cmp_neg; reflexivity.
Qed.

(** ** C33 (the part about library initialisation is in Properties_Lifecycle.v) *)
Theorem c33_table_check_exact : forall tbl,
  AtParseInit tbl = PKT_OK <-> exists t, tbl = Some t /\ t <> [] /\ increasing (map fst t).
Proof. exact init_exact. Qed.
Print Assumptions c33_table_check_exact.
Example c33_ex : AtParseInit (Some sample_urcs) = PKT_OK /\ AtParseInit (Some (rev sample_urcs)) = PKT_BAD_PARAM /\
  AtParseInit (Some [(s2b "A", None); (s2b "A", None)]) = PKT_BAD_PARAM /\ AtParseInit (Some []) = PKT_INVALID_HANDLE.
Proof. repeat split; vm_compute; reflexivity. Qed.

(** ** C34 *)
(** For every increasing table the search ends, finds the entry with exactly the name looked for or reports that there is none,
    and makes at most floor(log2 n) + 1 comparisons. *)
Theorem c34_lookup_exact : forall (tbl : list urc_entry) key, increasing (map fst tbl) ->
  exists r n, bsearch key tbl = Ok (r, n) /\ (n <= Nat.log2 (length tbl) + 1)%nat /\
    (forall i, r = Some i -> exists h, nth_error tbl i = Some (key, h)) /\
    (r = None -> forall h, ~ In (key, h) tbl).
Proof.
  intros tbl key SO. destruct (bsearch_spec key tbl SO) as (r & n & R & B & X). exists r, n. split; [exact R|]. split.
  - unfold cmp_bound in B. destruct (length tbl); lia.
  - split; [intros i ->; exact X|]. intros -> h I. apply In_nth_error in I. destruct I as (i & E). exact (X i h E).
Qed.
Print Assumptions c34_lookup_exact.
Example c34_ex : bsearch (s2b "CREG") sample_urcs = Ok (Some 2%nat, 1%nat) /\ bsearch (s2b "CRE") sample_urcs = Ok (None, 2%nat) /\
  increasing (map fst sample_urcs).
Proof. split; [vm_compute; reflexivity|]. split; [vm_compute; reflexivity|exact sample_urcs_sorted]. Qed.

(** ** C35 *)
(** '+NAME:payload' with a non-empty name: the handler registered for NAME is called once with the payload and nothing else
    happens; if none is registered the generic callback gets the line unmodified, once.  The line may lie anywhere in memory. *)
Theorem c35_urc_dispatch_partial : forall alloc (tbl : list urc_entry) pre post name payload d,
  increasing (map fst tbl) -> alloc_ok alloc ->
  let line := 43%N :: name ++ 58%N :: payload in
  no_nul line -> at_len_ok line -> name <> [] -> Forall prefix_char name -> alloc (length line + 1)%nat = Some d ->
  (forall h, In (name, Some h) tbl -> processUrcPacket alloc tbl (obj pre line post) (length pre) = Ok (PKT_OK, [CallHandler h payload])) /\
  (In (name, None) tbl -> processUrcPacket alloc tbl (obj pre line post) (length pre) = Ok (PKT_FAILURE, [])) /\
  ((forall h, ~ In (name, h) tbl) -> processUrcPacket alloc tbl (obj pre line post) (length pre) = Ok (PKT_OK, [CallGeneric line])).
Proof. exact urc_dispatch. Qed.
Print Assumptions c35_urc_dispatch_partial.
(** A URC without prefix: looked up and handed over as a whole. *)
Theorem c35_urc_without_prefix_dispatch : forall alloc (tbl : list urc_entry) pre post line d,
  increasing (map fst tbl) -> alloc_ok alloc -> no_nul line -> at_len_ok line -> ~ prefix_form line -> alloc (length line + 1)%nat = Some d ->
  (forall h, In (line, Some h) tbl -> processUrcPacket alloc tbl (obj pre line post) (length pre) = Ok (PKT_OK, [CallHandler h line])) /\
  (In (line, None) tbl -> processUrcPacket alloc tbl (obj pre line post) (length pre) = Ok (PKT_FAILURE, [])) /\
  ((forall h, ~ In (line, h) tbl) -> processUrcPacket alloc tbl (obj pre line post) (length pre) = Ok (PKT_OK, [CallGeneric line])).
Proof. exact urc_no_prefix. Qed.
Print Assumptions c35_urc_without_prefix_dispatch.
(** Missing: with an empty name the generic callback gets another text, or none of the callbacks is called; and a line that is too
    long to copy, or for which there is no memory, is dropped. *)
Theorem c35_urc_dispatch_refuted :
  processUrcPacket (fun n => Some (repeat 0%N n)) sample_urcs (obj [] (s2b "+:abc") []) 0 = Ok (PKT_OK, [CallGeneric (s2b "+:ab:")]) /\
  processUrcPacket (fun n => Some (repeat 0%N n)) sample_urcs (obj [] (s2b "+:CREG") []) 0 = Ok (PKT_OK, [CallHandler 2 []]) /\
  processUrcPacket (fun n => Some (repeat 0%N n)) sample_urcs (obj [] (s2b "+:") []) 0 = Ok (PKT_BAD_REQUEST, []).
Proof. repeat split; vm_compute; reflexivity. Qed.
Print Assumptions c35_urc_dispatch_refuted.
Theorem c35_urc_dropped : forall alloc tbl pre post line, alloc_ok alloc -> no_nul line ->
  ~ at_len_ok line \/ alloc (length line + 1)%nat = None ->
  processUrcPacket alloc tbl (obj pre line post) (length pre) = Ok (PKT_FAILURE, []).
Proof. exact urc_dropped. Qed.
Print Assumptions c35_urc_dropped.
Example c35_ex :
  processUrcPacket (fun n => Some (repeat 0%N n)) sample_urcs (obj [1;2]%N (s2b "+CREG: 1,2") [7]%N) 2 = Ok (PKT_OK, [CallHandler 2 (s2b " 1,2")]) /\
  processUrcPacket (fun n => Some (repeat 0%N n)) sample_urcs (obj [] (s2b "+CMTI: x:y") []) 0 = Ok (PKT_OK, [CallGeneric (s2b "+CMTI: x:y")]) /\
  processUrcPacket (fun n => Some (repeat 0%N n)) sample_urcs (obj [] (s2b "RDY") []) 0 = Ok (PKT_OK, [CallHandler 3 (s2b "RDY")]) /\
  Forall prefix_char (s2b "CREG") /\ no_nul (s2b "+CREG: 1,2") /\ at_len_ok (s2b "+CREG: 1,2") /\ ~ prefix_form (s2b "RDY").
Proof.
  repeat split; try (vm_compute; reflexivity).
  - repeat constructor; unfold prefix_char; cbn; lia.
  - intro I. cbn in I. repeat destruct I as [I|I]; try discriminate; exact I.
  - discriminate.
  - vm_compute. discriminate.
  - intros (w & r & E & _). discriminate.
Qed.

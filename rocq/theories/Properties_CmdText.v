(** C95: the text of a command is only read while its call is in progress. *)
From Coq Require Import List Arith Bool.
From Verif Require Import CmdText CmdTextProofs.
Import ListNotations.

(** The diagnostic about an error answer (cellular_pktio.c:403-411), for any number of threads and any schedule: it never prints
    through NULL and never a text whose call has returned. *)
Theorem c95_error_diagnostic_reads_live_text : forall n s p, reach n s -> In p (prints s) -> pr_locked p = true ->
  pr_ptr p <> None /\ pr_alive p = true.
Proof. intros n s p R. exact (i_log s (text_inv_reach n s R) p). Qed.
Print Assumptions c95_error_diagnostic_reads_live_text.

(** The diagnostic about an undefined response (792-796) too, if no request starts or ends while it is made. *)
Theorem c95_undisturbed_diagnostic_reads_live_text_partial : forall n s b ls s', reach n s -> rdr s = Away ->
  Forall (fun l => forall i, l <> LApp i) ls -> run (LDiag b :: ls) s = Some s' ->
  exists new, prints s' = new ++ prints s /\ Forall (fun p => pr_ptr p <> None /\ pr_alive p = true) new.
Proof.
  intros n s b ls s' R D F E. apply (quiet_diagnostic n s b ls s' R D); [|exact E].
  revert F. apply Forall_impl. intros [i|i|x|] H; cbn; auto. exact (H i eq_refl).
Qed.
Print Assumptions c95_undisturbed_diagnostic_reads_live_text_partial.

Definition one_request : list label := [LCall 0; LApp 0; LApp 0].
Definition end_request : list label := [LApp 0; LApp 0].
(** Otherwise it does not: the request times out between the two loads of the pointer (NULL is printed), or between the second load
    and the printing (the text of a call that has returned is read). *)
Theorem c95_undefined_response_diagnostic_refuted :
  (exists s p, run (one_request ++ [LDiag false; LReader] ++ end_request ++ [LReader; LReader]) (init 1) = Some s /\
     In p (prints s) /\ pr_ptr p = None) /\
  (exists s p, run (one_request ++ [LDiag false; LReader; LReader] ++ end_request ++ [LReader]) (init 1) = Some s /\
     In p (prints s) /\ pr_ptr p = Some 0 /\ pr_alive p = false).
Proof.
  split; eexists; eexists; (split; [reflexivity|]); cbn; auto.
Qed.
Print Assumptions c95_undefined_response_diagnostic_refuted.

(** The hypotheses are met: both diagnostics print the text of a call in progress; a second caller waits meanwhile. *)
Example c95_ex : exists s, run ([LCall 1; LApp 1; LApp 1; LDiag true; LReader; LCall 0; LReader; LReader; LReader] ++
                                [LDiag false; LReader; LReader; LReader]) (init 2) = Some s /\
  prints s = [{| pr_locked := false; pr_ptr := Some 0; pr_alive := true |}; {| pr_locked := true; pr_ptr := Some 0; pr_alive := true |}].
Proof.
  match goal with |- exists s, run ?l ?i = Some s /\ _ =>
    let r := eval vm_compute in (run l i) in match r with Some ?x => exists x; split; [vm_compute; reflexivity|reflexivity] end end.
Qed.
(** And the clearing of the pointer waits for the error diagnostic. *)
Example c95_ex_wait : run (one_request ++ [LDiag true; LReader; LApp 0]) (init 1) = None.
Proof. vm_compute. reflexivity. Qed.

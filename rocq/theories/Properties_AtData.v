(** Property theorems: what applications see of the registration data is of one moment (C98). *)
From Coq Require Import String List NArith ZArith Bool Arith Lia.
From Verif Require Import Bytes Status RegStatus AtData SpecAtData AtDataProofs.
Import ListNotations.
Local Open Scope string_scope.
Local Open Scope list_scope.

(** ** C98 *)
(** The single stores that the reader makes for a message (AtData.v) add up to what RegStatus.v says about the message as a whole. *)
Theorem c98_stores_add_up : forall bits m d, puts (msg_stores bits m d) d = records bits m d.
Proof. exact msg_stores_agree. Qed.
Print Assumptions c98_stores_add_up.

(** For any number of threads, any messages and any interleaving of single loads and stores: every service status, every RAT
    returned and everything the registration callback is told shows the data as it was after a whole number of messages, never a
    mixture of two moments; a call returns the data of a moment within the call, the callback that of the message it reports. *)
Theorem c98_one_moment : forall bits n s, reach bits n s -> Forall (shows_one_moment bits (recorded s)) (obs s).
Proof. intros bits n s H. apply (inv_reach bits n s H). Qed.
Print Assumptions c98_one_moment.

(** ... and time never runs backwards: no observation (of whatever thread) shows an older moment than one made before it. *)
Theorem c98_never_older : forall bits n s, reach bits n s -> never_older (obs s).
Proof. intros bits n s H. apply (inv_reach bits n s H). Qed.
Print Assumptions c98_never_older.

(** A thread calls for the service status while the reader has stored half of a report: it has to wait, and sees the whole report; the
    other thread's copy, begun before, is not disturbed by the report that arrives during it. *)
Definition report1 : message := Urc REG_CREG (Some (s2b "1,1A2B,00FF,7")).
Definition report2 : message := AnswerLine REG_CREG (s2b "+CREG: 2,3").
Definition reader_steps (k : nat) : list label := repeat (LReader true) k.
Definition app_steps (i k : nat) : list label := repeat (LApp i) k.
Definition sample_run : list label :=
  [LMsg report1] ++ reader_steps 3 ++ [LCall 0 OpService] ++ reader_steps 5 ++ app_steps 0 3 ++ [LMsg report2; LCall 1 OpRat] ++ app_steps 0 7 ++
  reader_steps 1 ++ reader_steps 8 ++ app_steps 1 4.
Example c98_ex : exists s, run 64 sample_run (init 2) = Some s /\ recorded s = [report1; report2] /\
  obs s = [Called 1 {| ev_kind := EV_CS; ev_rat := 7; ev_cs := 1; ev_ps := 2; ev_csRejCause := 0; ev_csRejType := 0; ev_psRejCause := 0; ev_psRejType := 0 |};
           Got 0 OpService 0 1 [7; 1; 2; 0; 0; 0; 0]%Z;
           Called 2 {| ev_kind := EV_CS; ev_rat := 255; ev_cs := 3; ev_ps := 2; ev_csRejCause := 0; ev_csRejType := 0; ev_psRejCause := 0; ev_psRejType := 0 |};
           Got 1 OpRat 1 2 [255%Z]].
Proof. vm_compute. eexists. split; [reflexivity|]. split; reflexivity. Qed.
(** In the middle of the first report the calling thread cannot go on. *)
Example c98_blocked_ex : run 64 ([LMsg report1] ++ reader_steps 3 ++ [LCall 0 OpService; LApp 0]) (init 2) = None /\
  exists s, run 64 ([LMsg report1] ++ reader_steps 3 ++ [LCall 0 OpService]) (init 2) = Some s /\ data s <> data_after 64 [] /\ data s <> data_after 64 [report1].
Proof. split; [vm_compute; reflexivity|]. eexists. split; [vm_compute; reflexivity|]. split; vm_compute; discriminate. Qed.

(** Proofs about the commands the 3GPP API layer sends. *)
From Coq Require Import String List NArith ZArith Bool Lia Arith ZifyBool ZifyN ZifyNat.
From Verif Require Import Bytes AtCore AtMem SpecAt Status Pktio SendCmd Socket RegStatus SpecReg SpecG3pp G3pp SpecG3ppApi G3ppProofs.
Import ListNotations.
Local Open Scope Z_scope.
Local Arguments Nat.sub : simpl never.

Lemma below (P : N -> bool) (k : nat) : forallb (fun i => P (N.of_nat i)) (seq 0 k) = true -> forall n, (n < N.of_nat k)%N -> P n = true.
Proof.
  intros A n H. rewrite forallb_forall in A. specialize (A (N.to_nat n)). rewrite in_seq in A. rewrite N2Nat.id in A. apply A. lia.
Qed.

(** decidable form of decimal_text for the witness digits *)
Definition dec_ok (n : N) : bool :=
  let ds := map (fun c => (c - 48)%N) (dec n) in
  str_eqb (dec n) (map (fun d => 48 + d)%N ds) && forallb (fun d => d <? 10)%N ds && (numeral_value 10 ds =? Z.of_N n) &&
  match ds with [] => false | [_] => true | d :: _ => negb (d =? 0)%N end && (length (dec n) <=? 3)%nat
  && forallb (fun c => negb (c =? 0)%N) (dec n).
Lemma str_eqb_eq a b : str_eqb a b = true <-> a = b.
Proof.
  revert b. induction a as [|x a IH]; intros [|y b]; cbn [str_eqb]; split; try discriminate; try reflexivity.
  - rewrite andb_true_iff, IH, N.eqb_eq. intros [-> ->]. reflexivity.
  - intro E. injection E as -> ->. rewrite andb_true_iff, IH, N.eqb_eq. auto.
Qed.
Lemma dec_all : forallb (fun i => dec_ok (N.of_nat i)) (seq 0 256) = true.
Proof. vm_compute. reflexivity. Qed.
Lemma dec_spec n : (n < 256)%N -> decimal_text n (dec n) /\ (length (dec n) <= 3)%nat /\ no_nul (dec n).
Proof.
  intro H. pose proof (below dec_ok 256 dec_all n ltac:(lia)) as A. unfold dec_ok in A.
  rewrite !andb_true_iff in A. destruct A as (((((A1 & A2) & A3) & A4) & A5) & A6).
  apply str_eqb_eq in A1. split; [|split; [lia|]].
  - exists (map (fun c => (c - 48)%N) (dec n)). split; [exact A1|]. split; [|split].
    + rewrite forallb_forall in A2. apply Forall_forall. intros d Hd. apply A2 in Hd. lia.
    + lia.
    + destruct (map (fun c => (c - 48)%N) (dec n)) as [|d [|d' ds]]; [discriminate|exact I|lia].
  - intro H0. rewrite forallb_forall in A6. apply A6 in H0. discriminate.
Qed.

Lemma bit_low v k : (k < 8)%N -> N.testbit (v mod 256) k = N.testbit v k.
Proof. intro H. change 256%N with (2 ^ 8)%N. apply N.mod_pow2_bits_low. exact H. Qed.
Lemma bin8_mod v : bin8 (v mod 256) = bin8 v.
Proof.
  unfold bin8, bin4, bit_char. rewrite !N.shiftr_spec by lia. cbn [N.add].
  repeat (rewrite bit_low by lia). reflexivity.
Qed.
Lemma bin4_mod v : bin4 (v mod 16) = bin4 v.
Proof.
  unfold bin4, bit_char. change 16%N with (2 ^ 4)%N. rewrite !N.mod_pow2_bits_low by lia. reflexivity.
Qed.
Definition bin_ok (k : nat) (f : N -> str) (n : N) : bool :=
  let ds := map (fun c => (c - 48)%N) (f n) in
  str_eqb (f n) (map (fun d => 48 + d)%N ds) && (length ds =? k)%nat && forallb (fun d => d <? 2)%N ds && (numeral_value 2 ds =? Z.of_N n).
Lemma bin_ok_spec k f n : bin_ok k f n = true -> binary_text k n (f n).
Proof.
  unfold bin_ok. rewrite !andb_true_iff. intros (((A1 & A2) & A3) & A4). apply str_eqb_eq in A1.
  exists (map (fun c => (c - 48)%N) (f n)). split; [exact A1|]. split; [lia|]. split; [|lia].
  rewrite forallb_forall in A3. apply Forall_forall. intros d Hd. apply A3 in Hd. lia.
Qed.
Lemma bin8_all : forallb (fun i => bin_ok 8 bin8 (N.of_nat i)) (seq 0 256) = true.
Proof. vm_compute. reflexivity. Qed.
Lemma bin4_all : forallb (fun i => bin_ok 4 bin4 (N.of_nat i)) (seq 0 16) = true.
Proof. vm_compute. reflexivity. Qed.
Lemma bin8_spec v : binary_text 8 (v mod 256) (bin8 v).
Proof.
  rewrite <- bin8_mod. apply bin_ok_spec. apply (below _ 256 bin8_all). pose proof (N.mod_lt v 256 ltac:(lia)). lia.
Qed.
Lemma bin4_spec v : binary_text 4 (v mod 16) (bin4 v).
Proof.
  rewrite <- bin4_mod. apply bin_ok_spec. apply (below _ 16 bin4_all). pose proof (N.mod_lt v 16 ltac:(lia)). lia.
Qed.
Lemma bit_nonzero v k : bit_char v k <> 0%N.
Proof. unfold bit_char. destruct (N.testbit v k); discriminate. Qed.
Lemma bin8_nonul v : no_nul (bin8 v).
Proof. unfold no_nul, bin8, bin4. cbn [app In]. pose proof (bit_nonzero v). pose proof (bit_nonzero (N.shiftr v 4)). firstorder. Qed.
Lemma bin4_nonul v : no_nul (bin4 v).
Proof. unfold no_nul, bin4. cbn [app In]. pose proof (bit_nonzero v). firstorder. Qed.

Lemma cut_nul_id s : no_nul s -> cut_nul s = s.
Proof.
  induction s as [|c s IH]; intro H; [reflexivity|]. cbn [cut_nul].
  destruct (N.eqb_spec c 0); [exfalso; apply H; subst; now left|]. rewrite IH; [reflexivity|]. intro; apply H; now right.
Qed.
Lemma cut_nul_app s t : no_nul s -> cut_nul (s ++ 0%N :: t) = s.
Proof.
  induction s as [|c s IH]; intro H; [reflexivity|]. cbn [app cut_nul].
  destruct (N.eqb_spec c 0); [exfalso; apply H; subst; now left|]. rewrite IH; [reflexivity|]. intro; apply H; now right.
Qed.
Lemma snprintf_fits n s : no_nul s -> (length s < n)%nat -> snprintf n s = s.
Proof. intros Hn Hl. unfold snprintf. rewrite firstn_all2 by lia. apply cut_nul_id. exact Hn. Qed.

Definition psm_field (v : N) : str := if (v =? 0)%N then [] else [34%N] ++ bin8 v ++ [34%N].
Lemma psm_field_len v : (length (psm_field v) <= 10)%nat.
Proof. unfold psm_field. destruct (v =? 0)%N; cbn; lia. Qed.

Lemma append_spec n v : (12 <= n)%nat -> appendBinaryPattern n v false = psm_field v ++ [44%N].
Proof.
  intro H. unfold appendBinaryPattern, psm_field. destruct (v =? 0)%N; cbn [negb].
  - rewrite snprintf_fits; [reflexivity|intros [?|[]]; discriminate|cbn; lia].
  - rewrite snprintf_fits; [|intro H0|].
    + cbn [app]. rewrite <- app_assoc. reflexivity.
    + cbn [app] in H0. destruct H0 as [?|H0]; [discriminate|]. apply in_app_or in H0.
      destruct H0 as [H0|[?|[?|[]]]]; try discriminate. exact (bin8_nonul v H0).
    + cbn. lia.
Qed.
Lemma append_last n v : (12 <= n)%nat -> appendBinaryPattern n v true = psm_field v.
Proof.
  intro H. unfold appendBinaryPattern, snprintf, psm_field. destruct (v =? 0)%N; cbn [negb].
  - rewrite firstn_all2 by (cbn; lia). reflexivity.
  - rewrite firstn_all2 by (cbn; lia).
    replace ([chDQ] ++ bin8 v ++ [chDQ; 0%N]) with (([34%N] ++ bin8 v ++ [34%N]) ++ 0%N :: []) by (cbn [app]; rewrite <- app_assoc; reflexivity).
    apply cut_nul_app. cbn [app]. intros [?|H0]; [discriminate|]. apply in_app_or in H0.
    destruct H0 as [H0|[?|[]]]; try discriminate. exact (bin8_nonul v H0).
Qed.


Lemma psm_command_text s : (ps_mode s < 256)%N ->
  psm_command s = s2b "AT+CPSMS=" ++ dec (ps_mode s) ++ [44%N] ++ psm_field (ps_rau s) ++ [44%N] ++ psm_field (ps_rdy s) ++ [44%N]
    ++ psm_field (ps_tau s) ++ [44%N] ++ psm_field (ps_act s) /\ (length (psm_command s) < 60)%nat.
Proof.
  intro Hm. destruct (dec_spec _ Hm) as (_ & Hd & Hn). unfold psm_command.
  assert (E0 : snprintf AT_CMD_MAX_SIZE (s2b "AT+CPSMS=" ++ dec (ps_mode s) ++ [chCOMMA]) = s2b "AT+CPSMS=" ++ dec (ps_mode s) ++ [44%N]).
  { apply snprintf_fits.
    - intro H0. apply in_app_or in H0. destruct H0 as [H0|H0]; [cbn in H0; firstorder discriminate|].
      apply in_app_or in H0. destruct H0 as [H0|[?|[]]]; [exact (Hn H0)|discriminate].
    - rewrite !app_length. cbn [s2b length]. unfold AT_CMD_MAX_SIZE. lia. }
  rewrite E0. clear E0. set (c0 := s2b "AT+CPSMS=" ++ dec (ps_mode s) ++ [44%N]).
  assert (L0 : (length c0 <= 13)%nat) by (unfold c0; rewrite !app_length; cbn [s2b length]; lia).
  pose proof (psm_field_len (ps_rau s)) as F1. pose proof (psm_field_len (ps_rdy s)) as F2.
  pose proof (psm_field_len (ps_tau s)) as F3. pose proof (psm_field_len (ps_act s)) as F4.
  unfold AT_CMD_MAX_SIZE.
  rewrite (append_spec (200 - length c0)) by lia.
  set (c1 := c0 ++ psm_field (ps_rau s) ++ [44%N]).
  assert (L1 : (length c1 <= 24)%nat) by (unfold c1; rewrite !app_length; cbn [length]; lia).
  rewrite (append_spec (200 - length c1)) by lia.
  set (c2 := c1 ++ psm_field (ps_rdy s) ++ [44%N]).
  assert (L2 : (length c2 <= 35)%nat) by (unfold c2; rewrite !app_length; cbn [length]; lia).
  rewrite (append_spec (200 - length c2)) by lia.
  set (c3 := c2 ++ psm_field (ps_tau s) ++ [44%N]).
  assert (L3 : (length c3 <= 46)%nat) by (unfold c3; rewrite !app_length; cbn [length]; lia).
  rewrite (append_last (200 - length c3)) by lia.
  split; [|clearbody c3; rewrite app_length; lia].
  subst c3 c2 c1 c0. rewrite <- !app_assoc. reflexivity.
Qed.

(** ** Commands without response lines *)
Lemma simple_request m r :
  finish (request m [] r no_callback tt) (fun x => x) = Ok {| sent := [r]; ret := done_with (m [r]); out := tt |}.
Proof. unfold finish, request, no_callback. cbn [app bind]. destruct (m [r]) as [[|]| |ls]; reflexivity. Qed.

Lemma nonul_app (a b : str) : no_nul a -> no_nul b -> no_nul (a ++ b).
Proof. unfold no_nul. intros Ha Hb H. apply in_app_or in H. tauto. Qed.
Ltac nonul_lit := let H := fresh in intro H; cbn in H; repeat (destruct H as [H|H]; [discriminate|]); exact H.

Lemma eidrx_text md rt v : (md < 256)%N -> (rt < 256)%N ->
  let text := s2b "AT+CEDRXS=" ++ dec md ++ [chCOMMA] ++ dec rt ++ [chCOMMA; chDQ] ++ bin4 v ++ [chDQ] in
  snprintf AT_CMD_MAX_SIZE text = text /\ (length text < 200)%nat.
Proof.
  intros Hm Hr text. destruct (dec_spec _ Hm) as (_ & L1 & N1). destruct (dec_spec _ Hr) as (_ & L2 & N2).
  assert (L : (length text <= 24)%nat) by (unfold text; rewrite !app_length; cbn; lia).
  split; [|lia]. apply snprintf_fits; [|unfold AT_CMD_MAX_SIZE; lia].
  unfold text. repeat apply nonul_app; try assumption; try nonul_lit. apply bin4_nonul.
Qed.

Lemma pdn_text cid (ty : string) apn : (cid < 256)%N -> no_nul (s2b ty) -> no_nul apn -> (length (s2b ty) <= 6)%nat -> (length apn <= 64)%nat ->
  let text := s2b "AT+CGDCONT=" ++ dec cid ++ [chCOMMA; chDQ] ++ s2b ty ++ [chDQ; chCOMMA; chDQ] ++ apn ++ [chDQ] in
  snprintf AT_CMD_MAX_SIZE text = text /\ (length text < 200)%nat.
Proof.
  intros Hc Ht Ha L1 L2 text. destruct (dec_spec _ Hc) as (_ & L3 & N3).
  assert (L : (length text <= 90)%nat) by (unfold text; rewrite !app_length; cbn [s2b length]; lia).
  split; [|lia]. apply snprintf_fits; [|unfold AT_CMD_MAX_SIZE; lia].
  unfold text. repeat apply nonul_app; try assumption; nonul_lit.
Qed.

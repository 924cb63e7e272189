(** Line classification and result codes (C14, C15). *)
From Coq Require Import List NArith ZArith Bool Arith Lia.
From Verif Require Import Bytes AtCore Status SpecAt AtProofs AtProofs3 Pktio SpecPktio.
Import ListNotations.

Lemma str_eqb_iff a b : str_eqb a b = true <-> a = b.
Proof.
  revert b; induction a as [|x a IH]; intros [|y b]; cbn [str_eqb]; try (split; [discriminate|discriminate]); [tauto|].
  rewrite andb_true_iff, N.eqb_eq, IH. split; [intros [-> ->]; reflexivity|intro Q; inversion Q; auto].
Qed.
Lemma urc_token_iff tt l : checkUrcTokenWoPrefix tt l = true <-> in_table (tk_urc_wo_prefix tt) l.
Proof.
  unfold checkUrcTokenWoPrefix, in_table. destruct (tk_urc_wo_prefix tt) as [t|].
  - assert (Q : urc_token_loop l t = true <-> In l t).
    { induction t as [|k t IH]; cbn [urc_token_loop In]; [split; [discriminate|tauto]|].
      destruct (str_eqb l k) eqn:E; [apply str_eqb_iff in E; subst; tauto|].
      rewrite IH. split; [auto|]. intros [->|]; [|assumption]. assert (str_eqb l l = true) by (apply str_eqb_iff; reflexivity). congruence. }
    rewrite Q. split; [eauto|]. intros (k & [= <-] & H). exact H.
  - split; [discriminate|]. intros (k & ? & _). discriminate.
Qed.
Definition wp (l : str) : bool := is_valid l && isPrefix_bool l.
Lemma wp_iff l : wp l = true <-> prefixed l.
Proof.
  unfold wp, prefixed. rewrite andb_true_iff, is_valid_iff. split.
  - intros [A B]. split; [exact A|]. apply isPrefix_bool_iff; [apply A|exact B].
  - intros [A B]. split; [exact A|]. apply isPrefix_bool_iff; [apply A|exact B].
Qed.
Lemma getMsgType_eq tt cmd l prefix :
  getMsgType tt cmd l prefix =
  if checkUrcTokenWoPrefix tt l then AT_UNSOLICITED
  else if wp l then
    match prefix with
    | None => AT_UNSOLICITED
    | Some p => if is_valid p then (if negb (is_no_command cmd) && startwith_loop l p then AT_SOLICITED else AT_UNSOLICITED)
                else AT_UNDEFINED
    end
  else if negb (is_no_command cmd) then AT_SOLICITED else AT_UNDEFINED.
Proof.
  unfold getMsgType, wp. destruct (checkUrcTokenWoPrefix tt l); [reflexivity|].
  rewrite ATIsPrefixPresent_bool. destruct (is_valid l) eqn:V; cbn [snd andb]; [|destruct (is_no_command cmd); reflexivity].
  destruct (isPrefix_bool l); [|destruct (is_no_command cmd); reflexivity].
  destruct prefix as [p|]; [|destruct (is_no_command cmd); reflexivity].
  unfold ATStrStartWith. rewrite V. cbn [andb]. destruct (is_valid p); [|reflexivity].
  destruct (is_no_command cmd), (startwith_loop l p); reflexivity.
Qed.
Lemma no_command_iff cmd : is_no_command cmd = true <-> cmd = T_NO_COMMAND.
Proof. destruct cmd; cbn; split; congruence. Qed.

Lemma classification tt cmd prefix l : prefix_usable prefix ->
  (getMsgType tt cmd l prefix = AT_SOLICITED <-> line_of_command tt cmd prefix l) /\
  (getMsgType tt cmd l prefix = AT_UNSOLICITED <-> line_is_urc tt cmd prefix l) /\
  (getMsgType tt cmd l prefix = AT_UNDEFINED <-> line_is_unexpected tt cmd l).
Proof.
  intro HU. rewrite getMsgType_eq. unfold line_of_command, line_is_urc, line_is_unexpected, expected.
  pose proof (urc_token_iff tt l) as U. pose proof (wp_iff l) as W. pose proof (no_command_iff cmd) as NC.
  destruct (checkUrcTokenWoPrefix tt l).
  { assert (in_table (tk_urc_wo_prefix tt) l) by (apply U; reflexivity). repeat split; try discriminate; try tauto. }
  assert (NU : ~ in_table (tk_urc_wo_prefix tt) l) by (rewrite <- U; discriminate).
  destruct (wp l).
  - assert (P : prefixed l) by (apply W; reflexivity).
    destruct prefix as [p|].
    + assert (V : is_valid p = true) by (apply is_valid_iff, HU; reflexivity). rewrite V.
      pose proof (startwith_loop_iff l p) as S.
      destruct (is_no_command cmd); cbn [negb andb].
      * assert (cmd = T_NO_COMMAND) by (apply NC; reflexivity). repeat split; try discriminate; try tauto.
      * assert (cmd <> T_NO_COMMAND) by (rewrite <- NC; discriminate).
        destruct (startwith_loop l p).
        -- assert (is_prefix_of p l) by (apply S; reflexivity). repeat split; try discriminate; try tauto.
           ++ intros _. exists p. auto.
           ++ intros [Q|[_ [Q|Q]]]; [tauto..|]. exfalso. apply Q. eauto.
        -- assert (SP : ~ is_prefix_of p l) by (rewrite <- S; discriminate). repeat split; try discriminate; try tauto.
           ++ intros (_ & _ & Q). destruct (Q P) as (p' & [= <-] & Q'). contradiction.
           ++ intros _. right. split; [exact P|]. right. intros (p' & [= <-] & Q'). contradiction.
    + repeat split; try discriminate; try tauto.
      * intros (_ & _ & Q). destruct (Q P) as (p' & Q' & _). discriminate.
      * intros _. right. split; [exact P|]. right. intros (p' & Q' & _). discriminate.
  - assert (P : ~ prefixed l) by (rewrite <- W; discriminate).
    destruct (is_no_command cmd); cbn [negb].
    + assert (cmd = T_NO_COMMAND) by (apply NC; reflexivity). repeat split; try discriminate; try tauto.
    + assert (cmd <> T_NO_COMMAND) by (rewrite <- NC; discriminate). repeat split; try discriminate; try tauto.
Qed.

Lemma check_tokens_spec l t : table_small t -> exists b, check_tokens l t = Ok b /\ (b = true <-> matches t l).
Proof.
  intro S. unfold check_tokens. destruct t as [ks|].
  - destruct (check_partial l ks false (S _ eq_refl)) as [A B].
    destruct (is_valid l) eqn:V.
    + apply is_valid_iff in V. destruct (A V) as (b & E & I). exists b. rewrite E by (specialize (S _ eq_refl); lia).
      cbn [bind snd]. split; [reflexivity|]. rewrite I. unfold matches. split.
      * intros (k & X). split; [exact V|]. exists ks, k. tauto.
      * intros (_ & ks' & k & [= <-] & X). eauto.
    + apply is_valid_false in V. rewrite (B V). cbn [bind snd]. eexists. split; [reflexivity|]. split; [discriminate|].
      intros [X _]. contradiction.
  - cbn [ATcheckErrorCode bind snd]. eexists. split; [reflexivity|]. split; [discriminate|]. intros (_ & ks & k & Q & _). discriminate.
Qed.

Lemma process_line_spec tt p l r t : tables_ok tt ->
  (success_line tt l /\ ProcessLine tt p l r t = Ok (PKT_OK, {| r_status := true; r_items := r_items r |})) \/
  (error_line tt l /\ ProcessLine tt p l r t = Ok (PKT_OK, {| r_status := false; r_items := r_items r |})) \/
  (plain_line tt l /\ ProcessLine tt p l r t = Ok (processIntermediateResponse p r t)).
Proof.
  intros (H1 & H2 & S1 & S2 & S3). unfold ProcessLine, error_line, plain_line, success_line.
  destruct (tk_error tt) as [te|] eqn:E1; [|congruence]. destruct (tk_success tt) as [ts|] eqn:E2; [|congruence].
  destruct (check_tokens_spec l _ S3) as (b3 & -> & I3). destruct (check_tokens_spec l _ S2) as (b2 & -> & I2).
  destruct (check_tokens_spec l _ S1) as (b1 & -> & I1). cbn [bind].
  destruct b3; cbn [bind].
  { left. split; [left; apply I3; reflexivity|reflexivity]. }
  destruct b2; cbn [bind].
  { left. split; [right; apply I2; reflexivity|reflexivity]. }
  assert (N3 : ~ matches (tk_extra_success tt) l) by (rewrite <- I3; discriminate).
  assert (N2 : ~ matches (Some ts) l) by (rewrite <- I2; discriminate).
  destruct b1.
  - right. left. split; [split; [tauto|apply I1; reflexivity]|reflexivity].
  - right. right. split; [split; [tauto|rewrite <- I1; discriminate]|reflexivity].
Qed.

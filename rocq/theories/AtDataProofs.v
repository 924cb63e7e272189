(** Lemmas for C98. *)
From Coq Require Import List NArith ZArith Bool Arith Lia.
From Verif Require Import Bytes AtCore Status RegStatus RegProofs AtData SpecAtData.
Import ListNotations.

Lemma puts_app a b d : puts (a ++ b) d = puts b (puts a d).
Proof. apply fold_left_app. Qed.

(** The stores of a token have the effect of RegStatus.v. *)
Lemma token_stores_agree bits p rt tok d : switchParsing bits p rt tok d = (fst (token_stores bits p rt tok d), puts (snd (token_stores bits p rt tok d)) d).
Proof.
  destruct p; cbn [switchParsing token_stores fst snd]; try reflexivity;
    [unfold parseStat|unfold parseLacTac|unfold parseCellId|unfold parseRat|unfold parseRejType|unfold parseRejCause|unfold parseRac];
    match goal with |- context [get_int bits tok ?b ?ok] => destruct (get_int bits tok b ok) as [e v] end; destruct e; cbn [fst snd]; try reflexivity.
  - destruct rt; destruct (v =? 1)%Z, (v =? 5)%Z; reflexivity.
  - destruct rt; reflexivity.
  - destruct rt; (destruct (d_ps d =? REG_DENIED)%Z || destruct (d_cs d =? REG_DENIED)%Z); destruct (d_cs d =? REG_DENIED)%Z; reflexivity.
  - destruct rt; (destruct (d_ps d =? REG_DENIED)%Z || destruct (d_cs d =? REG_DENIED)%Z); destruct (d_cs d =? REG_DENIED)%Z; reflexivity.
Qed.
Lemma stores_at_agree bits rt i tok d : parseAt bits rt i tok d = (fst (stores_at bits rt i tok d), puts (snd (stores_at bits rt i tok d)) d).
Proof. unfold parseAt, stores_at. destruct (nth_error (parsingTable rt) (N.to_nat i)); [apply token_stores_agree|reflexivity]. Qed.
Lemma loop_stores_agree bits rt : forall fuel i tok rest d st d', reg_loop bits fuel rt i tok rest d = Some (st, d') ->
  puts (loop_stores bits fuel rt i tok rest d) d = d'.
Proof.
  induction fuel as [|f IH]; intros i tok rest d st d' E; [discriminate|]. cbn [reg_loop loop_stores] in *.
  rewrite stores_at_agree in E. destruct (stores_at bits rt ((i + 1) mod 256)%N tok d) as [s tr] eqn:Q. cbn [fst snd] in E.
  destruct s; try (injection E as <- <-; reflexivity).
  destruct (ATGetNextTok rest) as [[e r] [t|]]; destruct e; try (injection E as <- <-; reflexivity).
  rewrite puts_app. eapply IH; exact E.
Qed.
Lemma parse_stores_agree bits cb payload isUrc rt d st d' ev : ParseRegStatus bits cb payload isUrc rt d = Ok (st, d', ev) ->
  puts (parse_stores bits payload isUrc rt d) d = d'.
Proof.
  unfold ParseRegStatus, parse_stores. destruct payload as [s0|]; [|intros [= <- <- <-]; destruct rt; reflexivity].
  assert (Z : match ATRemoveAllDoubleQuote (Some s0) with
    | (AT_SUCCESS, s1) => match ATRemoveAllWhiteSpaces s1 with
       | (AT_SUCCESS, s2) => match ATGetNextTok s2 with
          | (AT_SUCCESS, rest, Some tok) => match reg_loop bits REG_FUEL rt (if isUrc then 1 else 0)%N tok rest d with
             | None => Diverge
             | Some (st, d') => Ok (st, d', if RegEventStatus d' rt (d_cs d) (d_ps d) then generateEvent rt cb d' else [])
             end
          | (e, _, _) => Ok (TranslateAtCoreStatus e, d, [])
          end
       | (e, _) => Ok (TranslateAtCoreStatus e, d, [])
       end
    | (e, _) => Ok (TranslateAtCoreStatus e, d, [])
    end = Ok (st, d', ev) -> puts match ATRemoveAllDoubleQuote (Some s0) with
    | (AT_SUCCESS, s1) => match ATRemoveAllWhiteSpaces s1 with
       | (AT_SUCCESS, s2) => match ATGetNextTok s2 with
          | (AT_SUCCESS, rest, Some tok) => loop_stores bits REG_FUEL rt (if isUrc then 1 else 0)%N tok rest d
          | _ => []
          end
       | _ => []
       end
    | _ => []
    end d = d').
  { destruct (ATRemoveAllDoubleQuote (Some s0)) as [e1 s1]. destruct e1; lazymatch goal with |- Ok _ = _ -> _ => intros [= <- <- <-]; reflexivity | _ => idtac end.
    destruct (ATRemoveAllWhiteSpaces s1) as [e2 s2]. destruct e2; lazymatch goal with |- Ok _ = _ -> _ => intros [= <- <- <-]; reflexivity | _ => idtac end.
    destruct (ATGetNextTok s2) as [[e3 r] [t|]]; destruct e3; lazymatch goal with |- Ok _ = _ -> _ => intros [= <- <- <-]; reflexivity | _ => idtac end.
    destruct (reg_loop bits REG_FUEL rt (if isUrc then 1 else 0)%N t r d) as [[x y]|] eqn:L; [|discriminate].
    intros [= <- <- <-]. eapply loop_stores_agree; exact L. }
  destruct rt; try exact Z. intros [= <- <- <-]. reflexivity.
Qed.
Lemma msg_stores_agree bits m d : puts (msg_stores bits m d) d = records bits m d.
Proof.
  assert (P : forall p u rt, exists st ev, ParseRegStatus bits true p u rt d = Ok (st, puts (parse_stores bits p u rt d) d, ev)).
  { intros p u rt. destruct (parse_total bits true p u rt d) as (st & d' & ev & E). exists st, ev. rewrite E. rewrite (parse_stores_agree _ _ _ _ _ _ _ _ _ E). reflexivity. }
  unfold msg_stores, records, parse_args. destruct m as [rt p|rt l].
  - unfold UrcProcessReg. destruct (P p true rt) as (st & ev & ->). reflexivity.
  - cbn [RecvFuncGetNetworkReg]. destruct (regResponseIsUrc l).
    + destruct (ATRemovePrefix (Some l)) as [[] l'] eqn:E; try reflexivity. destruct (P l' true rt) as (st & ev & ->). cbn [bind]. destruct st; reflexivity.
    + destruct (P (Some l) false rt) as (st & ev & ->). cbn [bind]. destruct st; reflexivity.
Qed.

Lemma data_after_snoc bits ms m : data_after bits (ms ++ [m]) = records bits m (data_after bits ms).
Proof. unfold data_after. rewrite fold_left_app. reflexivity. Qed.

Lemma nth_set_nth l i j x : nth_error (set_nth l i x) j = if (i =? j)%nat then (if (i <? length l)%nat then Some x else None) else nth_error l j.
Proof.
  revert i j. induction l as [|a l IH]; intros i j; cbn [set_nth].
  - destruct (i =? j)%nat eqn:Q; [|reflexivity]. destruct j; reflexivity.
  - destruct i, j; cbn [nth_error Nat.eqb]; try reflexivity. rewrite IH. reflexivity.
Qed.
Lemma nth_set_same l i x y : nth_error l i = Some y -> nth_error (set_nth l i x) i = Some x.
Proof. intro H. rewrite nth_set_nth, Nat.eqb_refl. assert (i < length l)%nat by (apply nth_error_Some; congruence). apply Nat.ltb_lt in H0. rewrite H0. reflexivity. Qed.
Lemma nth_set_other l i j x : i <> j -> nth_error (set_nth l i x) j = nth_error l j.
Proof. intro H. rewrite nth_set_nth. apply Nat.eqb_neq in H. rewrite H. reflexivity. Qed.

Section Inv.
Variable bits : Z.

(** The thread is between lock and unlock. *)
Definition inside (p : apc) : bool := match p with Copy _ _ _ _ | Leave _ _ _ => true | _ => false end.
Definition rinside (r : rpc) : bool := match r with Store _ _ _ _ | Report _ _ _ | LeaveR => true | _ => false end.

(** What holds of one thread, with the data of the last recorded message. *)
Definition app_ok (ms : list message) (p : apc) : Prop :=
  match p with
  | Out => True
  | Want o from => (from <= length ms)%nat
  | Copy o from todo got => (from <= length ms)%nat /\ exists done, loads o = done ++ todo /\ got = map (get (data_after bits ms)) done
  | Leave o from got => (from <= length ms)%nat /\ got = answer_of (data_after bits ms) o
  end.
Definition rdr_ok (s : state) : Prop :=
  match rdr s with
  | Store m pc pp todo => puts todo (data s) = records bits m (data_after bits (recorded s)) /\
      pc = d_cs (data_after bits (recorded s)) /\ pp = d_ps (data_after bits (recorded s))
  | Report m pc pp => data s = data_after bits (recorded s) /\ exists before, recorded s = before ++ [m] /\
      pc = d_cs (data_after bits before) /\ pp = d_ps (data_after bits before)
  | _ => data s = data_after bits (recorded s)
  end.
Definition inv (s : state) : Prop :=
  (owner s = Some Reader <-> rinside (rdr s) = true) /\
  (forall i, owner s = Some (App i) <-> exists p, nth_error (apps s) i = Some p /\ inside p = true) /\
  rdr_ok s /\
  (forall i p, nth_error (apps s) i = Some p -> app_ok (recorded s) p) /\
  Forall (shows_one_moment bits (recorded s)) (obs s) /\ never_older (obs s).

Lemma inv_init n : inv (init n).
Proof.
  assert (R : forall i p, nth_error (repeat Out n) i = Some p -> p = Out) by (intros i p H; apply nth_error_In in H; eapply repeat_spec; exact H).
  split; [split; discriminate|]. split; [intro i; split; [discriminate|intros (p & H & I); apply R in H; subst; discriminate]|].
  split; [reflexivity|]. split; [intros i p H; apply R in H; subst; exact I|]. split; [constructor|exact I].
Qed.

Lemma shows_more ms m x : shows_one_moment bits ms x -> shows_one_moment bits (ms ++ [m]) x.
Proof.
  intros (L & H). split; [rewrite app_length; lia|]. destruct x as [i o from upto vals|upto e]; cbn [moment] in L;
    rewrite firstn_app; replace (upto - length ms)%nat with 0%nat by lia; rewrite firstn_O, app_nil_r; exact H.
Qed.
Lemma moment_le ms x : shows_one_moment bits ms x -> (moment x <= length ms)%nat.
Proof. intros (L & _). exact L. Qed.
Lemma never_older_snoc l new k : never_older l -> Forall (fun x => (moment x <= k)%nat) l -> Forall (fun x => moment x = k) new -> never_older (l ++ new).
Proof.
  induction l as [|x l IH]; intros A B C; cbn [app].
  - clear A B. induction C as [|y new E C IHn]; [exact I|]. cbn. split; [|exact IHn]. eapply Forall_impl; [|exact C]. cbn. intros z Z. lia.
  - cbn in A. destruct A as (A1 & A2). inversion B as [|? ? B1 B2]; subst. cbn. split; [|apply IH; auto].
    apply Forall_app. split; [exact A1|]. eapply Forall_impl; [|exact C]. cbn. intros z Z. lia.
Qed.

(** A thread's copying or leaving: the reader is outside, and the data is that of the last recorded message. *)
Lemma app_inside s i p : inv s -> nth_error (apps s) i = Some p -> inside p = true -> owner s = Some (App i) /\ data s = data_after bits (recorded s).
Proof.
  intros (O & A & R & _) H P. assert (W : owner s = Some (App i)) by (apply A; eauto). split; [exact W|].
  assert (N : rinside (rdr s) = false) by (destruct (rinside (rdr s)); [|reflexivity]; exfalso; rewrite (proj2 O eq_refl) in W; discriminate).
  unfold rdr_ok in R. destruct (rdr s); try discriminate; exact R.
Qed.

Lemma inv_step l s s' : inv s -> step bits l s = Some s' -> inv s'.
Proof.
  intros IV E. pose proof IV as (O & A & R & K & SO & NO). pose proof (fun i p => app_inside s i p IV) as AI.
  destruct l as [i o|i|m|cb]; cbn [step] in E.
  - destruct (nth_error (apps s) i) as [[| | |]|] eqn:Q; try discriminate. injection E as <-.
    split; [exact O|]. split.
    { intro j. cbn [with_app owner apps]. rewrite A. destruct (Nat.eq_dec i j) as [<-|N].
      - rewrite (nth_set_same _ _ _ _ Q). split; intros (p & H & P); [rewrite Q in H|]; inversion H; subst; discriminate.
      - rewrite nth_set_other by exact N. reflexivity. }
    split; [exact R|]. split.
    { intros j p H. cbn [with_app apps recorded] in *. destruct (Nat.eq_dec i j) as [<-|N].
      - rewrite (nth_set_same _ _ _ _ Q) in H. injection H as <-. cbn. lia.
      - rewrite nth_set_other in H by exact N. eapply K; exact H. }
    cbn [with_app obs recorded]. rewrite app_nil_r. split; assumption.
  - destruct (nth_error (apps s) i) as [p|] eqn:Q; [|discriminate].
    (* a general step of thread i from [p] to [q] with the new owner [ow] and observations [new] *)
    assert (G : forall q ow new, E = E -> s' = with_app s i q ow new ->
      (ow = Some Reader <-> rinside (rdr s) = true) ->
      (forall j, ow = Some (App j) <-> if (i =? j)%nat then inside q = true else owner s = Some (App j)) ->
      app_ok (recorded s) q -> Forall (shows_one_moment bits (recorded s)) new -> Forall (fun x => moment x = length (recorded s)) new -> inv s').
    { intros q ow new _ -> W1 W2 W3 W4 W5. split; [exact W1|]. split.
      { intro j. cbn [with_app owner apps]. rewrite W2. destruct (Nat.eq_dec i j) as [<-|N].
        - rewrite Nat.eqb_refl, (nth_set_same _ _ _ _ Q). split; [intro H; eauto|intros (p' & H & P); inversion H; subst; exact P].
        - rewrite nth_set_other by exact N. rewrite <- A. apply Nat.eqb_neq in N. rewrite N. reflexivity. }
      split; [exact R|]. split.
      { intros j p' H. cbn [with_app apps recorded] in *. destruct (Nat.eq_dec i j) as [<-|N].
        - rewrite (nth_set_same _ _ _ _ Q) in H. injection H as <-. exact W3.
        - rewrite nth_set_other in H by exact N. eapply K; exact H. }
      cbn [with_app obs recorded]. split; [apply Forall_app; split; assumption|].
      apply never_older_snoc with (k := length (recorded s)); auto. eapply Forall_impl; [|exact SO]. intros x. apply moment_le. }
    pose proof (K _ _ Q) as KP. destruct p as [|o from|o from todo got|o from got]; [discriminate| | |].
    + destruct (owner s) eqn:OW; [discriminate|]. injection E as <-. eapply G; [reflexivity|reflexivity| | | |constructor|constructor].
      * split; [discriminate|]. intro H. apply O in H. discriminate.
      * intro j. destruct (i =? j)%nat eqn:J; [apply Nat.eqb_eq in J; subst; split; intro; reflexivity|]. split; [intros [= ->]; rewrite Nat.eqb_refl in J; discriminate|discriminate].
      * cbn in *. split; [exact KP|]. exists []. split; reflexivity.
    + destruct (AI _ _ eq_refl eq_refl) as (OW & D) || destruct (AI i _ Q eq_refl) as (OW & D).
      destruct KP as (KF & done & KD & KG). destruct todo as [|f todo]; injection E as <-.
      * eapply G; [reflexivity|reflexivity|exact O| | |constructor|constructor].
        -- intro j. rewrite OW. destruct (i =? j)%nat eqn:J; [apply Nat.eqb_eq in J; subst; split; intro; reflexivity|]. reflexivity.
        -- cbn. split; [exact KF|]. rewrite app_nil_r in KD. subst done got. destruct o; reflexivity.
      * eapply G; [reflexivity|reflexivity|exact O| | |constructor|constructor].
        -- intro j. rewrite OW. destruct (i =? j)%nat eqn:J; [apply Nat.eqb_eq in J; subst; split; intro; reflexivity|]. reflexivity.
        -- cbn. split; [exact KF|]. exists (done ++ [f]). split; [rewrite <- app_assoc; exact KD|]. rewrite map_app, KG, D. reflexivity.
    + destruct (AI i _ Q eq_refl) as (OW & D). injection E as <-. destruct KP as (KF & KG).
      eapply G; [reflexivity|reflexivity| | |exact I| |].
      * split; [discriminate|]. intro H. apply O in H. rewrite OW in H. discriminate.
      * intro j. rewrite OW. destruct (i =? j)%nat eqn:J; [split; discriminate|]. split; [discriminate|]. intros [= ->]. rewrite Nat.eqb_refl in J. discriminate.
      * constructor; [|constructor]. split; [cbn; lia|]. split; [exact KF|]. rewrite firstn_all. exact KG.
      * constructor; [reflexivity|constructor].
  - destruct (rdr s) eqn:Q; try discriminate. injection E as <-. split; [exact O|]. split; [exact A|]. split; [unfold rdr_ok in *; rewrite Q in R; exact R|].
    split; [exact K|]. cbn [with_rdr obs recorded]. rewrite app_nil_r. split; assumption.
  - destruct (rdr s) as [|m|m pc pp todo|m pc pp|] eqn:Q; [discriminate| | | |]; unfold rdr_ok in R; rewrite Q in R.
    + destruct (owner s) eqn:OW; [discriminate|]. injection E as <-. split; [split; intro; reflexivity|]. split.
      { intro j. cbn [with_rdr owner apps]. split; [discriminate|]. intro H. apply A in H. discriminate. }
      split. { unfold rdr_ok. cbn [with_rdr rdr data recorded]. rewrite msg_stores_agree, R. auto. }
      split; [exact K|]. cbn [with_rdr obs recorded]. rewrite app_nil_r. split; assumption.
    + assert (OW : owner s = Some Reader) by (apply O; reflexivity). destruct R as (R1 & R2 & R3).
      destruct todo as [|[f v] todo]; injection E as <-.
      * split; [split; intro; [reflexivity|exact OW]|]. split; [exact A|].
        split. { unfold rdr_ok. cbn [with_rdr rdr data recorded]. rewrite data_after_snoc. split; [exact R1|]. exists (recorded s). auto. }
        split. { intros j p H. cbn [with_rdr apps recorded] in *. pose proof (K _ _ H) as KP. destruct p as [|o from|o from todo got|o from got]; cbn [app_ok] in *.
          - exact I.
          - rewrite app_length. lia.
          - exfalso. destruct (AI _ _ H eq_refl) as (W & _). rewrite OW in W. discriminate.
          - exfalso. destruct (AI _ _ H eq_refl) as (W & _). rewrite OW in W. discriminate. }
        cbn [with_rdr obs recorded]. rewrite app_nil_r. split; [|exact NO]. eapply Forall_impl; [|exact SO]. intros x. apply shows_more.
      * split; [split; intro; [reflexivity|exact OW]|]. split; [exact A|]. split; [unfold rdr_ok; cbn [with_rdr rdr data recorded]; auto|].
        split; [exact K|]. cbn [with_rdr obs recorded]. rewrite app_nil_r. split; assumption.
    + assert (OW : owner s = Some Reader) by (apply O; reflexivity). destruct R as (R1 & before & R2 & R3 & R4). injection E as <-.
      split; [split; intro; [reflexivity|exact OW]|]. split; [exact A|]. split; [exact R1|]. split; [exact K|]. cbn [with_rdr obs recorded].
      set (es := if RegEventStatus (data s) (msg_type m) pc pp then generateEvent (msg_type m) cb (data s) else []).
      assert (ES : Forall (fun x => shows_one_moment bits (recorded s) x /\ moment x = length (recorded s)) (map (Called (length (recorded s))) es)).
      { apply Forall_forall. intros x H. apply in_map_iff in H. destruct H as (e & <- & H). split; [|reflexivity]. split; [cbn; lia|].
        exists before, m. rewrite firstn_all. split; [exact R2|]. unfold es in H. destruct (RegEventStatus (data s) (msg_type m) pc pp) eqn:RE; [|contradiction].
        unfold generateEvent in H. destruct cb; [|contradiction]. destruct H as [H|[]]. rewrite <- R2, <- R1. unfold status_of.
        unfold RegEventStatus in RE. destruct (msg_type m); [left|right|right|discriminate]; (split; [auto|]); (split; [symmetry; exact H|]);
          apply negb_true_iff, Z.eqb_neq in RE; congruence. }
      split; [apply Forall_app; split; [exact SO|eapply Forall_impl; [|exact ES]; intros x (X & _); exact X]|].
      apply never_older_snoc with (k := length (recorded s)); [exact NO| |].
      * eapply Forall_impl; [|exact SO]. intros x. apply moment_le.
      * eapply Forall_impl; [|exact ES]. intros x (_ & X). exact X.
    + injection E as <-. assert (OW : owner s = Some Reader) by (apply O; reflexivity). split; [split; discriminate|]. split.
      { intro j. cbn [with_rdr owner apps]. split; [discriminate|]. intro H. apply A in H. rewrite OW in H. discriminate. }
      split; [exact R|]. split; [exact K|]. cbn [with_rdr obs recorded]. rewrite app_nil_r. split; assumption.
Qed.

Lemma inv_run : forall ls s s', inv s -> run bits ls s = Some s' -> inv s'.
Proof.
  induction ls as [|l ls IH]; intros s s' H E; cbn in E; [injection E as <-; exact H|].
  destruct (step bits l s) as [s1|] eqn:Q; [|discriminate]. eapply IH; [eapply inv_step; eauto|exact E].
Qed.
Lemma inv_reach n s : reach bits n s -> inv s.
Proof. intros (ls & E). eapply inv_run; [apply inv_init|exact E]. Qed.
End Inv.

(** Proofs about the URC table and URC dispatch. *)
From Coq Require Import List NArith ZArith Bool Arith Lia.
From Verif Require Import Bytes AtCore AtMem SpecAt AtProofs AtProofs2 AtProofs3 Status Pktio PktHandler SpecUrc.
Import ListNotations.

(** ** The comparison function *)
Lemma strncmp_self p a b n : strncmp (p ++ a) (p ++ b) (length p + n) = strncmp a b n.
Proof. induction p as [|x p IH]; [reflexivity|]. cbn [app length Nat.add strncmp]. rewrite N.eqb_refl. exact IH. Qed.
Lemma strncmp_0 a b : strncmp a b 0 = 0%Z.
Proof. destruct a, b; reflexivity. Qed.
Lemma cmp_prefix a c r : compareFunc a (a ++ c :: r) = (-1)%Z.
Proof.
  unfold compareFunc. rewrite app_length. cbn [length]. rewrite Nat.min_l by lia.
  rewrite <- (app_nil_r a) at 1. replace (length a) with (length a + 0)%nat at 1 by lia. rewrite strncmp_self, strncmp_0. cbn [Z.eqb].
  replace (length a =? length a + S (length r))%nat with false by (symmetry; apply Nat.eqb_neq; lia).
  replace (length a + S (length r) <? length a)%nat with false by (symmetry; apply Nat.ltb_ge; lia). reflexivity.
Qed.
Lemma cmp_prefix' b c r : compareFunc (b ++ c :: r) b = 1%Z.
Proof.
  unfold compareFunc. rewrite app_length. cbn [length]. rewrite Nat.min_r by lia.
  rewrite <- (app_nil_r b) at 2. replace (length b) with (length b + 0)%nat at 1 by lia. rewrite strncmp_self, strncmp_0. cbn [Z.eqb].
  replace (length b + S (length r) =? length b)%nat with false by (symmetry; apply Nat.eqb_neq; lia).
  replace (length b <? length b + S (length r))%nat with true by (symmetry; apply Nat.ltb_lt; lia). reflexivity.
Qed.
Lemma cmp_diff p x y r1 r2 : x <> y -> compareFunc (p ++ x :: r1) (p ++ y :: r2) = (Z.of_N x - Z.of_N y)%Z.
Proof.
  intro H. unfold compareFunc. rewrite !app_length. cbn [length]. rewrite Nat.add_min_distr_l, <- Nat.succ_min_distr.
  rewrite strncmp_self. cbn [strncmp]. destruct (N.eqb_spec x y); [contradiction|].
  destruct (Z.eqb_spec (Z.of_N x - Z.of_N y) 0); [lia|]. reflexivity.
Qed.
Lemma cmp_refl a : compareFunc a a = 0%Z.
Proof.
  unfold compareFunc. rewrite Nat.min_id, Nat.eqb_refl. cbn [negb]. rewrite andb_false_r.
  rewrite <- (app_nil_r a) at 1 2. replace (length a) with (length a + 0)%nat by lia. rewrite strncmp_self. apply strncmp_0.
Qed.
(** Any two strings: equal, one before, or after. *)
Lemma str_tri a : forall b, a = b \/ str_lt a b \/ str_lt b a.
Proof.
  induction a as [|x a IH]; intros [|y b].
  - left; reflexivity.
  - right; left; left; exists y, b; reflexivity.
  - right; right; left; exists x, a; reflexivity.
  - destruct (N.lt_trichotomy x y) as [L|[->|L]].
    + right; left; right. exists [], x, y, a, b. auto.
    + destruct (IH b) as [->|[H|H]]; [left; reflexivity|right; left|right; right].
      all: destruct H as [(c & r & ->)|(p & u & v & r1 & r2 & -> & -> & L)]; [left; exists c, r; reflexivity|right; exists (y :: p), u, v, r1, r2; auto].
    + right; right; right. exists [], y, x, b, a. auto.
Qed.
Lemma cmp_lt a b : str_lt a b -> (compareFunc a b < 0)%Z.
Proof.
  intros [(c & r & ->)|(p & x & y & r1 & r2 & -> & -> & L)]; [rewrite cmp_prefix; lia|rewrite cmp_diff by lia; lia].
Qed.
Lemma cmp_gt a b : str_lt b a -> (0 < compareFunc a b)%Z.
Proof.
  intros [(c & r & ->)|(p & x & y & r1 & r2 & -> & -> & L)]; [rewrite cmp_prefix'; lia|rewrite cmp_diff by lia; lia].
Qed.
Lemma cmp_neg a b : (compareFunc a b < 0)%Z <-> str_lt a b.
Proof.
  split; [|apply cmp_lt]. intro H. destruct (str_tri a b) as [->|[L|L]]; [rewrite cmp_refl in H; lia|exact L|apply cmp_gt in L; lia].
Qed.
Lemma cmp_pos a b : (0 < compareFunc a b)%Z <-> str_lt b a.
Proof.
  split; [|apply cmp_gt]. intro H. destruct (str_tri a b) as [->|[L|L]]; [rewrite cmp_refl in H; lia|apply cmp_lt in L; lia|exact L].
Qed.
Lemma cmp_zero a b : compareFunc a b = 0%Z <-> a = b.
Proof.
  split; [|intros ->; apply cmp_refl]. intro H. destruct (str_tri a b) as [->|[L|L]]; [reflexivity|apply cmp_lt in L; lia|apply cmp_gt in L; lia].
Qed.
Lemma str_lt_irrefl a : ~ str_lt a a.
Proof. intro H. apply cmp_lt in H. rewrite cmp_refl in H. lia. Qed.
Lemma str_lt_asym a b : str_lt a b -> str_lt b a -> False.
Proof. intros H K. apply cmp_lt in H. apply cmp_gt in K. lia. Qed.
Lemma str_lt_nil c r : str_lt [] (c :: r).
Proof. left. exists c, r. reflexivity. Qed.
Lemma str_lt_cons x y a b : str_lt (x :: a) (y :: b) <-> (x < y)%N \/ x = y /\ str_lt a b.
Proof.
  split.
  - intros [(c & r & E)|(p & u & v & r1 & r2 & E1 & E2 & L)].
    + injection E as -> ->. right. split; [reflexivity|]. left. exists c, r. reflexivity.
    + destruct p as [|z p]; cbn [app] in E1, E2; injection E1 as -> ->; injection E2 as -> ->; [left; exact L|].
      right. split; [reflexivity|]. right. exists p, u, v, r1, r2. auto.
  - intros [L|[-> [(c & r & ->)|(p & u & v & r1 & r2 & -> & -> & L)]]].
    + right. exists [], x, y, a, b. auto.
    + left. exists c, r. reflexivity.
    + right. exists (y :: p), u, v, r1, r2. auto.
Qed.
Lemma str_lt_trans a : forall b c, str_lt a b -> str_lt b c -> str_lt a c.
Proof.
  induction a as [|x a IH]; intros [|y b] [|z c] H K.
  all: try (exfalso; destruct H as [(u & r & E)|(p & u & v & r1 & r2 & E1 & E2 & L)]; [discriminate|destruct p; discriminate]).
  all: try (exfalso; destruct K as [(u & r & E)|(p & u & v & r1 & r2 & E1 & E2 & L)]; [discriminate|destruct p; discriminate]).
  - apply str_lt_nil.
  - apply str_lt_cons in H, K. apply str_lt_cons. destruct H as [H|[-> H]], K as [K|[-> K]]; [left; lia|left; lia|left; lia|right; split; [reflexivity|eauto]].
Qed.

(** ** Table validation *)
Fixpoint adjacent (l : list str) : Prop :=
  match l with
  | a :: ((b :: _) as t) => str_lt a b /\ adjacent t
  | _ => True
  end.
Lemma adjacent_increasing l : adjacent l <-> increasing l.
Proof.
  split.
  - intro A. assert (B : forall j i a b, (i < j)%nat -> nth_error l i = Some a -> nth_error l j = Some b -> str_lt a b).
    { induction l as [|x l IH]; intros j i a b L E F; [destruct i; discriminate|].
      destruct j as [|j]; [lia|]. cbn [nth_error] in F. destruct l as [|y l]; [destruct j; discriminate|]. destruct A as [A1 A2].
      destruct i as [|i]; [|cbn [nth_error] in E; apply (IH A2 j i); [lia|exact E|exact F]].
      cbn [nth_error] in E. injection E as ->. destruct j as [|j]; [cbn in F; injection F as ->; exact A1|].
      apply (str_lt_trans _ y); [exact A1|]. apply (IH A2 (S j) 0%nat); [lia|reflexivity|exact F]. }
    intros i j. apply B.
  - induction l as [|x l IH]; intro I; [exact Logic.I|]. destruct l as [|y l]; [exact Logic.I|]. split.
    + apply (I 0%nat 1%nat); [lia|reflexivity|reflexivity].
    + apply IH. intros i j a b L E F. apply (I (S i) (S j)); [lia|exact E|exact F].
Qed.
Lemma init_loop_spec t : forall f, atParseInit_loop t f = true <-> f = true /\ adjacent (map fst t).
Proof.
  induction t as [|[a ha] t IH]; intro f; [cbn; tauto|]. destruct t as [|[b hb] t]; [cbn; tauto|].
  change (atParseInit_loop ((a, ha) :: (b, hb) :: t) f) with (atParseInit_loop ((b, hb) :: t) (if (0 <=? compareFunc a b)%Z then false else f)).
  rewrite IH. cbn [map fst adjacent]. rewrite <- cmp_neg. destruct (Z.leb_spec 0 (compareFunc a b)).
  - split; [intros [Q _]; discriminate|intros (_ & Q & _); lia].
  - tauto.
Qed.
Lemma init_exact tbl : AtParseInit tbl = PKT_OK <-> exists t, tbl = Some t /\ t <> [] /\ increasing (map fst t).
Proof.
  destruct tbl as [[|e t]|]; cbn [AtParseInit].
  - split; [discriminate|intros (t & E & N & _); congruence].
  - destruct (atParseInit_loop (e :: t) true) eqn:E.
    + apply init_loop_spec in E. split; [|reflexivity]. intros _. exists (e :: t). split; [reflexivity|]. split; [discriminate|]. apply adjacent_increasing. tauto.
    + split; [discriminate|]. intros (t' & [= <-] & _ & I). apply adjacent_increasing in I.
      assert (X : atParseInit_loop (e :: t) true = true) by (apply init_loop_spec; tauto). congruence.
  - split; [discriminate|intros (t & E & _); discriminate].
Qed.

(** ** Look-up *)
Lemma log2_half n : (2 <= n)%nat -> Nat.log2 n = S (Nat.log2 (Nat.div n 2)).
Proof.
  intro H. assert (E := Nat.div_mod n 2). specialize (E ltac:(lia)). assert (M := Nat.mod_upper_bound n 2 ltac:(lia)).
  set (q := Nat.div n 2) in *. set (r := Nat.modulo n 2) in *. destruct r as [|[|r]]; [..|lia].
  - rewrite E. rewrite Nat.add_0_r. apply Nat.log2_double. lia.
  - rewrite E. apply Nat.log2_succ_double. lia.
Qed.
Lemma log2_mono_half d n : (d <= Nat.div n 2)%nat -> (1 <= d)%nat -> (S (Nat.log2 d) <= Nat.log2 n)%nat.
Proof.
  intros H D. assert (2 <= n)%nat by (destruct n as [|[|n]]; [cbn in H; lia|cbn in H; lia|lia]). rewrite (log2_half n) by assumption.
  apply le_n_S. apply Nat.log2_le_mono. exact H.
Qed.
Lemma div2_bounds l u : (l < u)%nat -> (l <= Nat.div (l + u) 2 < u)%nat /\ (Nat.div (l + u) 2 - l <= Nat.div (u - l) 2)%nat /\ (u - S (Nat.div (l + u) 2) <= Nat.div (u - l) 2)%nat.
Proof.
  intro H. assert (E := Nat.div_mod (l + u) 2 ltac:(lia)). assert (M := Nat.mod_upper_bound (l + u) 2 ltac:(lia)).
  assert (E2 := Nat.div_mod (u - l) 2 ltac:(lia)). assert (M2 := Nat.mod_upper_bound (u - l) 2 ltac:(lia)).
  set (q := Nat.div (l + u) 2) in *. set (r := Nat.modulo (l + u) 2) in *. set (q2 := Nat.div (u - l) 2) in *. set (r2 := Nat.modulo (u - l) 2) in *. lia.
Qed.
(** comparisons needed for an interval of [n] entries *)
Definition cmp_bound (n : nat) : nat := match n with O => O | _ => S (Nat.log2 n) end.
Lemma cmp_bound_half d n : (d <= Nat.div n 2)%nat -> (1 <= n)%nat -> (S (cmp_bound d) <= cmp_bound n)%nat.
Proof.
  intros H D. unfold cmp_bound. destruct n as [|n]; [lia|]. destruct d as [|d]; [lia|]. apply le_n_S. apply log2_mono_half; [exact H|lia].
Qed.
Lemma bsearch_loop_spec key (tbl : list urc_entry) : increasing (map fst tbl) -> forall fuel l u, (l <= u <= length tbl)%nat -> (u - l < fuel)%nat ->
  (forall i h a, (i < l)%nat -> nth_error tbl i = Some (a, h) -> str_lt a key) ->
  (forall i h a, (u <= i)%nat -> nth_error tbl i = Some (a, h) -> str_lt key a) ->
  exists r n, bsearch_loop fuel key tbl l u = Ok (r, n) /\ (n <= cmp_bound (u - l))%nat /\
    match r with Some i => exists h, nth_error tbl i = Some (key, h) | None => forall i h, nth_error tbl i <> Some (key, h) end.
Proof.
  intro SORT. induction fuel as [|f IH]; intros l u LU F BL BU; [lia|]. cbn [bsearch_loop].
  destruct (Nat.ltb_spec l u) as [L|L].
  - destruct (div2_bounds l u L) as (B1 & B2 & B3). set (idx := Nat.div (l + u) 2) in *.
    destruct (nth_error tbl idx) as [[name h]|] eqn:E; [|apply nth_error_None in E; lia].
    assert (ORD : forall i j a b ha hb, (i < j)%nat -> nth_error tbl i = Some (a, ha) -> nth_error tbl j = Some (b, hb) -> str_lt a b).
    { intros i j a b ha hb IJ EI EJ. apply (SORT i j a b IJ); [apply (map_nth_error fst) in EI; exact EI|apply (map_nth_error fst) in EJ; exact EJ]. }
    destruct (Z.ltb_spec (compareFunc key name) 0) as [C|C].
    + apply cmp_neg in C. destruct (IH l idx) as (r & n & R & NB & X); [lia|lia|exact BL| |].
      { intros i h' a I EI. destruct (Nat.eq_dec i idx) as [->|NE]; [rewrite E in EI; injection EI as <- <-; exact C|].
        apply (str_lt_trans _ name); [exact C|]. apply (ORD idx i name a h h'); [lia|exact E|exact EI]. }
      rewrite R. cbn [bind fst snd]. exists r, (S n). split; [reflexivity|]. split; [|exact X].
      assert (S (cmp_bound (idx - l)) <= cmp_bound (u - l))%nat by (apply cmp_bound_half; lia). lia.
    + destruct (Z.ltb_spec 0 (compareFunc key name)) as [C2|C2].
      * apply cmp_pos in C2. destruct (IH (S idx) u) as (r & n & R & NB & X); [lia|lia| |exact BU|].
        { intros i h' a I EI. destruct (Nat.eq_dec i idx) as [->|NE]; [rewrite E in EI; injection EI as <- <-; exact C2|].
          apply (str_lt_trans _ name); [|exact C2]. apply (ORD i idx a name h' h); [lia|exact EI|exact E]. }
        rewrite R. cbn [bind fst snd]. exists r, (S n). split; [reflexivity|]. split; [|exact X].
        assert (S (cmp_bound (u - S idx)) <= cmp_bound (u - l))%nat by (apply cmp_bound_half; lia). lia.
      * assert (Z : compareFunc key name = 0%Z) by lia. apply cmp_zero in Z. subst name. cbn [bind fst snd].
        exists (Some idx), 1%nat. split; [reflexivity|]. split; [unfold cmp_bound; destruct (u - l)%nat eqn:Q; lia|]. exists h. exact E.
  - exists None, 0%nat. split; [reflexivity|]. split; [lia|]. intros i h E. destruct (le_lt_dec u i) as [I|I].
    + apply (str_lt_irrefl key). exact (BU i h key I E).
    + apply (str_lt_irrefl key). apply (BL i h key); [lia|exact E].
Qed.
Lemma bsearch_spec key (tbl : list urc_entry) : increasing (map fst tbl) ->
  exists r n, bsearch key tbl = Ok (r, n) /\ (n <= cmp_bound (length tbl))%nat /\
    match r with Some i => exists h, nth_error tbl i = Some (key, h) | None => forall i h, nth_error tbl i <> Some (key, h) end.
Proof.
  intro SO. destruct (bsearch_loop_spec key tbl SO (S (length tbl)) 0 (length tbl)) as (r & n & R & B & X); [lia|lia|intros; lia| |].
  - intros i h a I E. exfalso. assert (nth_error tbl i <> None) by congruence. apply nth_error_Some in H. lia.
  - exists r, n. rewrite Nat.sub_0_r in B. auto.
Qed.
(** Names are unique in an increasing table. *)
Lemma increasing_unique (tbl : list urc_entry) key h h' : increasing (map fst tbl) -> In (key, h) tbl -> In (key, h') tbl -> h = h'.
Proof.
  intros S A B. apply In_nth_error in A, B. destruct A as (i & A). destruct B as (j & B).
  destruct (Nat.lt_trichotomy i j) as [L|[->|L]]; [..|].
  - exfalso. apply (str_lt_irrefl key). apply (S i j key key L); [apply (map_nth_error fst) in A; exact A|apply (map_nth_error fst) in B; exact B].
  - congruence.
  - exfalso. apply (str_lt_irrefl key). apply (S j i key key L); [apply (map_nth_error fst) in B; exact B|apply (map_nth_error fst) in A; exact A].
Qed.
Lemma get_handler_spec (tbl : list urc_entry) token text : increasing (map fst tbl) ->
  (forall h, In (token, Some h) tbl -> atParseGetHandler tbl token text = Ok (PKT_OK, [CallHandler h text])) /\
  (In (token, None) tbl -> atParseGetHandler tbl token text = Ok (PKT_FAILURE, [])) /\
  ((forall h, ~ In (token, h) tbl) -> atParseGetHandler tbl token text = Ok (PKT_PREFIX_MISMATCH, [])).
Proof.
  intro S. destruct (bsearch_spec token tbl S) as (r & n & R & _ & X). unfold atParseGetHandler. rewrite R. cbn [bind fst].
  destruct r as [i|].
  - destruct X as (h & E). assert (I := nth_error_In _ _ E). rewrite E. split; [|split].
    + intros h' I'. rewrite (increasing_unique tbl token h (Some h') S I I'). reflexivity.
    + intros I'. rewrite (increasing_unique tbl token h None S I I'). reflexivity.
    + intro NI. exfalso. exact (NI h I).
  - split; [|split; [|reflexivity]].
    + intros h I. apply In_nth_error in I. destruct I as (i & E). exfalso. exact (X i _ E).
    + intros I. apply In_nth_error in I. destruct I as (i & E). exfalso. exact (X i _ E).
Qed.

(** ** Dispatch *)
Lemma tok_end_found f : forall pre r post d fuel, no_nul f -> d <> 0%N -> ~ In d f -> (length f < fuel)%nat ->
  tok_end fuel (obj pre (f ++ d :: r) post) (length pre) [d] = Ok (obj pre (f ++ 0%N :: r) post, (length pre + S (length f))%nat).
Proof.
  induction f as [|c f IH]; intros pre r post d [|fuel] Hn Hz Hd Hf; try (cbn in Hf; lia); cbn [tok_end].
  - cbn [app]. rewrite ld_obj_cons. cbn [bind]. destruct (N.eqb_spec d 0); [contradiction|]. rewrite in_delim1, N.eqb_refl.
    rewrite obj_cons'. rewrite st_app. cbn [bind]. rewrite obj_cons'. cbn [length]. rewrite Nat.add_1_r. reflexivity.
  - apply no_nul_cons in Hn. destruct Hn as [Hc Hn]. cbn [app]. rewrite ld_obj_cons. cbn [bind].
    destruct (N.eqb_spec c 0); [contradiction|]. rewrite in_delim1. destruct (N.eqb_spec c d) as [->|NE]; [exfalso; apply Hd; left; reflexivity|].
    rewrite obj_cons. specialize (IH (pre ++ [c]) r post d fuel Hn Hz). rewrite len_snoc in IH. rewrite IH; [|intro I; apply Hd; right; exact I|cbn in Hf; lia].
    rewrite <- obj_cons. cbn [length]. replace (S (length pre) + S (length f))%nat with (length pre + S (S (length f)))%nat by lia. reflexivity.
Qed.
Lemma st_obj_nul pre f r post v : Bytes.st (obj pre (f ++ 0%N :: r) post) (length pre + length f) v = Ok (obj pre (f ++ v :: r) post).
Proof.
  unfold obj. rewrite <- !app_assoc, !(app_assoc pre f). rewrite <- app_length. cbn [app]. apply st_app.
Qed.

Definition alloc_ok (alloc : nat -> option (list N)) : Prop := forall n d, alloc n = Some d -> length d = n.

Lemma prefix_m_obj s : no_nul s -> at_len_ok s ->
  (prefix_form s -> ATIsPrefixPresent_m (s ++ [0%N]) 0 = Ok (AT_SUCCESS, Some true)) /\
  (~ prefix_form s -> ATIsPrefixPresent_m (s ++ [0%N]) 0 = Ok (AT_SUCCESS, Some false)).
Proof.
  intros NN LO. destruct (prefix_present_exact [] s [] NN) as (st & r & E & [(_ & -> & b & -> & B)|(X & _)]); [|contradiction].
  change (obj [] s []) with (s ++ [0%N]) in E. change (length []) with 0%nat in E.
  split; intro P; rewrite E; [|assert (b <> true) by tauto]; destruct b; try reflexivity; [exfalso; apply (proj2 B) in P; discriminate|congruence].
Qed.

Lemma urc_dispatch alloc (tbl : list urc_entry) pre post name payload d :
  increasing (map fst tbl) -> alloc_ok alloc ->
  let line := 43%N :: name ++ 58%N :: payload in
  no_nul line -> at_len_ok line -> name <> [] -> Forall prefix_char name -> alloc (length line + 1)%nat = Some d ->
  (forall h, In (name, Some h) tbl -> processUrcPacket alloc tbl (obj pre line post) (length pre) = Ok (PKT_OK, [CallHandler h payload])) /\
  (In (name, None) tbl -> processUrcPacket alloc tbl (obj pre line post) (length pre) = Ok (PKT_FAILURE, [])) /\
  ((forall h, ~ In (name, h) tbl) -> processUrcPacket alloc tbl (obj pre line post) (length pre) = Ok (PKT_OK, [CallGeneric line])).
Proof.
  intros SO A line NN LO NE PC AL. unfold processUrcPacket.
  destruct (dup_exact alloc pre line post NN A) as (D & _ & _). rewrite (D LO d AL). cbn [bind].
  destruct (prefix_m_obj line NN LO) as [P _]. rewrite P by (exists name, payload; split; [reflexivity|exact PC]). cbn [bind snd].
  assert (NN2 := NN). apply no_nul_cons in NN2. destruct NN2 as [_ NN2]. apply no_nul_app in NN2. destruct NN2 as [NN3 NN4]. apply no_nul_cons in NN4. destruct NN4 as [_ NN4].
  assert (NC : ~ In 58%N name).
  { intro I. rewrite Forall_forall in PC. specialize (PC _ I). unfold prefix_char in PC. lia. }
  assert (ST : strtok_r (line ++ [0%N]) 1 [chCOLON] = Ok (Some 1%nat, obj [43%N] (name ++ 0%N :: payload) [], (1 + S (length name))%nat)).
  { unfold strtok_r. change (line ++ [0%N]) with (obj [43%N] (name ++ 58%N :: payload) []).
    set (m := obj [43%N] (name ++ 58%N :: payload) []).
    assert (E1 : strspn_m (S (length m)) m (length [43%N]) [chCOLON] = Ok (Some (length [43%N]))).
    { unfold m. destruct name as [|c name']; [congruence|]. cbn [app]. apply strspn_first; [apply no_nul_cons in NN3; tauto| |lia].
      intros ->. apply NC. left. reflexivity. }
    assert (E2 : tok_end (S (length m)) m (length [43%N]) [chCOLON] = Ok (obj [43%N] (name ++ 0%N :: payload) [], (length [43%N] + S (length name))%nat)).
    { unfold m at 2. apply tok_end_found; [exact NN3|discriminate|exact NC|]. unfold m. rewrite obj_len, app_length. cbn [length]. lia. }
    change (length [43%N]) with 1%nat in E1, E2. rewrite E1. cbn [bind]. rewrite E2. reflexivity. }
  rewrite ST. cbn [bind].
  assert (T1 : cstr_at (obj [43%N] (name ++ 0%N :: payload) []) 1 = Ok name).
  { unfold cstr_at. rewrite obj_nul. change 1%nat with (length [43%N]). rewrite cstr_get_obj by exact NN3. reflexivity. }
  assert (T2 : cstr_at (obj [43%N] (name ++ 0%N :: payload) []) (1 + S (length name)) = Ok payload).
  { unfold cstr_at. replace (obj [43%N] (name ++ 0%N :: payload) []) with (obj (43%N :: name ++ [0%N]) payload []).
    2: { unfold obj. cbn [app]. rewrite <- !app_assoc. reflexivity. }
    replace (1 + S (length name))%nat with (length (43%N :: name ++ [0%N])) by (cbn [length]; rewrite app_length; cbn [length]; lia).
    rewrite cstr_get_obj by exact NN4. reflexivity. }
  rewrite T1, T2. cbn [bind].
  destruct (get_handler_spec tbl name payload SO) as (H1 & H2 & H3). split; [|split].
  - intros h I. rewrite (H1 h I). reflexivity.
  - intros I. rewrite (H2 I). reflexivity.
  - intros NI. rewrite (H3 NI). cbn [bind fst snd Nat.add].
    replace (S (length name)) with (length [43%N] + length name)%nat by reflexivity. rewrite st_obj_nul. cbn [bind].
    change (obj [43%N] (name ++ chCOLON :: payload) []) with (obj [] line []). unfold cstr_at.
    change 0%nat with (length (@nil N)). rewrite cstr_get_obj by exact NN. reflexivity.
Qed.

Lemma urc_no_prefix alloc (tbl : list urc_entry) pre post line d :
  increasing (map fst tbl) -> alloc_ok alloc -> no_nul line -> at_len_ok line -> ~ prefix_form line -> alloc (length line + 1)%nat = Some d ->
  (forall h, In (line, Some h) tbl -> processUrcPacket alloc tbl (obj pre line post) (length pre) = Ok (PKT_OK, [CallHandler h line])) /\
  (In (line, None) tbl -> processUrcPacket alloc tbl (obj pre line post) (length pre) = Ok (PKT_FAILURE, [])) /\
  ((forall h, ~ In (line, h) tbl) -> processUrcPacket alloc tbl (obj pre line post) (length pre) = Ok (PKT_OK, [CallGeneric line])).
Proof.
  intros S A NN LO NP AL. unfold processUrcPacket.
  destruct (dup_exact alloc pre line post NN A) as (D & _ & _). rewrite (D LO d AL). cbn [bind].
  destruct (prefix_m_obj line NN LO) as [_ P]. rewrite P by exact NP. cbn [bind snd].
  assert (T : cstr_at (line ++ [0%N]) 0 = Ok line).
  { unfold cstr_at. change (line ++ [0%N]) with (obj [] line []). change 0%nat with (length (@nil N)). rewrite cstr_get_obj by exact NN. reflexivity. }
  rewrite T. cbn [bind]. destruct (get_handler_spec tbl line line S) as (H1 & H2 & H3). split; [|split].
  - intros h I. rewrite (H1 h I). reflexivity.
  - intros I. rewrite (H2 I). reflexivity.
  - intros NI. rewrite (H3 NI). cbn [bind fst snd]. rewrite T. reflexivity.
Qed.

Lemma urc_dropped alloc tbl pre post line : alloc_ok alloc -> no_nul line -> ~ at_len_ok line \/ alloc (length line + 1)%nat = None ->
  processUrcPacket alloc tbl (obj pre line post) (length pre) = Ok (PKT_FAILURE, []).
Proof.
  intros A NN H. unfold processUrcPacket. destruct (dup_exact alloc pre line post NN A) as (_ & D1 & D2).
  assert (LO : at_len_ok line \/ ~ at_len_ok line).
  { unfold at_len_ok. destruct line; [right; intros [Q _]; congruence|]. destruct (N.le_gt_cases (N.of_nat (length (n :: line))) 256); [left|right]; [split; [discriminate|assumption]|lia]. }
  destruct LO as [LO|LO]; [destruct H as [H|H]; [contradiction|]; rewrite (D1 LO H); reflexivity|rewrite (D2 LO); reflexivity].
Qed.

(** Pointer-level model of /repo/source/cellular_at_core.c.

    The string lives inside an object (a byte array) [m]; a [char *] into it is an offset.  Every byte
    access is bounds checked: leaving the object, or going through NULL, yields [UB]; exhausting the
    loop fuel yields [Diverge].  Status-only NULL-argument checks are in AtCore.v. *)
From Coq Require Import List NArith ZArith Bool.
From Verif Require Import Bytes AtCore.
Import ListNotations.

(** memchr(p, '\0', n): reads byte after byte until the NUL is found (ISO C 7.24.5.1). *)
Fixpoint memchr0 (m : list N) (p : nat) (n : nat) : res (option nat) :=
  match n with
  | O => Ok None
  | S k => do c <- ld m p; if (c =? 0)%N then Ok (Some p) else memchr0 m (S p) k
  end.

(** cellular_at_core.c:67-92 validateString *)
Definition validateString_m (m : list N) (p : nat) : res strval :=
  do r <- memchr0 m p (N.to_nat (AT_MAX_STRING_SIZE + 1));
  match r with
  | Some q => if (q =? p)%nat then Ok SV_EMPTY else Ok SV_VALID
  | None => Ok SV_TOO_LARGE
  end.

(** Common shape of all entry points: validate, then run [k] or return BAD_PARAMETER with [d]. *)
Definition validated {A} (m : list N) (p : nat) (d : at_status -> A) (k : res A) : res A :=
  do v <- validateString_m m p;
  match v with SV_VALID => k | _ => Ok (d AT_BAD_PARAMETER) end.

(** strchr / strlen over the object. *)
Fixpoint strchr_m (fuel : nat) (m : list N) (p : nat) (c : N) : res (option nat) :=
  match fuel with
  | O => Diverge
  | S f => do x <- ld m p;
           if (x =? c)%N then Ok (Some p)
           else if (x =? 0)%N then Ok None else strchr_m f m (S p) c
  end.
(** C library strlen on memory: a scan that leaves the block is UB. *)
Fixpoint strlen_m (fuel : nat) (m : list N) (p : nat) : res nat :=
  match fuel with
  | O => Diverge
  | S f => do x <- ld m p;
           if (x =? 0)%N then Ok O else do n <- strlen_m f m (S p); Ok (S n)
  end.

(** cellular_at_core.c:134-153 *)
Fixpoint prefix_loop_m (fuel : nat) (m : list N) (p q : nat) : res bool :=
  match fuel with
  | O => Diverge
  | S f => if (p <? q)%nat then
             do c <- ld m p;
             if CHECK_IS_PREFIX_CHAR c then Ok false else prefix_loop_m f m (S p) q
           else Ok true
  end.

(** cellular_at_core.c:96-159 Cellular_ATIsPrefixPresent ([None] = *pResult not written). *)
Definition ATIsPrefixPresent_m (m : list N) (p : nat) : res (at_status * option bool) :=
  validated m p (fun e => (e, None))
   (do q <- strchr_m (S (length m)) m p chCOLON;
    match q with
    | None => Ok (AT_SUCCESS, Some false)
    | Some q =>
        do c <- ld m p;
        if negb (IS_PREFIX_LEADING_CHAR c) then Ok (AT_SUCCESS, Some false)
        else do b <- prefix_loop_m (S (length m)) m p q; Ok (AT_SUCCESS, Some b)
    end).

(** cellular_at_core.c:197-211, two objects: [m] at [p] is the string, [k] at [q] the prefix. *)
Fixpoint startwith_loop_m (fuel : nat) (m : list N) (p : nat) (k : list N) (q : nat) : res bool :=
  match fuel with
  | O => Diverge
  | S f => do x <- ld k q;
           if (x =? 0)%N then Ok true
           else do y <- ld m p;
                if negb (x =? y)%N then Ok false else startwith_loop_m f m (S p) k (S q)
  end.

(** cellular_at_core.c:163-215 Cellular_ATStrStartWith *)
Definition ATStrStartWith_m (m : list N) (p : nat) (k : list N) (q : nat) : res (at_status * option bool) :=
  validated m p (fun e => (e, None))
    (validated k q (fun e => (e, None))
      (do b <- startwith_loop_m (S (length k)) m p k q; Ok (AT_SUCCESS, Some b))).

(** cellular_at_core.c:219-259 Cellular_ATRemovePrefix (second result: *ppString, None = NULL). *)
Definition ATRemovePrefix_m (m : list N) (p : nat) : res (at_status * option nat) :=
  validated m p (fun e => (e, Some p))
   (do q <- strchr_m (S (length m)) m p chCOLON;
    match q with
    | None => Ok (AT_BAD_PARAMETER, None)
    | Some q => Ok (AT_SUCCESS, Some (S q))
    end).

(** cellular_at_core.c:292-295 *)
Fixpoint lead_loop_m (fuel : nat) (m : list N) (p : nat) : res nat :=
  match fuel with
  | O => Diverge
  | S f => do c <- ld m p;
           if negb (c =? 0)%N && isspace c then lead_loop_m f m (S p) else Ok p
  end.

(** cellular_at_core.c:263-299 Cellular_ATRemoveLeadingWhiteSpaces *)
Definition ATRemoveLeadingWhiteSpaces_m (m : list N) (p : nat) : res (at_status * nat) :=
  validated m p (fun e => (e, p)) (do q <- lead_loop_m (S (length m)) m p; Ok (AT_SUCCESS, q)).

(** cellular_at_core.c:335-345 do { --q } while( q > pString && isspace( *q ) ); [q] is one past. *)
Fixpoint trail_loop_m (fuel : nat) (m : list N) (p q : nat) : res nat :=
  match fuel with
  | O => Diverge
  | S f => let q' := (q - 1)%nat in
           if (p <? q')%nat then
             do c <- ld m q'; if isspace c then trail_loop_m f m p q' else Ok q'
           else Ok q'
  end.

(** cellular_at_core.c:303-352 Cellular_ATRemoveTrailingWhiteSpaces *)
Definition ATRemoveTrailingWhiteSpaces_m (m : list N) (p : nat) : res (at_status * list N) :=
  validated m p (fun e => (e, m))
   (do n <- strlen_m (S (length m)) m p;
    if (2 <? n)%nat then
      do q <- trail_loop_m (S (length m)) m p (p + n);
      do m' <- st m (S q) 0%N; Ok (AT_SUCCESS, m')
    else Ok (AT_SUCCESS, m)).

(** cellular_at_core.c:383-401 / 488-499: in-place filtering; [src] scans, [dst] is &p[ind]. *)
Fixpoint filter_loop_m (fuel : nat) (drop : N -> bool) (m : list N) (dst src : nat) : res (list N) :=
  match fuel with
  | O => Diverge
  | S f => do c <- ld m src;
           if (c =? 0)%N then st m dst 0%N
           else if drop c then filter_loop_m f drop m dst (S src)
                else do m' <- st m dst c; filter_loop_m f drop m' (S dst) (S src)
  end.

(** cellular_at_core.c:356-405 Cellular_ATRemoveAllWhiteSpaces *)
Definition ATRemoveAllWhiteSpaces_m (m : list N) (p : nat) : res (at_status * list N) :=
  validated m p (fun e => (e, m))
   (do m' <- filter_loop_m (S (length m)) isspace m p p; Ok (AT_SUCCESS, m')).

(** cellular_at_core.c:461-503 Cellular_ATRemoveAllDoubleQuote *)
Definition ATRemoveAllDoubleQuote_m (m : list N) (p : nat) : res (at_status * list N) :=
  validated m p (fun e => (e, m))
   (do m' <- filter_loop_m (S (length m)) (fun c => (c =? chDQ)%N) m p p; Ok (AT_SUCCESS, m')).

(** cellular_at_core.c:409-457 Cellular_ATRemoveOutermostDoubleQuote (results: *ppString, memory). *)
Definition ATRemoveOutermostDoubleQuote_m (m : list N) (p : nat) : res (at_status * nat * list N) :=
  validated m p (fun e => (e, p, m))
   (do n <- strlen_m (S (length m)) m p;
    if (2 <? n)%nat then
      do c <- ld m p;
      let p1 := if (c =? chDQ)%N then S p else p in
      do n1 <- strlen_m (S (length m)) m p1;
      let e := (p1 + n1 - 1)%nat in
      do l <- ld m e;
      if (l =? chDQ)%N then do m' <- st m e 0%N; Ok (AT_SUCCESS, p1, m')
      else Ok (AT_SUCCESS, p1, m)
    else Ok (AT_SUCCESS, p, m)).

(** Membership in a delimiter string (strspn/strcspn inside strtok). *)
Definition in_delim (d : str) (c : N) : bool := existsb (N.eqb c) d.

(** strtok(p, d), first phase: skip delimiters; None = end of string reached (strtok returns NULL). *)
Fixpoint strspn_m (fuel : nat) (m : list N) (p : nat) (d : str) : res (option nat) :=
  match fuel with
  | O => Diverge
  | S f => do c <- ld m p;
           if (c =? 0)%N then Ok None
           else if in_delim d c then strspn_m f m (S p) d else Ok (Some p)
  end.
(** second phase: find the end of the token and overwrite the delimiter with NUL. *)
Fixpoint strcspn_m (fuel : nat) (m : list N) (p : nat) (d : str) : res (list N) :=
  match fuel with
  | O => Diverge
  | S f => do c <- ld m p;
           if (c =? 0)%N then Ok m
           else if in_delim d c then st m p 0%N else strcspn_m f m (S p) d
  end.
(** C library strtok_r on memory, as called by Cellular_ATGetSpecificNextTok (cellular_at_core.c:528-585). *)
Definition strtok_m (m : list N) (p : nat) (d : str) : res (option nat * list N) :=
  do t <- strspn_m (S (length m)) m p d;
  match t with
  | None => Ok (None, m)
  | Some t => do m' <- strcspn_m (S (length m)) m t d; Ok (Some t, m')
  end.

(** cellular_at_core.c:528-585 Cellular_ATGetSpecificNextTok with an arbitrary delimiter string [d];
    results: status, memory, *ppString, *ppTokOutput.  strlen(NULL) (line 570 when strtok returned
    NULL) is [UB]. *)
Definition ATGetSpecificNextTok_m (m : list N) (p : nat) (d : str)
  : res (at_status * list N * nat * option nat) :=
  validated m p (fun e => (e, m, p, None))
   (do dataStrlen <- strlen_m (S (length m)) m p;
    do c <- ld m p;
    do tm <- (if (c =? hd 0%N d)%N then do m' <- st m p 0%N; Ok (Some p, m') else strtok_m m p d);
    match tm with
    | (None, _) => UB
    | (Some tok, m1) =>
        do tokStrLen <- strlen_m (S (length m1)) m1 tok;
        if (tokStrLen <? dataStrlen)%nat then
          do c2 <- ld m1 (p + tokStrLen + 1);
          if negb (c2 =? 0)%N then Ok (AT_SUCCESS, m1, (tok + tokStrLen + 1)%nat, Some tok)
          else Ok (AT_SUCCESS, m1, (tok + tokStrLen)%nat, Some tok)
        else Ok (AT_SUCCESS, m1, (tok + tokStrLen)%nat, Some tok)
    end).

(** The callers' loop around Cellular_ATGetNextTok / Cellular_ATGetSpecificNextTok (e.g.
    cellular_3gpp_urc_handler.c:784-822, cellular_3gpp_api.c:2982-3006): call until it fails.  Returns
    the token pointers in order and the final memory. *)
Fixpoint tokens_m (fuel : nat) (m : list N) (p : nat) (d : str) : res (list nat * list N) :=
  match fuel with
  | O => Diverge
  | S f => do r <- ATGetSpecificNextTok_m m p d;
           match r with
           | (AT_SUCCESS, m1, p1, Some t) => do q <- tokens_m f m1 p1 d; Ok (t :: fst q, snd q)
           | (_, m1, _, _) => Ok ([], m1)
           end
  end.

(** cellular_at_core.c:653-669: for i in 0..strHexLen-1, source at offset p, destination [d]. *)
Fixpoint hex_loop_m (n : nat) (m : list N) (p : nat) (d : list N) (i : nat) : res (list N) :=
  match n with
  | O => Ok d
  | S k => do c1 <- ld m p; do c2 <- ld m (S p);
           do d' <- st d i (hex_byte c1 c2);
           hex_loop_m k m (S (S p)) d' (S i)
  end.

(** cellular_at_core.c:614-673 Cellular_ATHexStrToHex; [d] is the destination object, [hexDataLen]
    the length the caller claims for it. *)
Definition ATHexStrToHex_m (m : list N) (p : nat) (d : list N) (hexDataLen : N) : res (at_status * list N) :=
  validated m p (fun e => (e, d))
   (do n <- strlen_m (S (length m)) m p;
    let strHexLen := Nat.div n 2 in
    if (hexDataLen <=? N.of_nat strHexLen)%N then Ok (AT_NO_MEMORY, d)
    else do d' <- hex_loop_m strHexLen m p d 0; Ok (AT_SUCCESS, d')).

(** cellular_at_core.c:701-715 *)
Fixpoint digit_loop_m (fuel : nat) (m : list N) (p : nat) (r : bool) : res bool :=
  match fuel with
  | O => Diverge
  | S f => do c <- ld m p;
           if (c =? 0)%N then Ok r
           else digit_loop_m f m (S p) (if isdigit c then r else false)
  end.
(** cellular_at_core.c:677-719 Cellular_ATIsStrDigit *)
Definition ATIsStrDigit_m (m : list N) (p : nat) : res (at_status * option bool) :=
  validated m p (fun e => (e, None))
   (do b <- digit_loop_m (S (length m)) m p true; Ok (AT_SUCCESS, Some b)).

(** cellular_at_core.c:798-805: copy loop into the fresh object [d]. *)
Fixpoint dup_loop_m (fuel : nat) (m : list N) (p : nat) (d : list N) (i : nat) : res (list N) :=
  match fuel with
  | O => Diverge
  | S f => do c <- ld m p;
           if (c =? 0)%N then st d i 0%N
           else do d' <- st d i c; dup_loop_m f m (S p) d' (S i)
  end.
(** cellular_at_core.c:767-814 Cellular_ATStrDup.  [alloc] is Platform_Malloc: given a size it returns
    a fresh object of that size (arbitrary content) or NULL. *)
Definition ATStrDup_m (alloc : nat -> option (list N)) (m : list N) (p : nat)
  : res (at_status * option (list N)) :=
  validated m p (fun e => (e, None))
   (do n <- strlen_m (S (length m)) m p;
    match alloc (S n) with
    | None => Ok (AT_NO_MEMORY, None)
    | Some d => do d' <- dup_loop_m (S (length m)) m p d 0; Ok (AT_SUCCESS, Some d')
    end).

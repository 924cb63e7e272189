(** Content-level model of /repo/source/cellular_at_core.c.

    A [char *] argument is an [option str] ([None] = NULL, [Some s] = pointer to the C string with
    content [s]).  Output pointers are [option] cells: [None] = NULL pointer, [Some v] = cell holding
    [v]; the returned cell shows what the callee wrote.  The pointer/buffer view of the same functions
    (in-place edits, bounds) is modelled separately in AtMem.v and connected to this file there. *)
From Coq Require Import String List NArith ZArith Bool.
From Verif Require Import Bytes.
Import ListNotations.

(** /repo/source/include/common/cellular_at_core.h:67-76 CellularATError_t *)
Inductive at_status :=
| AT_SUCCESS | AT_BAD_PARAMETER | AT_NO_MEMORY | AT_UNSUPPORTED | AT_MODEM_ERROR | AT_ERROR | AT_UNKNOWN.

(** /repo/source/include/cellular_config_defaults.h:451-453 CELLULAR_AT_MAX_STRING_SIZE (default) *)
Definition AT_MAX_STRING_SIZE : N := 256.

(** /repo/source/cellular_at_core.c:51-57 CellularATStringValidationResult_t *)
Inductive strval := SV_VALID | SV_EMPTY | SV_TOO_LARGE.

(** /repo/source/cellular_at_core.c:67-92 validateString (memchr over MAX+1 bytes). *)
Definition validateString (s : str) : strval :=
  match s with
  | [] => SV_EMPTY
  | _ => if (AT_MAX_STRING_SIZE <? N.of_nat (length s))%N then SV_TOO_LARGE else SV_VALID
  end.

(** cellular_at_core.c:67-92 validateString gave STRING_VALID. *)
Definition is_valid (s : str) : bool :=
  match validateString s with SV_VALID => true | _ => false end.

(** /repo/source/include/cellular_config_defaults.h:418-420 (default definition) *)
Definition IS_PREFIX_LEADING_CHAR (c : N) : bool := (c =? chPLUS)%N.

(** /repo/source/include/cellular_config_defaults.h:435-441 (default definition; despite its name the
    macro is true for characters that may NOT occur in a prefix). *)
Definition CHECK_IS_PREFIX_CHAR (c : N) : bool :=
  negb (isalpha c) && negb (isdigit c) && negb (c =? chUNDER)%N && negb (IS_PREFIX_LEADING_CHAR c).

(** cellular_at_core.c:134-153, the for loop over the characters before the ':' . *)
Fixpoint prefix_loop (s : str) (n : nat) {struct n} : bool :=
  match n, s with
  | O, _ => true
  | S k, c :: t => if CHECK_IS_PREFIX_CHAR c then false else prefix_loop t k
  | S _, [] => true
  end.

(** cellular_at_core.c:96-159 Cellular_ATIsPrefixPresent *)
Definition ATIsPrefixPresent (pString : option str) (pResult : option bool) : at_status * option bool :=
  match pString, pResult with
  | Some s, Some _ =>
      if is_valid s then
        match strchr s chCOLON with
        | None => (AT_SUCCESS, Some false)
        | Some n =>
            if negb (IS_PREFIX_LEADING_CHAR (hd 0%N s)) then (AT_SUCCESS, Some false)
            else (AT_SUCCESS, Some (prefix_loop s n))
        end
      else (AT_BAD_PARAMETER, pResult)
  | _, _ => (AT_BAD_PARAMETER, pResult)
  end.

(** cellular_at_core.c:197-211, the while loop.  Running into the terminator of the first string is a
    mismatch because the prefix character is not NUL. *)
Fixpoint startwith_loop (s p : str) {struct p} : bool :=
  match p with
  | [] => true
  | x :: p' => match s with
               | [] => false
               | y :: s' => if (x =? y)%N then startwith_loop s' p' else false
               end
  end.

(** cellular_at_core.c:163-215 Cellular_ATStrStartWith *)
Definition ATStrStartWith (pString pPrefix : option str) (pResult : option bool) : at_status * option bool :=
  match pString, pPrefix, pResult with
  | Some s, Some p, Some _ =>
      if is_valid s && is_valid p then (AT_SUCCESS, Some (startwith_loop s p))
      else (AT_BAD_PARAMETER, pResult)
  | _, _, _ => (AT_BAD_PARAMETER, pResult)
  end.

(** cellular_at_core.c:219-259 Cellular_ATRemovePrefix: argument and second result are *ppString. *)
Definition ATRemovePrefix (ppString : option str) : at_status * option str :=
  match ppString with
  | Some s =>
      if is_valid s then
        match strchr s chCOLON with
        | None => (AT_BAD_PARAMETER, None)        (* *ppString is left NULL, line 246-250 *)
        | Some n => (AT_SUCCESS, Some (skipn (S n) s))
        end
      else (AT_BAD_PARAMETER, ppString)
  | None => (AT_BAD_PARAMETER, None)
  end.

(** cellular_at_core.c:263-299 Cellular_ATRemoveLeadingWhiteSpaces *)
Definition ATRemoveLeadingWhiteSpaces (ppString : option str) : at_status * option str :=
  match ppString with
  | Some s => if is_valid s then (AT_SUCCESS, Some (skip_spaces s)) else (AT_BAD_PARAMETER, ppString)
  | None => (AT_BAD_PARAMETER, None)
  end.

(** cellular_at_core.c:335-347: starting from the end, step back while p > pString and *p is a space;
    [n] is the index of p; the result is the index of the last kept character. *)
Fixpoint trail_loop (s : str) (n : nat) : nat :=
  match n with
  | O => O
  | S k => if isspace (nth n s 0%N) then trail_loop s k else n
  end.

(** cellular_at_core.c:303-352 Cellular_ATRemoveTrailingWhiteSpaces *)
Definition ATRemoveTrailingWhiteSpaces (pString : option str) : at_status * option str :=
  match pString with
  | Some s =>
      if is_valid s then
        if (2 <? length s)%nat then (AT_SUCCESS, Some (firstn (S (trail_loop s (length s - 1))) s))
        else (AT_SUCCESS, Some s)
      else (AT_BAD_PARAMETER, pString)
  | None => (AT_BAD_PARAMETER, None)
  end.

(** cellular_at_core.c:383-401: copy every character for which [drop] is false. *)
Fixpoint filter_loop (drop : N -> bool) (s : str) : str :=
  match s with
  | [] => []
  | c :: t => if drop c then filter_loop drop t else c :: filter_loop drop t
  end.

(** cellular_at_core.c:356-405 Cellular_ATRemoveAllWhiteSpaces *)
Definition ATRemoveAllWhiteSpaces (pString : option str) : at_status * option str :=
  match pString with
  | Some s => if is_valid s then (AT_SUCCESS, Some (filter_loop isspace s)) else (AT_BAD_PARAMETER, pString)
  | None => (AT_BAD_PARAMETER, None)
  end.

(** cellular_at_core.c:409-457 Cellular_ATRemoveOutermostDoubleQuote *)
Definition ATRemoveOutermostDoubleQuote (ppString : option str) : at_status * option str :=
  match ppString with
  | Some s =>
      if is_valid s then
        if (2 <? length s)%nat then
          let s1 := match s with c :: t => if (c =? chDQ)%N then t else s | [] => s end in
          let s2 := if (last s1 0%N =? chDQ)%N then removelast s1 else s1 in
          (AT_SUCCESS, Some s2)
        else (AT_SUCCESS, Some s)
      else (AT_BAD_PARAMETER, ppString)
  | None => (AT_BAD_PARAMETER, None)
  end.

(** cellular_at_core.c:461-503 Cellular_ATRemoveAllDoubleQuote *)
Definition ATRemoveAllDoubleQuote (pString : option str) : at_status * option str :=
  match pString with
  | Some s => if is_valid s then (AT_SUCCESS, Some (filter_loop (fun c => (c =? chDQ)%N) s))
              else (AT_BAD_PARAMETER, pString)
  | None => (AT_BAD_PARAMETER, None)
  end.

(** strtok(s, d) for a one-character delimiter on a string that does not start with it: the prefix
    before the first delimiter. *)
Fixpoint take_until (d : N) (s : str) : str :=
  match s with
  | [] => []
  | c :: t => if (c =? d)%N then [] else c :: take_until d t
  end.

(** cellular_at_core.c:528-585 Cellular_ATGetSpecificNextTok for one-character delimiter strings (every
    call in the library uses one: "," "/" ":" "+" "-"); delimiters of other lengths are in AtMem.v.
    Arguments: *ppString, the delimiter; results: status, new *ppString, *ppTokOutput ([None] = not
    written). *)
Definition ATGetSpecificNextTok (ppString : option str) (d : N)
  : at_status * option str * option str :=
  match ppString with
  | Some s =>
      if is_valid s then
        let tok := if (hd 0%N s =? d)%N then [] else take_until d s in
        let n := length tok in
        let rest := if (n <? length s)%nat && negb (nth (S n) s 0%N =? 0)%N
                    then skipn (S n) s else [] in
        (AT_SUCCESS, Some rest, Some tok)
      else (AT_BAD_PARAMETER, ppString, None)
  | None => (AT_BAD_PARAMETER, None, None)
  end.

(** cellular_at_core.c:507-524 Cellular_ATGetNextTok *)
Definition ATGetNextTok (ppString : option str) : at_status * option str * option str :=
  ATGetSpecificNextTok ppString chCOMMA.

(** cellular_at_core.c:589-610 _charToNibble *)
Definition charToNibble (c : N) : N :=
  (if (48 <=? c) && (c <=? 57) then c - 48
   else if (97 <=? c) && (c <=? 102) then c - 97 + 10
   else if (65 <=? c) && (c <=? 70) then c - 65 + 10
   else 255)%N.

(** cellular_at_core.c:653-669, one iteration's byte. *)
Definition hex_byte (c1 c2 : N) : N :=
  let f := charToNibble c1 in
  let s := charToNibble c2 in
  if (f =? 255)%N then f else N.lor ((f * 16) mod 256) s.

(** cellular_at_core.c:677-719 Cellular_ATIsStrDigit *)
Definition ATIsStrDigit (pString : option str) (pResult : option bool) : at_status * option bool :=
  match pString, pResult with
  | Some s, Some _ =>
      if is_valid s then (AT_SUCCESS, Some (fold_left (fun r c => if isdigit c then r else false) s true))
      else (AT_BAD_PARAMETER, pResult)
  | _, _ => (AT_BAD_PARAMETER, pResult)
  end.

(** cellular_at_core.c:752-759: the for loop with its uint8_t counter [i] against a size_t bound.
    [fuel] bounds the number of iterations ([Diverge] when exhausted). *)
Fixpoint checkErrorCode_loop (fuel : nat) (i : N) (line : str) (keys : list str) : res bool :=
  match fuel with
  | O => Diverge
  | S f =>
      if (i <? N.of_nat (length keys))%N then
        match nth_error keys (N.to_nat i) with
        | None => UB
        | Some k =>
            match ATStrStartWith (Some line) (Some k) (Some false) with
            | (AT_SUCCESS, Some true) => Ok true
            | _ => checkErrorCode_loop f ((i + 1) mod 256)%N line keys
            end
        end
      else Ok false
  end.

(** cellular_at_core.c:723-763 Cellular_ATcheckErrorCode.  [keys = None] is a NULL table; a NULL
    entry behaves like an empty one (BAD_PARAMETER from ATStrStartWith, no match). *)
Definition ATcheckErrorCode (fuel : nat) (pInputBuf : option str) (keys : option (list str))
           (pResult : option bool) : res (at_status * option bool) :=
  match pInputBuf, keys, pResult with
  | Some s, Some ks, Some _ =>
      if is_valid s then
        do r <- checkErrorCode_loop fuel 0 s ks; Ok (AT_SUCCESS, Some r)
      else Ok (AT_BAD_PARAMETER, pResult)
  | _, _, _ => Ok (AT_BAD_PARAMETER, pResult)
  end.

(** cellular_at_core.c:818-858 Cellular_ATStrtoi, [bits] = width of long. *)
Definition ATStrtoi (bits : Z) (pStr : option str) (base : N) (pResult : option Z) : at_status * option Z :=
  match pStr, pResult with
  | Some s, Some _ =>
      match strtol bits s base with
      | None => (AT_ERROR, pResult)
      | Some v => (AT_SUCCESS, Some (to_int32 v))
      end
  | _, _ => (AT_BAD_PARAMETER, pResult)
  end.

(** The caller's loop around Cellular_ATGetNextTok used throughout the library
    (e.g. cellular_3gpp_urc_handler.c:784-822, cellular_3gpp_api.c:2982-3006): all tokens until the
    function fails.  [fuel] bounds the number of calls. *)
Fixpoint tokens (fuel : nat) (s : option str) : list str :=
  match fuel with
  | O => []
  | S f => match ATGetNextTok s with
           | (AT_SUCCESS, rest, Some t) => t :: tokens f rest
           | _ => []
           end
  end.

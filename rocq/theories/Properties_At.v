(** Property theorems about the AT string utilities (cellular_at_core.c): C01-C13.
    Memory-level statements: the string [s] sits in an object [obj pre s post] (bytes [pre], the string, its NUL,
    bytes [post]); [Ok] means every access stayed inside the object. *)
From Coq Require Import String List NArith ZArith Bool Lia.
Local Open Scope string_scope.
Local Open Scope list_scope.
From Verif Require Import Bytes AtCore AtMem SpecAt AtProofs AtProofs2 AtProofs3 AtProofs4.
Import ListNotations.

Ltac fa := cbn; repeat first [apply Forall_nil | apply Forall_cons | apply Forall2_nil | apply Forall2_cons].

(** C01 *)
Theorem c01_prefix_present_exact : forall pre s post, no_nul s ->
  exists st r, ATIsPrefixPresent_m (obj pre s post) (length pre) = Ok (st, r) /\
  ((at_len_ok s /\ st = AT_SUCCESS /\ exists b, r = Some b /\ (b = true <-> prefix_form s))
   \/ (~ at_len_ok s /\ st = AT_BAD_PARAMETER /\ r = None)).
Proof. exact prefix_present_exact. Qed.
Print Assumptions c01_prefix_present_exact.
Example c01_ex : no_nul (s2b "+CREG: 1") /\ at_len_ok (s2b "+CREG: 1") /\ prefix_form (s2b "+CREG: 1").
Proof.
  split; [vm_compute; intuition discriminate|]. split; [split; [discriminate|vm_compute; discriminate]|].
  exists (s2b "CREG"), (s2b " 1"). split; [reflexivity|]. fa; unfold prefix_char; lia.
Qed.

(** C02 *)
Theorem c02_starts_with_exact : forall pre s post kpre p kpost, no_nul s -> no_nul p ->
  exists st r, ATStrStartWith_m (obj pre s post) (length pre) (obj kpre p kpost) (length kpre) = Ok (st, r) /\
  ((at_len_ok s /\ at_len_ok p /\ st = AT_SUCCESS /\ exists b, r = Some b /\ (b = true <-> is_prefix_of p s))
   \/ (~ (at_len_ok s /\ at_len_ok p) /\ st = AT_BAD_PARAMETER /\ r = None)).
Proof. exact startwith_exact. Qed.
Print Assumptions c02_starts_with_exact.
Example c02_ex : ATStrStartWith_m (obj [] (s2b "+CM") []) 0 (obj [] (s2b "+CME ERROR") []) 0 = Ok (AT_SUCCESS, Some false)
  /\ ATStrStartWith_m (obj [] (s2b "+CME ERROR: 3") []) 0 (obj [] (s2b "+CME ERROR") []) 0 = Ok (AT_SUCCESS, Some true).
Proof. vm_compute. auto. Qed.

(** C03 *)
Theorem c03_remove_prefix_exact : forall pre s post, no_nul s ->
  (forall a b, at_len_ok s -> s = a ++ 58%N :: b -> ~ In 58%N a ->
     exists q, ATRemovePrefix_m (obj pre s post) (length pre) = Ok (AT_SUCCESS, Some q) /\
               cstr_get (obj pre s post) q = Some b) /\
  (~ (at_len_ok s /\ In 58%N s) ->
     exists q, ATRemovePrefix_m (obj pre s post) (length pre) = Ok (AT_BAD_PARAMETER, q)).
Proof. exact removeprefix_exact. Qed.
Print Assumptions c03_remove_prefix_exact.
Example c03_ex : s2b "+CSQ: 12,99" = s2b "+CSQ" ++ 58%N :: s2b " 12,99" /\ ~ In 58%N (s2b "+CSQ").
Proof. split; [reflexivity|vm_compute; intuition discriminate]. Qed.

(** C04 *)
Theorem c04_remove_all_spaces_exact : forall pre s post, no_nul s ->
  (at_len_ok s -> exists t, without space_char s t /\ no_nul t /\
     ATRemoveAllWhiteSpaces_m (obj pre s post) (length pre)
       = Ok (AT_SUCCESS, pre ++ overlay (t ++ [0%N]) (s ++ [0%N]) ++ post)) /\
  (~ at_len_ok s -> ATRemoveAllWhiteSpaces_m (obj pre s post) (length pre) = Ok (AT_BAD_PARAMETER, obj pre s post)).
Proof. exact remove_spaces_exact. Qed.
Print Assumptions c04_remove_all_spaces_exact.

Theorem c04_remove_all_quotes_exact : forall pre s post, no_nul s ->
  (at_len_ok s -> exists t, without (eq 34%N) s t /\ no_nul t /\
     ATRemoveAllDoubleQuote_m (obj pre s post) (length pre)
       = Ok (AT_SUCCESS, pre ++ overlay (t ++ [0%N]) (s ++ [0%N]) ++ post)) /\
  (~ at_len_ok s -> ATRemoveAllDoubleQuote_m (obj pre s post) (length pre) = Ok (AT_BAD_PARAMETER, obj pre s post)).
Proof. exact remove_quotes_exact. Qed.
Print Assumptions c04_remove_all_quotes_exact.

(** the overlaid string is the new content and the object keeps its size *)
Theorem c04_overlay_is_the_string : forall pre t s post, no_nul t -> (length t <= length s)%nat ->
  cstr_get (pre ++ overlay (t ++ [0%N]) (s ++ [0%N]) ++ post) (length pre) = Some t
  /\ length (pre ++ overlay (t ++ [0%N]) (s ++ [0%N]) ++ post) = length (obj pre s post).
Proof. exact overlay_string. Qed.
Print Assumptions c04_overlay_is_the_string.

Theorem c04_remove_leading_spaces_exact : forall pre s post, no_nul s ->
  (at_len_ok s -> exists a t, s = a ++ t /\ Forall space_char a /\
      (forall c t', t = c :: t' -> ~ space_char c) /\
      exists q, ATRemoveLeadingWhiteSpaces_m (obj pre s post) (length pre) = Ok (AT_SUCCESS, q) /\
                cstr_get (obj pre s post) q = Some t) /\
  (~ at_len_ok s -> ATRemoveLeadingWhiteSpaces_m (obj pre s post) (length pre) = Ok (AT_BAD_PARAMETER, length pre)).
Proof. exact lead_exact. Qed.
Print Assumptions c04_remove_leading_spaces_exact.
Example c04_ex : ATRemoveAllWhiteSpaces_m (obj [7%N] (s2b " 1, 2 ") [9%N]) 1
   = Ok (AT_SUCCESS, [7; 49; 44; 50; 0; 50; 32; 0; 9]%N).
Proof. vm_compute. reflexivity. Qed.

(** C05: full property refuted, exact part below *)
Theorem c05_trailing_spaces_refuted : exists s : str, no_nul s /\ at_len_ok s /\
  exists m' r c, ATRemoveTrailingWhiteSpaces_m (obj [] s []) 0 = Ok (AT_SUCCESS, m') /\
     cstr_get m' 0 = Some (r ++ [c]) /\ space_char c.
Proof. exact trailing_refuted. Qed.
Print Assumptions c05_trailing_spaces_refuted.

(** missing: strings of length 1 or 2 and strings made of white space only *)
Theorem c05_trailing_spaces_partial : forall pre s post, no_nul s ->
  (forall t c w, at_len_ok s -> (2 < length s)%nat ->
     s = t ++ c :: w -> ~ space_char c -> Forall space_char w ->
     exists m', ATRemoveTrailingWhiteSpaces_m (obj pre s post) (length pre) = Ok (AT_SUCCESS, m') /\
       m' = pre ++ overlay (t ++ [c; 0%N]) (s ++ [0%N]) ++ post /\
       cstr_get m' (length pre) = Some (t ++ [c])) /\
  (~ at_len_ok s -> ATRemoveTrailingWhiteSpaces_m (obj pre s post) (length pre) = Ok (AT_BAD_PARAMETER, obj pre s post)) /\
  (exists st m', ATRemoveTrailingWhiteSpaces_m (obj pre s post) (length pre) = Ok (st, m')
       /\ length m' = length (obj pre s post) /\ firstn (length pre) m' = pre
       /\ skipn (length pre + length s + 1) m' = post).
Proof. exact trailing_partial. Qed.
Print Assumptions c05_trailing_spaces_partial.
Example c05_ex : s2b "ab  " = s2b "a" ++ 98%N :: s2b "  " /\ ~ space_char 98 /\ Forall space_char (s2b "  ").
Proof. split; [reflexivity|]. split; [unfold space_char; lia|]. fa; unfold space_char; lia. Qed.

(** C06: the empty quoted string is left as it is; every non-empty quoted text is handled exactly *)
Theorem c06_outermost_quotes_refuted : exists s : str, no_nul s /\ at_len_ok s /\ s = 34%N :: [] ++ [34%N] /\
  exists q m', ATRemoveOutermostDoubleQuote_m (obj [] s []) 0 = Ok (AT_SUCCESS, q, m') /\ cstr_get m' q <> Some [].
Proof. exact outer_dq_refuted. Qed.
Print Assumptions c06_outermost_quotes_refuted.

(** missing: the quoted empty string *)
Theorem c06_outermost_quotes_partial : forall pre s post, no_nul s ->
  (forall t, at_len_ok s -> (1 <= length t)%nat -> s = 34%N :: t ++ [34%N] ->
     exists q m', ATRemoveOutermostDoubleQuote_m (obj pre s post) (length pre) = Ok (AT_SUCCESS, q, m') /\
       cstr_get m' q = Some t /\ m' = pre ++ [34%N] ++ t ++ [0%N; 0%N] ++ post) /\
  (forall c t e, at_len_ok s -> s = c :: t ++ [e] -> c <> 34%N -> e <> 34%N ->
       ATRemoveOutermostDoubleQuote_m (obj pre s post) (length pre) = Ok (AT_SUCCESS, length pre, obj pre s post)) /\
  (~ at_len_ok s -> ATRemoveOutermostDoubleQuote_m (obj pre s post) (length pre)
                    = Ok (AT_BAD_PARAMETER, length pre, obj pre s post)) /\
  (exists st q m' a b r, ATRemoveOutermostDoubleQuote_m (obj pre s post) (length pre) = Ok (st, q, m') /\
       cstr_get m' q = Some r /\ s = a ++ r ++ b /\ (a = [] \/ a = [34%N]) /\ (b = [] \/ b = [34%N])
       /\ length m' = length (obj pre s post) /\ firstn (length pre) m' = pre
       /\ skipn (length pre + length s + 1) m' = post).
Proof. exact outer_dq_exact. Qed.
Print Assumptions c06_outermost_quotes_partial.
Example c06_ex : ATRemoveOutermostDoubleQuote_m (obj [] (34%N :: s2b "ab" ++ [34%N]) []) 0
   = Ok (AT_SUCCESS, 1%nat, 34%N :: s2b "ab" ++ [0; 0]%N).
Proof. vm_compute. reflexivity. Qed.

(** C07 (pointer level: the token pointers and the final memory; every token is still readable at the end) *)
Theorem c07_tokens_are_the_fields : forall d, d <> 0%N -> forall l pre post fuel,
  Forall (fun f => ~ In d f /\ no_nul f) l -> (N.of_nat (length (join d l)) <= 256)%N ->
  (length l < fuel)%nat ->
  exists offs mf, tokens_m fuel (obj pre (join d l) post) (length pre) [d] = Ok (offs, mf) /\
    map (cstr_get mf) offs = map Some (reported_fields l) /\
    firstn (length pre) mf = pre /\ skipn (length pre + length (join d l) + 1) mf = post
    /\ length mf = length (obj pre (join d l) post).
Proof. exact tokens_m_gen. Qed.
Print Assumptions c07_tokens_are_the_fields.
Example c07_ex : join 44 [s2b "1"; []; s2b "AB"; []] = s2b "1,,AB," /\
  reported_fields [s2b "1"; []; s2b "AB"; []] = [s2b "1"; []; s2b "AB"] /\
  tokens_m 9 (obj [] (s2b "1,,AB,") []) 0 [44%N] = Ok ([0; 2; 3]%nat, [49; 0; 0; 65; 66; 0; 0]%N).
Proof. vm_compute. auto. Qed.

(** C08: refuted for delimiter strings of two characters; safe for one-character ones (the only ones the library uses) *)
Theorem c08_tokenizer_safety_refuted : exists (s d : str), no_nul s /\ no_nul d /\ at_len_ok s /\ d <> [] /\
  ATGetSpecificNextTok_m (obj [] s []) 0 d = UB.
Proof. exact multichar_delim_refuted. Qed.
Print Assumptions c08_tokenizer_safety_refuted.

(** missing: delimiter strings of more than one character *)
Theorem c08_tokenizer_safety_partial : forall pre s post d, no_nul s -> d <> 0%N ->
  exists st m' p' t, ATGetSpecificNextTok_m (obj pre s post) (length pre) [d] = Ok (st, m', p', t) /\
    ATGetSpecificNextTok (Some s) d = (st, cstr_get m' p', match t with Some q => cstr_get m' q | None => None end) /\
    length m' = length (obj pre s post).
Proof. exact tok_refines. Qed.
Print Assumptions c08_tokenizer_safety_partial.
Example c08_ex : ATGetSpecificNextTok_m (obj [] (s2b "a/b") []) 0 [47%N] = Ok (AT_SUCCESS, [97;0;98;0]%N, 2%nat, Some 0%nat).
Proof. vm_compute. reflexivity. Qed.

(** C09 *)
Theorem c09_hex_decoding_exact : forall pre s post d hexDataLen, no_nul s -> (hexDataLen <= N.of_nat (length d))%N ->
  (forall bs, hex_decodes s bs -> at_len_ok s -> (N.of_nat (length s / 2) < hexDataLen)%N ->
     ATHexStrToHex_m (obj pre s post) (length pre) d hexDataLen = Ok (AT_SUCCESS, overlay bs d)) /\
  (at_len_ok s -> (hexDataLen <= N.of_nat (length s / 2))%N ->
     ATHexStrToHex_m (obj pre s post) (length pre) d hexDataLen = Ok (AT_NO_MEMORY, d)) /\
  (~ at_len_ok s -> ATHexStrToHex_m (obj pre s post) (length pre) d hexDataLen = Ok (AT_BAD_PARAMETER, d)) /\
  (exists bs, hex_decodes s bs /\ length bs = (length s / 2)%nat).
Proof. exact hex_exact. Qed.
Print Assumptions c09_hex_decoding_exact.
Theorem c09_hex_text_decodes_to_its_bytes : forall u bs, Forall (fun b => (b < 256)%N) bs -> hex_decodes (hex_text u bs) bs.
Proof. exact hex_text_decodes. Qed.
Print Assumptions c09_hex_text_decodes_to_its_bytes.
Example c09_ex : ATHexStrToHex_m (obj [] (hex_text true [0; 171; 255]%N) []) 0 [1;2;3;4;5]%N 4 = Ok (AT_SUCCESS, [0;171;255;4;5]%N)
  /\ ATHexStrToHex_m (obj [] (s2b "1g") []) 0 [1;2]%N 2 = Ok (AT_SUCCESS, [255;2]%N).
Proof. vm_compute. auto. Qed.

(** C10 *)
Theorem c10_digit_check_exact : forall pre s post, no_nul s ->
  exists st r, ATIsStrDigit_m (obj pre s post) (length pre) = Ok (st, r) /\
  ((at_len_ok s /\ st = AT_SUCCESS /\ exists b, r = Some b /\ (b = true <-> Forall digit_char s))
   \/ (~ at_len_ok s /\ st = AT_BAD_PARAMETER /\ r = None)).
Proof. exact digit_exact. Qed.
Print Assumptions c10_digit_check_exact.
Example c10_ex : ATIsStrDigit_m (obj [] (s2b "0123456789") []) 0 = Ok (AT_SUCCESS, Some true)
  /\ ATIsStrDigit_m (obj [] (s2b "12a3") []) 0 = Ok (AT_SUCCESS, Some false).
Proof. vm_compute. auto. Qed.

(** C11: refuted (never terminates) for tables of 256 entries; exact up to 255 *)
Theorem c11_keyword_table_refuted : exists line keys, at_len_ok line /\ Forall at_len_ok keys /\
  (forall k, In k keys -> ~ is_prefix_of k line) /\
  forall fuel r, ATcheckErrorCode fuel (Some line) (Some keys) (Some r) = Diverge.
Proof. exact check_refuted. Qed.
Print Assumptions c11_keyword_table_refuted.
Theorem c11_keyword_table_diverges : forall line keys r, at_len_ok line -> (256 <= N.of_nat (length keys))%N ->
  (forall k, In k keys -> ~ is_prefix_of k line) ->
  forall fuel, ATcheckErrorCode fuel (Some line) (Some keys) (Some r) = Diverge.
Proof. exact check_diverges. Qed.
Print Assumptions c11_keyword_table_diverges.
(** missing: tables of 256 and more entries *)
Theorem c11_keyword_table_partial : forall line keys r, (length keys <= 255)%nat ->
  (at_len_ok line -> exists b, (forall fuel, (length keys < fuel)%nat ->
        ATcheckErrorCode fuel (Some line) (Some keys) (Some r) = Ok (AT_SUCCESS, Some b)) /\
     (b = true <-> exists k, In k keys /\ at_len_ok k /\ is_prefix_of k line)) /\
  (~ at_len_ok line -> forall fuel, ATcheckErrorCode fuel (Some line) (Some keys) (Some r) = Ok (AT_BAD_PARAMETER, Some r)).
Proof. exact check_partial. Qed.
Print Assumptions c11_keyword_table_partial.
Example c11_ex : ATcheckErrorCode 9 (Some (s2b "+CME ERROR: 10")) (Some [s2b "OK"; s2b "+CME ERROR"]) (Some false)
   = Ok (AT_SUCCESS, Some true).
Proof. vm_compute. reflexivity. Qed.

(** C12 *)
Theorem c12_strdup_exact : forall alloc pre s post, no_nul s -> (forall n d, alloc n = Some d -> length d = n) ->
  (at_len_ok s -> forall d, alloc (length s + 1)%nat = Some d ->
     ATStrDup_m alloc (obj pre s post) (length pre) = Ok (AT_SUCCESS, Some (s ++ [0%N]))) /\
  (at_len_ok s -> alloc (length s + 1)%nat = None ->
     ATStrDup_m alloc (obj pre s post) (length pre) = Ok (AT_NO_MEMORY, None)) /\
  (~ at_len_ok s -> ATStrDup_m alloc (obj pre s post) (length pre) = Ok (AT_BAD_PARAMETER, None)).
Proof. exact dup_exact. Qed.
Print Assumptions c12_strdup_exact.
Example c12_ex : ATStrDup_m (fun n => Some (repeat 170%N n)) (obj [] (s2b "abc") []) 0 = Ok (AT_SUCCESS, Some [97;98;99;0]%N).
Proof. vm_compute. reflexivity. Qed.

(** C13: refuted outside int32; exact inside; error without a numeral *)
Theorem c13_integer_parsing_refuted : exists s v, starts_with_numeral 10 s v /\ ~ int32_range v /\
  forall bits, bits = 32%Z \/ bits = 64%Z -> exists w, ATStrtoi bits (Some s) 10 (Some 0%Z) = (AT_SUCCESS, Some w) /\ w <> v.
Proof. exact strtoi_refuted. Qed.
Print Assumptions c13_integer_parsing_refuted.
(** missing: numerals outside int32 *)
Theorem c13_integer_parsing_partial : forall bits base s v r, (32 <= bits)%Z -> starts_with_numeral base s v -> int32_range v ->
  ATStrtoi bits (Some s) base (Some r) = (AT_SUCCESS, Some v).
Proof. exact strtoi_exact. Qed.
Print Assumptions c13_integer_parsing_partial.
Theorem c13_no_numeral_is_an_error : forall bits base s r, no_numeral base s -> ATStrtoi bits (Some s) base (Some r) = (AT_ERROR, Some r).
Proof. exact strtoi_error. Qed.
Print Assumptions c13_no_numeral_is_an_error.
Example c13_ex : starts_with_numeral 10 (s2b " -123") (-123) /\ starts_with_numeral 16 (s2b "1aF,7") 431 /\ no_numeral 10 (s2b "+x1").
Proof.
  split; [|split].
  - exists [32%N], [45%N], (s2b "123"), [1;2;3]%N, []. repeat split; auto; try discriminate.
    + fa; unfold space_char; lia.
    + fa; unfold alnum_value; lia.
    + fa; lia.
  - exists [], [], (s2b "1aF"), [1;10;15]%N, (s2b ",7"). repeat split; auto; try discriminate.
    + fa; unfold alnum_value; lia.
    + fa; lia.
    + right. exists 44%N, (s2b "7"). split; [reflexivity|]. intros [d Hd]. unfold alnum_value in Hd. lia.
  - intros sp sg c d tl E Hsp Hsg Hd. destruct sp as [|x sp]; [|inversion Hsp; subst; cbn in E; injection E as <- _; unfold space_char in *; lia].
    cbn in E. destruct Hsg as [->|[->| ->]]; cbn in E; injection E; intros; subst; unfold alnum_value in Hd; lia.
Qed.

(** NULL arguments are rejected without touching the outputs (all entry points). *)
Theorem c01_c13_null_arguments_rejected : forall (pb : option bool) (pz : option Z) (s : option str) b fuel ks base d,
  ATIsPrefixPresent None pb = (AT_BAD_PARAMETER, pb) /\ ATIsPrefixPresent s None = (AT_BAD_PARAMETER, None) /\
  ATStrStartWith None s pb = (AT_BAD_PARAMETER, pb) /\ ATStrStartWith s None pb = (AT_BAD_PARAMETER, pb) /\
  ATStrStartWith s s None = (AT_BAD_PARAMETER, None) /\
  ATRemovePrefix None = (AT_BAD_PARAMETER, None) /\ ATRemoveLeadingWhiteSpaces None = (AT_BAD_PARAMETER, None) /\
  ATRemoveTrailingWhiteSpaces None = (AT_BAD_PARAMETER, None) /\ ATRemoveAllWhiteSpaces None = (AT_BAD_PARAMETER, None) /\
  ATRemoveOutermostDoubleQuote None = (AT_BAD_PARAMETER, None) /\ ATRemoveAllDoubleQuote None = (AT_BAD_PARAMETER, None) /\
  ATGetSpecificNextTok None d = (AT_BAD_PARAMETER, None, None) /\
  ATIsStrDigit None pb = (AT_BAD_PARAMETER, pb) /\ ATIsStrDigit s None = (AT_BAD_PARAMETER, None) /\
  ATcheckErrorCode fuel None ks pb = Ok (AT_BAD_PARAMETER, pb) /\ ATcheckErrorCode fuel s None pb = Ok (AT_BAD_PARAMETER, pb) /\
  ATStrtoi b None base pz = (AT_BAD_PARAMETER, pz) /\ ATStrtoi b s base None = (AT_BAD_PARAMETER, None).
Proof. exact null_rejected. Qed.
Print Assumptions c01_c13_null_arguments_rejected.

(** The string-level model of these functions, used by the models of the response parsers, agrees with the memory-level one: for every
    string in memory the status is the same and the string left in memory, or found at the pointer returned, is the string computed. *)
Theorem c01_c10_string_level_agrees : forall pre s post kpre k kpost d (r : bool), no_nul s -> no_nul k -> d <> 0%N ->
  (exists st x, ATIsPrefixPresent_m (obj pre s post) (length pre) = Ok (st, x) /\
     ATIsPrefixPresent (Some s) (Some r) = (st, match x with Some b => Some b | None => Some r end)) /\
  (exists st x, ATStrStartWith_m (obj pre s post) (length pre) (obj kpre k kpost) (length kpre) = Ok (st, x) /\
     ATStrStartWith (Some s) (Some k) (Some r) = (st, match x with Some b => Some b | None => Some r end)) /\
  (exists st q, ATRemovePrefix_m (obj pre s post) (length pre) = Ok (st, q) /\
     ATRemovePrefix (Some s) = (st, match q with Some q => cstr_get (obj pre s post) q | None => None end)) /\
  (exists st m', ATRemoveAllWhiteSpaces_m (obj pre s post) (length pre) = Ok (st, m') /\
     ATRemoveAllWhiteSpaces (Some s) = (st, cstr_get m' (length pre))) /\
  (exists st m', ATRemoveAllDoubleQuote_m (obj pre s post) (length pre) = Ok (st, m') /\
     ATRemoveAllDoubleQuote (Some s) = (st, cstr_get m' (length pre))) /\
  (exists st q, ATRemoveLeadingWhiteSpaces_m (obj pre s post) (length pre) = Ok (st, q) /\
     ATRemoveLeadingWhiteSpaces (Some s) = (st, cstr_get (obj pre s post) q)) /\
  (exists st m', ATRemoveTrailingWhiteSpaces_m (obj pre s post) (length pre) = Ok (st, m') /\
     ATRemoveTrailingWhiteSpaces (Some s) = (st, cstr_get m' (length pre))) /\
  (exists st q m', ATRemoveOutermostDoubleQuote_m (obj pre s post) (length pre) = Ok (st, q, m') /\
     ATRemoveOutermostDoubleQuote (Some s) = (st, cstr_get m' q)) /\
  (exists st x, ATIsStrDigit_m (obj pre s post) (length pre) = Ok (st, x) /\
     ATIsStrDigit (Some s) (Some r) = (st, match x with Some b => Some b | None => Some r end)) /\
  (exists st m' p' t, ATGetSpecificNextTok_m (obj pre s post) (length pre) [d] = Ok (st, m', p', t) /\
     ATGetSpecificNextTok (Some s) d = (st, cstr_get m' p', match t with Some q => cstr_get m' q | None => None end)).
Proof.
  intros pre s post kpre k kpost d r Hs Hk Hd.
  split; [now apply agree_prefix|]. split; [now apply agree_startwith|]. split; [now apply agree_removeprefix|]. split; [now apply agree_allws|].
  split; [now apply agree_alldq|]. split; [now apply agree_lead|]. split; [now apply agree_trail|]. split; [now apply agree_outer|]. split; [now apply agree_digit|].
  destruct (tok_refines pre s post d Hs Hd) as (st & m' & p' & t & E1 & E2 & _). exists st, m', p', t. split; assumption.
Qed.
Print Assumptions c01_c10_string_level_agrees.

(** Specification vocabulary for the AT string utilities; independent of the model. *)
From Coq Require Import List NArith ZArith Bool.
From Verif Require Import Bytes.
Import ListNotations.

(** Length accepted by the AT core functions. *)
Definition at_len_ok (s : str) : Prop := s <> [] /\ (N.of_nat (length s) <= 256)%N.

(** An object in memory whose bytes are [pre], then the C string [s] with its terminator, then [post]. *)
Definition obj (pre s post : list N) : list N := pre ++ s ++ 0%N :: post.
Definition no_nul (s : list N) : Prop := ~ In 0%N s.

(** Characters allowed in a response prefix: letters, digits, '_' and '+'. *)
Definition prefix_char (c : N) : Prop :=
  (97 <= c <= 122 \/ 65 <= c <= 90 \/ 48 <= c <= 57 \/ c = 95 \/ c = 43)%N.

(** '+' w ':' rest with w made of prefix characters. *)
Definition prefix_form (s : str) : Prop :=
  exists w rest, s = 43%N :: w ++ 58%N :: rest /\ Forall prefix_char w.

Definition is_prefix_of (p s : str) : Prop := exists r, s = p ++ r.

(** White space of the C locale. *)
Definition space_char (c : N) : Prop := (9 <= c <= 13 \/ c = 32)%N.
Definition digit_char (c : N) : Prop := (48 <= c <= 57)%N.

(** [keep P s t]: t is s with exactly the characters satisfying [P] removed, order kept. *)
Inductive without (P : N -> Prop) : str -> str -> Prop :=
| without_nil : without P [] []
| without_drop c s t : P c -> without P s t -> without P (c :: s) t
| without_keep c s t : ~ P c -> without P s t -> without P (c :: s) (c :: t).

(** [overlay w l]: the bytes of [w] written over the beginning of [l]. *)
Definition overlay (w l : list N) : list N := w ++ skipn (length w) l.

(** Joining fields with a one-character separator. *)
Fixpoint join (d : N) (l : list str) : str :=
  match l with
  | [] => []
  | [f] => f
  | f :: t => f ++ d :: join d t
  end.

(** The fields a caller gets: all of them, except that one final empty field is not reported. *)
Definition reported_fields (l : list str) : list str :=
  match last l [0%N] with [] => removelast l | _ => l end.

(** Value of a hexadecimal digit character. *)
Definition hex_char (c v : N) : Prop :=
  (48 <= c <= 57 /\ v = c - 48 \/ 97 <= c <= 102 /\ v = c - 87 \/ 65 <= c <= 70 /\ v = c - 55)%N.
(** The bytes denoted by a text read two characters at a time; a pair with a character that is not a
    hexadecimal digit denotes 255, a final single character denotes nothing. *)
Inductive hex_decodes : str -> list N -> Prop :=
| hd_nil : hex_decodes [] []
| hd_one c : hex_decodes [c] []
| hd_good c1 c2 v1 v2 s bs : hex_char c1 v1 -> hex_char c2 v2 -> hex_decodes s bs ->
    hex_decodes (c1 :: c2 :: s) ((16 * v1 + v2)%N :: bs)
| hd_bad c1 c2 s bs : (~ exists v, hex_char c1 v) \/ (~ exists v, hex_char c2 v) -> hex_decodes s bs ->
    hex_decodes (c1 :: c2 :: s) (255%N :: bs).

(** Hexadecimal text of a byte sequence, high nibble first (upper or lower case letters). *)
Definition hex_digit (upper : bool) (n : N) : N :=
  (if n <? 10 then 48 + n else if upper then 55 + n else 87 + n)%N.
Definition hex_text (upper : bool) (bs : list N) : str :=
  flat_map (fun b => [hex_digit upper (b / 16); hex_digit upper (b mod 16)])%N bs.

(** Value of a digit or letter as a digit (0..35). *)
Definition alnum_value (c v : N) : Prop :=
  (48 <= c <= 57 /\ v = c - 48 \/ 97 <= c <= 122 /\ v = c - 87 \/ 65 <= c <= 90 /\ v = c - 55)%N.

(** Value of a digit sequence in a base, most significant digit first. *)
Fixpoint numeral_value (base : Z) (ds : list N) : Z :=
  match ds with
  | [] => 0
  | d :: t => Z.of_N d * base ^ Z.of_nat (length t) + numeral_value base t
  end.

(** [s] starts (after white space) with an optionally signed numeral of value [v] in [base], followed by
    nothing or by a character that is neither a digit nor a letter. *)
Definition starts_with_numeral (base : N) (s : str) (v : Z) : Prop :=
  exists sp sg cs ds tl,
    s = sp ++ sg ++ cs ++ tl /\ Forall space_char sp /\
    cs <> [] /\ Forall2 alnum_value cs ds /\ Forall (fun d => (d < base)%N) ds /\
    (tl = [] \/ exists c t, tl = c :: t /\ ~ exists d, alnum_value c d) /\
    ((sg = [] \/ sg = [43%N]) /\ v = numeral_value (Z.of_N base) ds \/
     sg = [45%N] /\ v = - numeral_value (Z.of_N base) ds)%Z.

(** [s] has no digit of [base] after optional white space and an optional sign. *)
Definition no_numeral (base : N) (s : str) : Prop :=
  forall sp sg c d tl, s = sp ++ sg ++ c :: tl -> Forall space_char sp ->
    (sg = [] \/ sg = [43%N] \/ sg = [45%N]) -> alnum_value c d -> (base <= d)%N.

Definition int32_range (v : Z) : Prop := (- 2 ^ 31 <= v < 2 ^ 31)%Z.

(** Bytes, C strings, <ctype.h> (C locale), strtol and bounds-checked memory.

    Everything here models the C library / C abstract machine facilities used by the sources under
    /repo/source, not code of the repository itself. *)
From Coq Require Import String Ascii List NArith ZArith Bool.
Import ListNotations.

(** A byte (an [unsigned char] value).  C [char] values above 127 are represented by their
    unsigned value. *)
Definition byte := N.

(** Content of a C string: the bytes before the terminating NUL. *)
Definition str := list N.

(** Coq string literals as byte strings (used to write AT commands and prefixes readably). *)
Fixpoint s2b (s : string) : str :=
  match s with
  | EmptyString => []
  | String a t => N_of_ascii a :: s2b t
  end.

(** Byte-string equality: models strcmp(a, b) == 0. *)
Fixpoint str_eqb (a b : str) : bool :=
  match a, b with
  | [], [] => true
  | x :: a', y :: b' => N.eqb x y && str_eqb a' b'
  | _, _ => false
  end.

(** Character constants used by the code. *)
Definition chNUL   : N := 0.
(** Line feed. *)
Definition chLF    : N := 10.
(** Carriage return. *)
Definition chCR    : N := 13.
(** Space. *)
Definition chSPACE : N := 32.
Definition chDQ    : N := 34.   (* double quote *)
Definition chPLUS  : N := 43.   (* '+' *)
Definition chCOMMA : N := 44.   (* ',' *)
Definition chMINUS : N := 45.   (* '-' *)
Definition chZERO  : N := 48.   (* '0' *)
Definition chCOLON : N := 58.   (* ':' *)
Definition chUNDER : N := 95.   (* '_' *)

(** A well formed C-string content: bytes 1..255. *)
Definition is_char (c : N) : Prop := (0 < c < 256)%N.
(** The content of a C string: no NUL, bytes only. *)
Definition cstring (s : str) : Prop := Forall is_char s.

(** isspace / isdigit / isalpha in the "C" locale.  For bytes >= 128 a C implementation with signed
    char passes a negative argument, which ISO C leaves undefined; like glibc and newlib we answer
    "no" for them. *)
Definition isspace (c : N) : bool := ((9 <=? c) && (c <=? 13) || (c =? 32))%N.
(** C library isdigit, "C" locale. *)
Definition isdigit (c : N) : bool := ((48 <=? c) && (c <=? 57))%N.
(** C library isupper, "C" locale. *)
Definition isupper (c : N) : bool := ((65 <=? c) && (c <=? 90))%N.
(** C library islower, "C" locale. *)
Definition islower (c : N) : bool := ((97 <=? c) && (c <=? 122))%N.
(** C library isalpha, "C" locale. *)
Definition isalpha (c : N) : bool := isupper c || islower c.

(** strchr: index of the first occurrence of a (non NUL) character. *)
Fixpoint strchr (s : str) (c : N) : option nat :=
  match s with
  | [] => None
  | x :: t => if N.eqb x c then Some 0%nat
              else match strchr t c with Some n => Some (S n) | None => None end
  end.

(** strstr(s, p) restricted to what the code needs: the suffix of [s] starting at the first
    occurrence of [p]. *)
Fixpoint has_prefix (p s : str) : bool :=
  match p, s with
  | [], _ => true
  | x :: p', y :: s' => N.eqb x y && has_prefix p' s'
  | _ :: _, [] => false
  end.
(** C library strstr: the rest of [s] from the first occurrence of [p]. *)
Fixpoint strstr (s p : str) : option str :=
  if has_prefix p s then Some s
  else match s with [] => None | _ :: t => strstr t p end.

(** Value of a digit character in the sense of strtol (0..35). *)
Definition digit_val (c : N) : option N :=
  if isdigit c then Some (c - 48)%N
  else if isupper c then Some (c - 55)%N
  else if islower c then Some (c - 87)%N
  else None.

(** Digits of [s] valid in [base], accumulated most significant first onto [acc]; returns the
    value and the number of digits consumed. *)
Fixpoint strtol_digits (base : N) (s : str) (acc : Z) (n : nat) : Z * nat :=
  match s with
  | [] => (acc, n)
  | c :: t =>
      match digit_val c with
      | Some d => if (d <? base)%N
                  then strtol_digits base t (acc * Z.of_N base + Z.of_N d) (S n)
                  else (acc, n)
      | None => (acc, n)
      end
  end.

(** strtol skips white space first. *)
Fixpoint skip_spaces (s : str) : str :=
  match s with
  | c :: t => if isspace c then skip_spaces t else s
  | [] => []
  end.

(** Optional "0x"/"0X" accepted by strtol in base 16 when a hex digit follows. *)
Definition skip_0x (base : N) (s : str) : str :=
  match s with
  | z :: x :: d :: _ =>
      if (base =? 16)%N && (z =? 48)%N && ((x =? 120)%N || (x =? 88)%N)
         && match digit_val d with Some v => (v <? 16)%N | None => false end
      then tl (tl s) else s
  | _ => s
  end.

(** strtol saturates to LONG_MIN / LONG_MAX. *)
Definition clampZ (lo hi x : Z) : Z := if (x <? lo)%Z then lo else if (hi <? x)%Z then hi else x.

(** strtol for bases 2..36 and a [long] of [bits] bits; [None] = no conversion (endptr == str).
    Saturates at LONG_MIN/LONG_MAX as ISO C prescribes. *)
Definition strtol (bits : Z) (s : str) (base : N) : option Z :=
  let s1 := skip_spaces s in
  let '(neg, s2) := match s1 with
                    | c :: t => if (c =? chMINUS)%N then (true, t)
                                else if (c =? chPLUS)%N then (false, t) else (false, s1)
                    | [] => (false, [])
                    end in
  let '(v, n) := strtol_digits base (skip_0x base s2) 0%Z 0%nat in
  match n with
  | O => None
  | S _ => Some (clampZ (- 2 ^ (bits - 1)) (2 ^ (bits - 1) - 1) (if neg then - v else v)%Z)
  end.

(** Conversion of an integer to int32_t (two's complement wrap-around, as every supported
    compiler does). *)
Definition to_int32 (x : Z) : Z := ((x + 2 ^ 31) mod 2 ^ 32 - 2 ^ 31)%Z.

(** ** Bounds-checked memory *)

(** Outcome of a piece of C code: normal result, undefined behaviour (NULL dereference or access
    outside the object), or loop fuel exhausted (non-termination). *)
Inductive res (A : Type) : Type :=
| Ok (a : A)
| UB
| Diverge.
Arguments Ok {A} a.
Arguments UB {A}.
Arguments Diverge {A}.

(** Sequencing: undefined behaviour and divergence are final. *)
Definition bind {A B} (x : res A) (f : A -> res B) : res B :=
  match x with Ok a => f a | UB => UB | Diverge => Diverge end.
Notation "'do' x <- e ; k" := (bind e (fun x => k)) (at level 200, x pattern, e at level 100, k at level 200).

(** Load / store of one byte of an object. *)
Definition ld (m : list N) (i : nat) : res N :=
  match nth_error m i with Some b => Ok b | None => UB end.

(** A store inside the block. *)
Fixpoint upd (m : list N) (i : nat) (v : N) : list N :=
  match m, i with
  | [], _ => []
  | _ :: t, O => v :: t
  | x :: t, S j => x :: upd t j v
  end.

(** A store of one byte: outside the block it is UB. *)
Definition st (m : list N) (i : nat) (v : N) : res (list N) :=
  if (i <? length m)%nat then Ok (upd m i v) else UB.

(** Content of the C string that starts at offset [p] of object [m]; [None] if there is no NUL
    before the end of the object. *)
Fixpoint cstr_list (m : list N) : option str :=
  match m with
  | [] => None
  | c :: t => if N.eqb c 0 then Some []
              else match cstr_list t with Some s => Some (c :: s) | None => None end
  end.
(** The C string at an address of the block. *)
Definition cstr_get (m : list N) (p : nat) : option str := cstr_list (skipn p m).

(** Vocabulary for "parsing stays inside the text it was given"; independent of the parsers. *)
From Coq Require Import List NArith Bool Arith.
From Verif Require Import Bytes.
Import ListNotations.

(** Byte number [i] of the object belongs to the text [s] stored at [p], terminator included. *)
Definition in_text (p : nat) (s : str) (i : nat) : Prop := p <= i <= p + length s.
(** Two texts do not share a byte. *)
Definition apart (a b : nat * str) : Prop := fst a + length (snd a) < fst b \/ fst b + length (snd b) < fst a.
(** The lines [ls] are stored at [ps] in [m], one after the other or in any other order, without overlapping. *)
Definition stored (m : list N) (ps : list nat) (ls : list str) : Prop :=
  Forall2 (fun p s => cstr_get m p = Some s) ps ls /\ ForallOrdPairs apart (combine ps ls).
Definition in_lines (ps : list nat) (ls : list str) (i : nat) : Prop := exists p s, In (p, s) (combine ps ls) /\ in_text p s i.
(** The object keeps its size, and every byte outside [R] keeps its value. *)
Definition only_changed (R : nat -> Prop) (m m' : list N) : Prop :=
  length m' = length m /\ forall i, ~ R i -> nth_error m' i = nth_error m i.

(** A computation [x] over an object [m] has the outcome [y], and changes [m] only in [R]. *)
Definition does {A} (x : res (A * list N)) (m : list N) (R : nat -> Prop) (y : res A) : Prop :=
  match y with
  | Ok a => exists m', x = Ok (a, m') /\ only_changed R m m'
  | UB => x = UB
  | Diverge => x = Diverge
  end.
(** [x] has no undefined behaviour, ends, and changes [m] only in [R]. *)
Definition within {A} (x : res (A * list N)) (m : list N) (R : nat -> Prop) : Prop :=
  exists a m', x = Ok (a, m') /\ only_changed R m m'.

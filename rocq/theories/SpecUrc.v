(** Specification vocabulary for the URC table. *)
From Coq Require Import List NArith.
From Verif Require Import Bytes.
Import ListNotations.

(** Dictionary order on byte strings: a proper prefix comes first; otherwise the first differing byte decides. *)
Definition str_lt (a b : str) : Prop :=
  (exists c r, b = a ++ c :: r) \/ (exists p x y r1 r2, a = p ++ x :: r1 /\ b = p ++ y :: r2 /\ (x < y)%N).

(** Every name is strictly before every later one. *)
Definition increasing (names : list str) : Prop :=
  forall i j a b, (i < j)%nat -> nth_error names i = Some a -> nth_error names j = Some b -> str_lt a b.

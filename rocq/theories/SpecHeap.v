(** Vocabulary for the memory of the receive path. *)
From Coq Require Import List NArith Bool.
From Verif Require Import Bytes AtCore Status Pktio SpecPktio Heap.
Import ListNotations.

(** Blocks the receive path obtains: responses, their lines, copies of URC texts. *)
Definition receiver_block (c : option cell) : Prop := exists x, c = Some x /\ x <> COther.

(** Only finitely many addresses are in use. *)
Definition finite (h : heap) : Prop := forall p, top h <= p -> h p = None.

(** Platform_Malloc: what it returns is an unused address and not NULL. *)
Definition malloc_contract (alloc : nat -> heap -> option address) : Prop :=
  forall t h p, alloc t h = Some p -> p <> 0 /\ h p = None.
(** It always finds memory. *)
Definition never_fails (alloc : nat -> heap -> option address) : Prop := forall t h, finite h -> alloc t h <> None.
(** Everybody else only touches their own blocks (finitely many). *)
Definition others_contract (others : nat -> heap -> heap) : Prop :=
  forall t h, others t h 0 = h 0 /\ (finite h -> finite (others t h)) /\ forall p, receiver_block (h p) \/ receiver_block (others t h p) -> others t h p = h p.

(** [holds h n]: the receive path holds exactly [n] blocks. *)
Definition holds (h : heap) (n : nat) : Prop :=
  exists l, NoDup l /\ length l = n /\ forall p, receiver_block (h p) <-> In p l.

(** Blocks a response in progress takes: one, and one for each line or payload collected. *)
Definition blocks_of (r : option response) : nat := match r with None => 0 | Some r => S (length (r_items r)) end.

(** For all sufficiently large bounds on list loops. *)
Definition eventually (P : nat -> Prop) : Prop := exists k0, forall k, k0 <= k -> P k.

(** Receiving text and payloads while time passes: at every moment the reader may see another command, prefix or set of callbacks
    (a request is set up, answered, times out, another thread sends the next one). *)
From Coq Require Import List NArith ZArith Bool.
From Verif Require Import Bytes AtCore Status SpecAt Pktio SpecPktio SpecStream.
Import ListNotations.

(** What the reader sees at any one moment is as [stream_env] requires; from one moment to the next it may change in any way. *)
Definition changing_env (env : environment) : Prop := forall t, stream_env (fun _ => env t).

(** Steps of [stream_step], each taken at its own moment between [t] and [t'], in order. *)
Inductive timed_steps (env : environment) : nat -> stream_state -> nat -> stream_state -> Prop :=
| tms_nil t x t' : (t <= t')%nat -> timed_steps env t x t' x
| tms_cons t k x y t' z : (t <= k)%nat -> stream_step (env k) x y -> timed_steps env k y t' z -> timed_steps env t x t' z.

(** A reader of [cap] bytes that is full of unfinished input when the next read comes has lost it. *)
Definition keep (cap : nat) (lft : str) : str := if (length lft =? cap)%nat then [] else lft.

(** What a whole execution makes of the chunks: [a] the items collected for the command in flight, [d] the payload bytes announced and
    not yet complete, [lft] the unfinished input.  Each chunk is worked on, behind what is unfinished, until nothing more can be done
    with what is there; when a line is refused, the rest of its chunk is lost, nothing else. *)
Inductive data_processed (cap : nat) (env : environment) : nat -> list event -> list (list N) -> nat -> str -> list str -> nat -> list event -> Prop :=
| dtp_nil t h a d lft t' : (t <= t')%nat -> data_processed cap env t h a d lft [] t' h
| dtp_empty t h a d lft cs t1 t' h' : (t <= t1)%nat -> data_processed cap env t1 h a d lft cs t' h' -> data_processed cap env t h a d lft ([] :: cs) t' h'
| dtp_chunk t h a d lft c cs k t1 h1 a1 d1 lft1 t' h' : (t <= k)%nat -> (k <= t1)%nat -> c <> [] ->
    timed_steps env t (h, a, d, lft ++ c) k (h1, a1, d1, lft1) -> settled (env k h1) d1 lft1 ->
    data_processed cap env t1 h1 a1 d1 (keep cap lft1) cs t' h' -> data_processed cap env t h a d lft (c :: cs) t' h'
| dtp_refused t h a d lft c cs k h0 a0 l e rest t1 t' h' : (k < t1)%nat ->
    timed_steps env t (h, a, d, lft ++ c) k (h0, a0, 0%nat, l ++ e :: rest) -> l <> [] -> line_text l -> eol e ->
    rejects (env k h0) a0 l -> not_data (env k h0) (l ++ e :: rest) ->
    data_processed cap env t1 (h0 ++ [EvUndef l; EvDrop]) [] 0%nat [] cs t' h' -> data_processed cap env t h a d lft (c :: cs) t' h'.

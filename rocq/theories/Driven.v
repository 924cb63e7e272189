(** The whole request path on bytes (Whole.v) with what drives its reader: the interrupt that the comm interface raises when bytes have
    arrived, the receive callback, the event group's RX_DATA bit, and the reader thread that sleeps in WaitBits and, once awake, reads until
    a read yields nothing (/repo/source/cellular_pktio.c:519-557, 1201-1260).  In Whole.v the reader may read at any time; here it must have
    been woken up.

    Simplifications (besides those of Whole.v): the comm interface is open and the event group exists; ABORT is never requested (shutdown:
    Wakeup.v, Lifecycle.v). *)
From Coq Require Import List NArith ZArith Bool Arith.
From Verif Require Import Bytes AtCore Status SpecAt Pktio SpecPktio SpecStream Request Whole.
From Verif Require Wakeup.
Import ListNotations.

(** Threads, reader and bytes; bytes arrived and the receive callback has not been called since; PKTIO_EVT_MASK_RX_DATA; the reader is in
    its read loop (1233-1236), not blocked in WaitBits (1218). *)
Record driven := { d_whole : whole; d_owed : bool; d_bit : bool; d_awake : bool }.

(** One action of the system. *)
Inductive dlabel :=
| DWhole (lb : wlabel)              (* an action of Whole.v *)
| DCallback (set_ok woken : bool)   (* the comm interface calls the receive callback; did the platform set the bit, did that wake a thread *)
| DWake.                            (* the reader thread leaves WaitBits *)

Section Driven.
Variable cap : nat.          (* PKTIO_READ_BUFFER_SIZE *)
Variable tt : token_table.   (* the token tables registered by the port *)

(** cellular_pktio.c:1174-1197: what _handleRxDataEvent returns, the number of bytes of its _Cellular_ReadLine. *)
Definition bytes_read (k : nat) (w : whole) : res nat :=
  do r <- ReadLine cap (w_rx w) (fun space => firstn (Nat.min k space) (w_fifo w));
  let '(_, bytes, _) := r in Ok bytes.

(** One action: [None] = not possible now, [Some UB] = undefined behaviour.  cellular_pktio.c:519-557, 1215-1242. *)
Definition dexec (lb : dlabel) (d : driven) : option (res driven) :=
  match lb with
  (* 1235-1236: the reader reads if it is awake; nothing read: back to WaitBits *)
  | DWhole (WRead k) =>
      if d_awake d then
        match wexec cap tt (WRead k) (d_whole d) with
        | Some r => Some (do w <- r; do b <- bytes_read k (d_whole d); Ok {| d_whole := w; d_owed := d_owed d; d_bit := d_bit d; d_awake := (0 <? b)%nat |})
        | None => None
        end
      else None
  (* bytes arrive: the comm interface will call the callback *)
  | DWhole (WSend bs g) =>
      match wexec cap tt (WSend bs g) (d_whole d) with
      | Some r => Some (do w <- r; Ok {| d_whole := w; d_owed := match bs with [] => d_owed d | _ => true end; d_bit := d_bit d; d_awake := d_awake d |})
      | None => None
      end
  | DWhole lb =>
      match wexec cap tt lb (d_whole d) with
      | Some r => Some (do w <- r; Ok {| d_whole := w; d_owed := d_owed d; d_bit := d_bit d; d_awake := d_awake d |})
      | None => None
      end
  (* 519-557 *)
  | DCallback ok woken =>
      match snd (Wakeup.PktRxCallBack (Some (d_bit d)) ok woken) with
      | Some b => Some (Ok {| d_whole := d_whole d; d_owed := false; d_bit := b; d_awake := d_awake d |})
      | None => None
      end
  (* 1218-1233: WaitBits clears the bits on exit *)
  | DWake =>
      if negb (d_awake d) && d_bit d then Some (Ok {| d_whole := d_whole d; d_owed := d_owed d; d_bit := false; d_awake := true |}) else None
  end.

(** After library initialisation, with [n] application threads. *)
Definition dinit (n : nat) : driven := {| d_whole := winit cap n; d_owed := false; d_bit := false; d_awake := false |}.

(** Runs whose labels all satisfy [ok] in the state they happen in. *)
Inductive drun (ok : driven -> dlabel -> Prop) : driven -> list dlabel -> driven -> Prop :=
| drun_nil d : drun ok d [] d
| drun_step d lbs d1 lb d2 : drun ok d lbs d1 -> ok d1 lb -> dexec lb d1 = Some (Ok d2) -> drun ok d (lbs ++ [lb]) d2.
End Driven.

(** The modem's bytes, the comm interface's receive callback and the reader thread, as an interleaving system: who wakes the reader
    up, and when it goes back to sleep.

    One label is: bytes arrive in the comm interface; the comm interface calls the receive callback; clean-up asks the reader to
    stop; the reader wakes up; the reader does one read (one call of _handleRxDataEvent, Pktio.v, which reads from the comm interface
    once, at its beginning); the reader has worked on what it read and looks at the number of bytes.

    Simplifications: the comm interface and the event group exist (Lifecycle.v, C80); the events STARTED and ABORTED are not
    used after the start (Lifecycle.v). *)
From Coq Require Import List NArith ZArith Bool Arith.
From Verif Require Import Bytes AtCore Status Pktio.
Import ListNotations.

(** CellularCommInterfaceError_t values the receive callback returns (interface/cellular_comm_interface.h:46-58) *)
Inductive comm_error := COMM_SUCCESS | COMM_BUSY | COMM_BAD_PARAMETER | COMM_FAILURE.

(** cellular_pktio.c:519-557 _Cellular_PktRxCallBack.  [event]: the event group's RX_DATA bit (None: no event group); [set_ok]: did
    PlatformEventGroup_SetBitsFromISR succeed; [woken]: did it wake a thread of higher priority.  Results: what it returns, and the bit. *)
Definition PktRxCallBack (event : option bool) (set_ok woken : bool) : comm_error * option bool :=
  match event with
  | None => (COMM_BAD_PARAMETER, None)
  | Some b => if set_ok then (if woken then COMM_SUCCESS else COMM_BUSY, Some true) else (COMM_FAILURE, Some b)
  end.

(** _pktioReadThread: blocked in WaitBits (1218); at the beginning of the read loop (1235); working on what it read, [k] being what
    _handleRxDataEvent is going to return (1235-1236); left (1244-1259). *)
Inductive rpc := Waiting | Reading | Busy (k : nat) | Stopped.

(** The comm interface, the event group, the reader, its buffer, and ghost history. *)
Record state := {
  fifo : str;              (* bytes the comm interface holds *)
  owed : bool;             (* bytes arrived and the receive callback has not been called since *)
  bit_rx : bool;           (* PKTIO_EVT_MASK_RX_DATA *)
  bit_abort : bool;        (* PKTIO_EVT_MASK_ABORT *)
  reader : rpc;
  rxs : rx;                (* the receive buffer *)
  clock : nat;             (* passes done *)
  hist : list event;       (* what was dispatched *)
  arrived : str;           (* ghost: all bytes that ever arrived *)
  chunks : list str        (* ghost: what each read delivered *)
}.

Section Machine.
Variable cap : nat.
Variable fuel : nat.
Variable env : environment.

(** Before the first byte. *)
Definition init : state := {| fifo := []; owed := false; bit_rx := false; bit_abort := false; reader := Waiting; rxs := rx0 cap;
  clock := 0; hist := []; arrived := []; chunks := [] |}.

(** Arrival of bytes; a call of the receive callback; shutdown; the three steps of the reader. *)
Inductive label := LArrive (bs : str) | LCallback (set_ok woken : bool) | LAbort | LWake | LRead (n : nat) | LDone.

(** What recv hands over: at least one byte if there are any (here [n] more), and at most the space offered. *)
Definition recv_of (f : str) (n : nat) : nat -> str := fun space => firstn (Nat.min (S n) space) f.
(** Space _Cellular_ReadLine offers to recv: cellular_pktio.c:603-626 *)
Definition space (s : rx) : nat :=
  (cap - rx_partial s -
   (if (match rx_ptr s with Some (S _) => true | _ => false end && negb (rx_partial s =? 0)%nat && match rx_resp s with None => true | _ => false end)
    then 0 else match rx_ptr s with Some p => p | None => 0 end))%nat.

(** One step: cellular_pktio.c:519-557, 1201-1260, 1517-1541. *)
Definition step (l : label) (s : state) : option state :=
  match l with
  (* the modem sends; the comm interface will call the callback *)
  | LArrive bs =>
      match bs with
      | [] => None
      | _ => Some {| fifo := fifo s ++ bs; owed := true; bit_rx := bit_rx s; bit_abort := bit_abort s; reader := reader s; rxs := rxs s;
                     clock := clock s; hist := hist s; arrived := arrived s ++ bs; chunks := chunks s |}
      end
  (* the comm interface calls cellular_pktio.c:519-557 *)
  | LCallback ok woken =>
      match snd (PktRxCallBack (Some (bit_rx s)) ok woken) with
      | Some b => Some {| fifo := fifo s; owed := false; bit_rx := b; bit_abort := bit_abort s; reader := reader s; rxs := rxs s;
                          clock := clock s; hist := hist s; arrived := arrived s; chunks := chunks s |}
      | None => None
      end
  (* _Cellular_PktioShutdown, cellular_pktio.c:1523 *)
  | LAbort => Some {| fifo := fifo s; owed := owed s; bit_rx := bit_rx s; bit_abort := true; reader := reader s; rxs := rxs s;
                      clock := clock s; hist := hist s; arrived := arrived s; chunks := chunks s |}
  (* cellular_pktio.c:1218-1228: WaitBits clears the bits on exit; ABORT goes first *)
  | LWake =>
      match reader s with
      | Waiting =>
          if bit_abort s then
            Some {| fifo := fifo s; owed := owed s; bit_rx := false; bit_abort := false; reader := Stopped; rxs := set_resp (rxs s) None;
                    clock := clock s; hist := hist s; arrived := arrived s; chunks := chunks s |}
          else if bit_rx s then
            Some {| fifo := fifo s; owed := owed s; bit_rx := false; bit_abort := false; reader := Reading; rxs := rxs s;
                    clock := clock s; hist := hist s; arrived := arrived s; chunks := chunks s |}
          else None
      | _ => None
      end
  (* cellular_pktio.c:1235 *)
  | LRead n =>
      match reader s with
      | Reading =>
          match handleRxDataEvent cap fuel env (clock s) (hist s) (rxs s) (recv_of (fifo s) n) with
          | Ok (k, t', h', x') =>
              let got := recv_of (fifo s) n (space (rxs s)) in
              Some {| fifo := skipn (length got) (fifo s); owed := owed s; bit_rx := bit_rx s; bit_abort := bit_abort s;
                      reader := Busy k; rxs := x';
                      clock := t'; hist := h'; arrived := arrived s; chunks := chunks s ++ [got] |}
          | _ => None
          end
      | _ => None
      end
  (* cellular_pktio.c:1236 *)
  | LDone =>
      match reader s with
      | Busy k => Some {| fifo := fifo s; owed := owed s; bit_rx := bit_rx s; bit_abort := bit_abort s; reader := if (k =? 0)%nat then Waiting else Reading;
                          rxs := rxs s; clock := clock s; hist := hist s; arrived := arrived s; chunks := chunks s |}
      | _ => None
      end
  end.
End Machine.

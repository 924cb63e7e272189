(** The whole request path on bytes: the application threads and request functions of Request.v (/repo/source/cellular_pkthandler.c),
    the receive buffer and reader loop of Pktio.v (/repo/source/cellular_pktio.c), and the bytes the modem has sent and the comm interface
    has not delivered yet, in one interleaving model.  The reader's pass over a line (cellular_pktio.c:1101-1161) is cut at its accesses
    to the variables it shares with the application threads; these pieces are the functions of Pktio.v.

    What the reader does is decided by the bytes alone: the line it works on, the items of the response and what the response callback
    reads through them come from the receive buffer.  The member [wire] of the threads' state is ghost here: it only says which
    transmission a line answers.

    Simplifications (besides those of Request.v and Pktio.v): no input-buffer, data prefix or data-send prefix callback edits or claims
    bytes (text answers only). *)
From Coq Require Import List NArith ZArith Bool Arith.
From Verif Require Import Bytes AtCore Status SpecAt Pktio SpecPktio SpecStream Request.
Import ListNotations.

(** Where the reader thread is in its loop: outside _handleAllReceived (waiting for input); about to look for a line in the [n] bytes at
    [line] (cellular_pktio.c:1105); working on the line at [line] that ends at offset [i] of the [n] bytes (1130-1150). *)
Inductive place := Waiting | Scanning (line n : nat) | Working (line n i : nat).

(** Threads and shared context; the reader's own members; sent by the modem and not yet delivered; the reader's place. *)
Record whole := { w_core : Request.state; w_rx : rx; w_fifo : list N; w_at : place }.

(** One action of the system. *)
Inductive wlabel :=
| WApp (lb : label)                      (* an application thread: call, next action, time-out, short transmission *)
| WSend (bs : list N) (g : option line)  (* the modem sends bytes; ghost: the line they spell *)
| WRead (k : nat)                        (* the reader reads; the comm interface delivers at most k bytes of those available *)
| WScan                                  (* the reader looks for the next line *)
| WLine (lb : label).                    (* the reader's next action on the line it found, or the return of the handler it called *)

(** Labels of application threads (and the ghost LGiveUp). *)
Definition app_label (lb : label) : bool :=
  match lb with LCall _ _ | LThread _ | LTimeout _ | LSendLost _ | LDataShort _ | LGiveUp _ => true | _ => false end.

(** Ghost: the line with these texts, keeping where the lines came from. *)
Fixpoint retext (ls : list line) (ts : list str) : list line :=
  match ls, ts with
  | l :: ls', t :: ts' => {| l_text := t; l_from := l_from l; l_last := l_last l |} :: retext ls' ts'
  | [], t :: ts' => {| l_text := t; l_from := None; l_last := false |} :: retext [] ts'
  | _, [] => []
  end.

Section Whole.
Variable cap : nat.          (* PKTIO_READ_BUFFER_SIZE *)
Variable tt : token_table.   (* the token tables registered by the port *)

(** cellular_pktio.c:1174-1191, _handleRxDataEvent up to the loop: read, store the terminating NUL. *)
Definition read_bytes (k : nat) (w : whole) : res whole :=
  let recv := fun space => firstn (Nat.min k space) (w_fifo w) in
  let fifo' := skipn (length (recv (offered cap (w_rx w)))) (w_fifo w) in
  do r <- ReadLine cap (w_rx w) recv;
  let '(pl, bytes, s1) := r in
  if (0 <? bytes)%nat then
    match pl with
    | None => UB
    | Some line =>
        do d <- (if negb (rx_dlen s1 =? 0)%nat then handleData (Some line) s1 line bytes else Ok (line, bytes, s1));
        let '(line', lft, s2) := d in
        if (0 <? lft)%nat then
          do m <- st (rx_buf s2) (line' + lft) 0%N;
          Ok {| w_core := w_core w; w_rx := set_buf s2 m; w_fifo := fifo'; w_at := Scanning line' lft |}
        else Ok {| w_core := w_core w; w_rx := s2; w_fifo := fifo'; w_at := Waiting |}
    end
  else Ok {| w_core := w_core w; w_rx := s1; w_fifo := fifo'; w_at := Waiting |}.

(** cellular_pktio.c:1105-1130 with 982-986 and 824-857: skip line ends; stop when nothing or no complete line is left; otherwise terminate
    the line.  Its text is what the buffer shows. *)
Definition scan (w : whole) (line0 n0 : nat) : res whole :=
  do k <- skip_eol (rx_buf (w_rx w)) line0 n0;
  let '(line, n) := k in
  let park := {| w_core := w_core w; w_rx := set_left (w_rx w) (Some line) n; w_fifo := w_fifo w; w_at := Waiting |} in
  if (n =? 0)%nat then Ok park
  else
    do f <- find_eol (rx_buf (w_rx w)) line n;
    match f with
    | None => Ok park
    | Some i =>
        do m <- st (rx_buf (w_rx w)) (line + i) 0%N;
        match cstr_get m line with
        | None => UB
        | Some txt =>
            let c := w_core w in
            let l := match wire c with
                     | g :: _ => {| l_text := txt; l_from := l_from g; l_last := l_last g |}
                     | [] => {| l_text := txt; l_from := None; l_last := false |}
                     end in
            Ok {| w_core := set_rd (RGot l) (set_wire (tl (wire c)) c); w_rx := set_buf (w_rx w) m; w_fifo := w_fifo w; w_at := Working line n i |}
        end
    end.

(** cellular_pktio.c:1150 _getNextLine (1060-1085): on to the rest of the bytes. *)
Definition next_line (c : Request.state) (x : rx) (fifo : list N) (line n i : nat) (st : pkt_status) (mt : msg_type) : res whole :=
  do r <- getNextLine x line n i st mt;
  match r with
  | Next x' line' n' => Ok {| w_core := c; w_rx := x'; w_fifo := fifo; w_at := Scanning line' n' |}
  | Stop x' => Ok {| w_core := c; w_rx := x'; w_fifo := fifo; w_at := Waiting |}
  end.

(** cellular_pktio.c:732-776 together with _Cellular_ProcessLine (329-414): the line [l] at offset [line] under command type [t]. *)
Definition process_line (w : whole) (l : line) (t : at_type) (line n i : nat) : res whole :=
  let c := w_core w in
  let r := match rx_resp (w_rx w) with Some r => r | None => AtResponseNew end in
  let ls := match resp c with Some x => x | None => [] end in
  do p <- ProcessLine (tokens_now tt (extra c)) line (l_text l) r t;
  let '(st, r') := p in
  let ls' := if (length (r_items r') =? length (r_items r))%nat then ls else ls ++ [l] in    (* ghost *)
  let x := Pktio.set_resp (w_rx w) (Some r') in
  let c' := set_resp (Some ls') c in
  match st with
  | PKT_OK => Ok {| w_core := set_rd (RDone (r_status r') ls' l) c'; w_rx := x; w_fifo := w_fifo w; w_at := Working line n i |}
  | PKT_PENDING_BUFFER | PKT_PENDING_DATA => next_line (set_rd RIdle c') x (w_fifo w) line n i st AT_SOLICITED
  | _ => Ok {| w_core := set_rd (RUndef l) c'; w_rx := x; w_fifo := w_fifo w; w_at := Working line n i |}
  end.

(** The reader's next action on its line; [None]: not its turn.  What it reads from shared variables (prefix pointer, prefix buffer and
    command type, token table, callback pointer) is as in Request.v; what it reads from the receive buffer is read here. *)
Definition line_action (w : whole) (line n i : nat) (lb : label) : option (res whole) :=
  let c := w_core w in
  let stay := fun c' => Some (Ok {| w_core := c'; w_rx := w_rx w; w_fifo := w_fifo w; w_at := Working line n i |}) in
  match rd c, lb with
  | RGot l, LReader => stay (set_rd (RPtr l (puse c)) c)
  | RPtr l u, LReader => stay (set_rd (RMsg l (getMsgType tt (typ c) (l_text l) (if u then Some (pbuf c) else None))) c)
  | RMsg l AT_UNSOLICITED, LReader => Some (next_line (set_rd RIdle c) (w_rx w) (w_fifo w) line n i PKT_OK AT_UNSOLICITED)
  | RMsg l AT_SOLICITED, LReader => stay (set_rd (RTyp l (typ c)) c)
  | RMsg l AT_UNDEFINED, LReader => stay (set_rd (RUndef l) c)
  | RTyp l t, LReader => Some (process_line w l t line n i)
  | RUndef l, LUndef a k =>      (* 783-818 *)
      if a then Some (next_line (set_rd RIdle c) (w_rx w) (w_fifo w) line n i PKT_OK AT_UNDEFINED)
      else Some (Ok {| w_core := set_rd RIdle (set_wire (skipn k (wire c)) (set_resp None (set_typ T_NO_COMMAND (set_puse false c))));
                       w_rx := Pktio.set_resp (reset_buf cap (w_rx w)) None; w_fifo := w_fifo w; w_at := Waiting |})
  | RDone ok ls l, LReader => stay (set_rd (RHandle ok ls l) (set_typ T_NO_COMMAND (set_puse false c)))
  | RHandle ok ls l, LReader =>
      stay (if ok then match cb c with None => set_rd (RPost PKT_OK l ok None) c | Some _ => set_rd (RCall ls l) c end
            else set_rd (RPost PKT_FAILURE l ok None) c)
  | RCall ls l, LReader =>
      match cb c with
      | None => stay (set_rd RCrashed c)
      | Some id =>
          (* the response callback reads the lines through the items *)
          Some (do ts <- deliver (rx_buf (w_rx w)) (match rx_resp (w_rx w) with Some r => r_items r | None => [] end);
                let seen := retext ls ts in
                Ok {| w_core := record (Delivered id seen l) (set_rd (RInCB id seen l) c); w_rx := w_rx w; w_fifo := w_fifo w; w_at := Working line n i |})
      end
  | RInCB id ls l, LCbReturns st => stay (set_rd (RPost st l true (Some st)) c)
  | RPost st l ok b, LReader =>
      let c1 := set_rd RIdle (set_resp None c) in
      let c2 := match queue c with None => set_queue (Some {| q_st := st; q_line := l; q_ok := ok; q_cb := b |}) c1 | Some _ => c1 end in
      Some (next_line c2 (Pktio.set_resp (w_rx w) None) (w_fifo w) line n i PKT_OK AT_SOLICITED)
  | _, _ => None
  end.

(** One action of the system: [None] = not possible now, [Some UB] = undefined behaviour. *)
Definition wexec (lb : wlabel) (w : whole) : option (res whole) :=
  let core := fun o => match o with
                       | Some c => Some (Ok {| w_core := c; w_rx := w_rx w; w_fifo := w_fifo w; w_at := w_at w |})
                       | None => None
                       end in
  match lb with
  | WApp a => if app_label a then core (exec tt a (w_core w)) else None
  | WSend bs g =>
      match match g with Some l => exec tt (LEmit l) (w_core w) | None => Some (w_core w) end with
      | Some c => Some (Ok {| w_core := c; w_rx := w_rx w; w_fifo := w_fifo w ++ bs; w_at := w_at w |})
      | None => None
      end
  | WRead k => match w_at w with Waiting => Some (read_bytes k w) | _ => None end
  | WScan => match w_at w with Scanning line n => Some (scan w line n) | _ => None end
  | WLine a => match w_at w with Working line n i => line_action w line n i a | _ => None end
  end.

(** After library initialisation, with [n] application threads. *)
Definition winit (n : nat) : whole := {| w_core := init n; w_rx := rx0 cap; w_fifo := []; w_at := Waiting |}.

(** Runs whose labels all satisfy [ok] in the state they happen in. *)
Inductive wrun (ok : whole -> wlabel -> Prop) : whole -> list wlabel -> whole -> Prop :=
| wrun_nil w : wrun ok w [] w
| wrun_step w lbs w1 lb w2 : wrun ok w lbs w1 -> ok w1 lb -> wexec lb w1 = Some (Ok w2) -> wrun ok w (lbs ++ [lb]) w2.
End Whole.

(** The whole request path on bytes (Whole.v) with the input-buffer callback, the prefix callbacks and payloads
    (/repo/source/cellular_pktio.c:665-715, 861-901, 905-959, 963-1027, 1031-1056, 1138-1148, 1181-1188): the reader copies the callback's pointer under PktRespMutex (978-983) and calls it after
    releasing the mutex (1013-1017); an application thread may run in between.

    A data-send prefix callback takes precedence over a data prefix callback (988-1022); both may edit the bytes they are shown, and the
    former their number.
    The input-buffer callback and the copying of the pointers are one action: what happens between the two sections under PktRespMutex
    (917-922, 979-984) does not concern the former, which does not read what requests change.
    Simplifications (besides those of Whole.v, except those about payloads and the input-buffer callback): the input-buffer callback does
    not edit the bytes; what a callback does depends on which one it is and the bytes
    it is shown only; a data prefix callback edits no more bytes than it was shown; the ghost [p_asked] keeps which callback was called. *)
From Coq Require Import List NArith ZArith Bool Arith.
From Verif Require Import Bytes AtCore Status SpecAt Pktio SpecPktio SpecStream Request Whole.
Import ListNotations.

(** The input-buffer callback, if the port registered one (cellular_pktio.c:915-924), and the prefix callbacks that requests may install
    (992-1017): what they return for the bytes shown. *)
Record callbacks := {
  cb_input : option (list N -> pkt_status * nat);                            (* status, the number of bytes taken *)
  cb_data : nat -> list N -> pkt_status * option nat * option nat * list N;   (* status, offset of the data, its length ([None]: not written), the bytes afterwards *)
  cb_send : nat -> list N -> pkt_status * list N                             (* status, the bytes afterwards, as many as it says there are *)
}.
(** Ghost: a call of a callback: which one, and the bytes it was shown. *)
Inductive asking := ForData (id : nat) (bs : list N) | ForPrompt (id : nat) (bs : list N).

(** Threads, reader, bytes; the reader holds copies of pktDataSendPrefixCB and pktDataPrefixCB (978-983) and has not looked for the end of
    the line yet; the local variable pStartOfData of _handleAllReceived (1096); ghost: the callback calls, newest first. *)
Record pay := { p_whole : whole; p_copy : option (option nat * option nat); p_sod : option nat; p_asked : list asking }.

(** One action of the system. *)
Inductive plabel :=
| PApp (lb : label)       (* an application thread *)
| PSend (bs : list N)     (* the modem sends bytes *)
| PRead (k : nat)         (* the reader reads; at most k bytes are delivered *)
| PFetch                  (* the reader skips line ends, calls the input-buffer callback and copies the pointers of the others *)
| PAsk                    (* the reader calls a callback it copied, if any, and looks for the end of the line *)
| PLine (lb : label).     (* the reader's next action on the line it found, or the return of the handler it called *)

(** Ghost: a payload among the items of the response. *)
Definition payload_item (bs : list N) : line := {| l_text := bs; l_from := None; l_last := false |}.
(** Ghost: the response with one more item. *)
Definition add_item (l : line) (c : Request.state) : Request.state :=
  set_resp (Some (match resp c with Some x => x | None => [] end ++ [l])) c.
(** What an item of raw data refers to. *)
Definition raw_bytes (x : rx) : list N :=
  match rx_resp x with
  | Some r => match rev (r_items r) with
              | {| it_ptr := p; it_raw := Some k |} :: _ => firstn k (skipn p (rx_buf x))
              | _ => []
              end
  | None => []
  end.

Section Payload.
Variable cap : nat.          (* PKTIO_READ_BUFFER_SIZE *)
Variable tt : token_table.   (* the token tables registered by the port *)
Variable cbs : callbacks.

(** The state with another [whole] part. *)
Definition with_whole (w : whole) (p : pay) : pay := {| p_whole := w; p_copy := p_copy p; p_sod := p_sod p; p_asked := p_asked p |}.

(** cellular_pktio.c:1166-1192: a read; announced bytes are taken first (1178-1186); then the loop starts with no data pointer (1096). *)
Definition read_more (k : nat) (p : pay) : res pay :=
  do w <- read_bytes cap k (p_whole p);
  (* ghost: the payload, if it is complete now *)
  let c := if negb (rx_dlen (w_rx (p_whole p)) =? 0)%nat && (rx_dlen (w_rx w) =? 0)%nat
           then add_item (payload_item (raw_bytes (w_rx w))) (w_core w) else w_core w in
  Ok {| p_whole := {| w_core := c; w_rx := w_rx w; w_fifo := w_fifo w; w_at := w_at w |}; p_copy := None; p_sod := None; p_asked := p_asked p |}.

(** cellular_pktio.c:978-990. *)
Definition copy_pointers (p : pay) (x : rx) (line n : nat) : pay :=
  let w := p_whole p in
  if (n =? 0)%nat
  then with_whole {| w_core := w_core w; w_rx := set_left x (Some line) 0; w_fifo := w_fifo w; w_at := Waiting |} p
  else {| p_whole := {| w_core := w_core w; w_rx := x; w_fifo := w_fifo w; w_at := Scanning line n |};
          p_copy := Some (scb (w_core w), dcb (w_core w)); p_sod := p_sod p; p_asked := p_asked p |}.
(** cellular_pktio.c:1105-1122, 905-959. *)
Definition fetch (p : pay) (line0 n0 : nat) : res pay :=
  let w := p_whole p in
  let stop := fun x => with_whole {| w_core := w_core w; w_rx := x; w_fifo := w_fifo w; w_at := Waiting |} p in
  do k <- skip_eol (rx_buf (w_rx w)) line0 n0;
  let '(line, n) := k in
  match cb_input cbs with
  | None => Ok (copy_pointers p (w_rx w) line n)
  | Some f =>
      do bs <- Pktio.rd (rx_buf (w_rx w)) line n;
      let '(st, len) := f bs in
      match st with
      | PKT_OK => if (n <? len)%nat then Ok (stop (reset_buf cap (w_rx w)))
                  else Ok (copy_pointers p (set_left (w_rx w) (Some (line + len)%nat) (rx_partial (w_rx w))) (line + len) (n - len))
      | _ => match handleCallbackResult cap (w_rx w) st line n with
             | Some x => Ok (stop x)
             | None => Ok (copy_pointers p (w_rx w) line n)
             end
      end
  end.

(** cellular_pktio.c:988-1026, 861-901, 1125-1128: the callback's verdict; unless the pass ends, the reader looks for the end of the line
    (Whole.scan begins with skipping line ends: there are none here, unless a callback put them there, which SpecPayload.v excludes). *)
Definition after_call (w : whole) (x : rx) (st : pkt_status) (line n : nat) (sod : option nat) (asked : list asking) : res pay :=
  match handleCallbackResult cap x st line n with
  | Some x' => Ok {| p_whole := {| w_core := w_core w; w_rx := x'; w_fifo := w_fifo w; w_at := Waiting |}; p_copy := None; p_sod := sod; p_asked := asked |}
  | None => do w' <- scan {| w_core := w_core w; w_rx := x; w_fifo := w_fifo w; w_at := Scanning line n |} line n;
            Ok {| p_whole := w'; p_copy := None; p_sod := sod; p_asked := asked |}
  end.
Definition ask (p : pay) (b : option nat * option nat) (line n : nat) : res pay :=
  let w := p_whole p in
  match b with
  | (None, None) => do w' <- scan w line n; Ok {| p_whole := w'; p_copy := None; p_sod := p_sod p; p_asked := p_asked p |}
  | (Some id, _) =>
      do bs <- Pktio.rd (rx_buf (w_rx w)) line n;
      let '(st, bs') := cb_send cbs id bs in
      do m <- wr (rx_buf (w_rx w)) line bs';
      after_call w (set_buf (w_rx w) m) st line (length bs') (p_sod p) (ForPrompt id bs :: p_asked p)
  | (None, Some id) =>
      do bs <- Pktio.rd (rx_buf (w_rx w)) line n;
      let '(st, start, len, bs') := cb_data cbs id bs in
      do m <- wr (rx_buf (w_rx w)) line bs';
      let x := match len with Some d => set_dlen (set_buf (w_rx w) m) d | None => set_buf (w_rx w) m end in
      let sod := match start with Some o => Some (line + o)%nat | None => p_sod p end in
      after_call w x st line n sod (ForData id bs :: p_asked p)
  end.

(** cellular_pktio.c:732-776 and 1136-1148: as Whole.process_line, except that an intermediate line of a data command with announced
    data is followed by its payload (1031-1056). *)
Definition process_data (p : pay) (l : line) (t : at_type) (line n i : nat) : res pay :=
  let w := p_whole p in
  let c := w_core w in
  let r := match rx_resp (w_rx w) with Some r => r | None => AtResponseNew end in
  do q <- ProcessLine (tokens_now tt (extra c)) line (l_text l) r t;
  let '(st, r') := q in
  match st with
  | PKT_PENDING_BUFFER =>
      if negb (rx_dlen (w_rx w) =? 0)%nat then
        let c1 := set_rd RIdle (if (length (r_items r') =? length (r_items r))%nat then c else add_item l c) in
        do d <- handleData (p_sod p) (Pktio.set_resp (w_rx w) (Some r')) line n;
        let '(line', lft, x) := d in
        let c2 := if (rx_dlen x =? 0)%nat then add_item (payload_item (raw_bytes x)) c1 else c1 in   (* ghost *)
        Ok (with_whole {| w_core := c2; w_rx := x; w_fifo := w_fifo w; w_at := if (lft =? 0)%nat then Waiting else Scanning line' lft |} p)
      else do w' <- process_line tt w l t line n i; Ok (with_whole w' p)
  | _ => do w' <- process_line tt w l t line n i; Ok (with_whole w' p)
  end.

(** The reader's next action on its line. *)
Definition line_data (p : pay) (line n i : nat) (lb : label) : option (res pay) :=
  match rd (w_core (p_whole p)), lb with
  | RTyp l t, LReader => Some (process_data p l t line n i)
  | _, _ => match line_action cap tt (p_whole p) line n i lb with
            | Some r => Some (do w' <- r; Ok (with_whole w' p))
            | None => None
            end
  end.

(** One action of the system: [None] = not possible now, [Some UB] = undefined behaviour. *)
Definition pexec (lb : plabel) (p : pay) : option (res pay) :=
  let w := p_whole p in
  let plain := fun lb => match wexec cap tt lb w with Some r => Some (do w' <- r; Ok (with_whole w' p)) | None => None end in
  match lb with
  | PApp a => plain (WApp a)
  | PSend bs => plain (WSend bs None)
  | PRead k => match w_at w with Waiting => Some (read_more k p) | _ => None end
  | PFetch => match w_at w, p_copy p with Scanning line n, None => Some (fetch p line n) | _, _ => None end
  | PAsk => match w_at w, p_copy p with Scanning line n, Some b => Some (ask p b line n) | _, _ => None end
  | PLine a => match w_at w with Working line n i => line_data p line n i a | _ => None end
  end.

(** After library initialisation, with [n] application threads. *)
Definition pinit (n : nat) : pay := {| p_whole := winit cap n; p_copy := None; p_sod := None; p_asked := [] |}.

(** Runs whose labels all satisfy [ok] in the state they happen in. *)
Inductive prun (ok : pay -> plabel -> Prop) : pay -> list plabel -> pay -> Prop :=
| prun_nil p : prun ok p [] p
| prun_step p lbs p1 lb p2 : prun ok p lbs p1 -> ok p1 lb -> pexec lb p1 = Some (Ok p2) -> prun ok p (lbs ++ [lb]) p2.
End Payload.

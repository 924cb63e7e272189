(** The receive path with its heap: the response under construction as the linked list of cellular_pktio.c, every block obtained
    from Platform_Malloc and returned with Platform_Free, dangling and NULL accesses being errors.  Pktio.v has the same code with the
    list as a value; everything that does not touch the response is taken from there.

    Simplifications: a block is one cell (no padding, no overlap); the allocator is an arbitrary function of time and heap that
    returns NULL or a free address, addresses may be reused; the rest of the program changes only its own blocks ([others]). *)
From Coq Require Import List NArith ZArith Bool Arith.
From Verif Require Import Bytes AtCore Status Pktio.
Import ListNotations.

(** Addresses; 0 is NULL. *)
Definition address := nat.
(** Blocks: CellularATCommandResponse_t and CellularATCommandLine_t (/repo/source/include/cellular_types.h), the text copied by
    Cellular_ATStrDup, and blocks of other parts of the program. *)
Inductive cell :=
| CResp (status : bool) (pItm : address)
| CLine (pLine : item) (pNext : address)
| CText (s : str)
| COther.
(** What each address holds; addresses from [top] on have never been used (ghost: lets an allocator find unused ones). *)
Record heap := { cell_at :> address -> option cell; top : nat }.
(** The heap with one block changed. *)
Definition upd (h : heap) (p : address) (c : option cell) : heap :=
  {| cell_at := fun q => if (q =? p)%nat then c else h q; top := Nat.max (top h) (S p) |}.

(** Outcomes: as [res], or stopped by CELLULAR_CONFIG_ASSERT. *)
Inductive hres (A : Type) : Type :=
| HOk (a : A)
| HUB
| HDiverge
| HHalt.
Arguments HOk {A} a.
Arguments HUB {A}.
Arguments HDiverge {A}.
Arguments HHalt {A}.
(** Sequencing; a fault of the heap is final. *)
Definition hbind {A B} (x : hres A) (f : A -> hres B) : hres B :=
  match x with HOk a => f a | HUB => HUB | HDiverge => HDiverge | HHalt => HHalt end.
Notation "'dh' x <- e ; k" := (hbind e (fun x => k)) (at level 200, x pattern, e at level 100, k at level 200).
(** Steps that do not touch the heap. *)
Definition lift {A} (x : res A) : hres A := match x with Ok a => HOk a | UB => HUB | Diverge => HDiverge end.

Section Heap.
(** PKTIO_READ_BUFFER_SIZE *)
Variable cap : nat.
(** Whether CELLULAR_CONFIG_ASSERT stops the program (/repo/source/include/cellular_config_defaults.h:473-475: configASSERT of the
    FreeRTOS configuration, which may be empty). *)
Variable asserts : bool.
(** Platform_Malloc at a time and heap: the address of the new block, or NULL. *)
Variable alloc : nat -> heap -> option address.
(** What the rest of the program does to the heap: other threads, and callbacks the reader runs. *)
Variable others : nat -> heap -> heap.
(** Bound on the iterations of list loops (lines 168-171 and 314-321); a list without end would exceed every bound. *)
Variable k : nat.

(** After a failed allocation: the assertion, or the access through NULL that follows it. *)
Definition out_of_memory {A} : hres A := if asserts then HHalt else HUB.

(** cellular_pktio.c:285-295 _Cellular_AtResponseNew *)
Definition h_AtResponseNew (t : nat) (h : heap) : hres (address * heap) :=
  match alloc t h with
  | None => out_of_memory
  | Some p => HOk (p, upd h p (Some (CResp false 0%nat)))
  end.

(** Platform_Free: only of a block in use. *)
Definition h_free (h : heap) (p : address) : hres heap := match h p with Some _ => HOk (upd h p None) | None => HUB end.

(** cellular_pktio.c:314-321, the loop of _Cellular_AtResponseFree *)
Fixpoint h_free_lines (n : nat) (h : heap) (p : address) : hres heap :=
  match n with
  | O => HDiverge
  | S n' =>
      if (p =? 0)%nat then HOk h
      else match h p with
           | Some (CLine _ nx) => dh h' <- h_free h p; h_free_lines n' h' nx
           | _ => HUB
           end
  end.
(** cellular_pktio.c:305-325 _Cellular_AtResponseFree, with the assignment of FREE_AT_RESPONSE_AND_SET_NULL (line 61): result heap
    and pointer. *)
Definition h_AtResponseFree (h : heap) (p : address) : hres (heap * address) :=
  if (p =? 0)%nat then HOk (h, 0%nat)
  else match h p with
       | Some (CResp _ itm) => dh h1 <- h_free_lines k h itm; dh h2 <- h_free h1 p; HOk (h2, 0%nat)
       | _ => HUB
       end.

(** cellular_pktio.c:166-173: find the last line of the list and hang the new one behind it. *)
Fixpoint h_append (n : nat) (h : heap) (p new : address) : hres heap :=
  match n with
  | O => HDiverge
  | S n' =>
      match h p with
      | Some (CLine i nx) => if (nx =? 0)%nat then HOk (upd h p (Some (CLine i new))) else h_append n' h nx new
      | _ => HUB
      end
  end.
(** cellular_pktio.c:143-194 _saveData, _saveRawData, _saveATData *)
Definition h_saveData (t : nat) (h : heap) (p : address) (i : item) : hres heap :=
  match alloc t h with
  | None => out_of_memory
  | Some new =>
      let h1 := upd h new (Some (CLine i 0%nat)) in
      match h1 p with
      | Some (CResp st itm) =>
          if (itm =? 0)%nat then HOk (upd h1 p (Some (CResp st new))) else h_append k h1 itm new
      | _ => HUB
      end
  end.
(** The list element of a response line: pLine only. *)
Definition at_item (q : nat) : item := {| it_ptr := q; it_raw := None |}.

(** pResp->status = b *)
Definition h_set_status (h : heap) (p : address) (b : bool) : hres heap :=
  match h p with Some (CResp _ itm) => HOk (upd h p (Some (CResp b itm))) | _ => HUB end.

(** cellular_pktio.c:198-281 _processIntermediateResponse; [line] is pLine, [p] is pResp. *)
Definition h_processIntermediateResponse (t : nat) (line : nat) (h : heap) (p : address) (ty : at_type) : hres (pkt_status * heap) :=
  match ty with
  | T_WO_PREFIX | T_WITH_PREFIX =>
      match h p with
      | Some (CResp _ itm) =>
          if (itm =? 0)%nat then dh h' <- h_saveData t h p (at_item line); HOk (PKT_PENDING_DATA, h')
          else match h itm with Some (CLine _ _) => HOk (PKT_INVALID_DATA, h) | _ => HUB end      (* the log of lines 216-217, 235-236 *)
      | _ => HUB
      end
  | T_MULTI_WITH_PREFIX | T_MULTI_WO_PREFIX => dh h' <- h_saveData t h p (at_item line); HOk (PKT_PENDING_DATA, h')
  | T_MULTI_DATA_WO_PREFIX => dh h' <- h_saveData t h p (at_item line); HOk (PKT_PENDING_BUFFER, h')
  | T_WO_PREFIX_NO_RESULT_CODE | T_WITH_PREFIX_NO_RESULT_CODE =>
      dh h' <- h_saveData t h p (at_item line); dh h2 <- h_set_status h' p true; HOk (PKT_OK, h2)
  | T_NO_RESULT | T_NO_COMMAND => HOk (PKT_INVALID_DATA, h)
  end.

(** cellular_pktio.c:329-414 _Cellular_ProcessLine *)
Definition h_ProcessLine (t : nat) (tt : token_table) (line : nat) (txt : str) (h : heap) (p : address) (ty : at_type)
  : hres (pkt_status * heap) :=
  match tk_error tt, tk_success tt with
  | Some _, Some _ =>
      dh x <- lift (check_tokens txt (tk_extra_success tt));
      dh ok <- (if x then HOk true else lift (check_tokens txt (tk_success tt)));
      if ok then dh h' <- h_set_status h p true; HOk (PKT_OK, h')
      else
        dh er <- lift (check_tokens txt (tk_error tt));
        if er then dh h' <- h_set_status h p false; HOk (PKT_OK, h')
        else h_processIntermediateResponse t line h p ty
  | _, _ => HOk (PKT_FAILURE, h)
  end.

(** What the receiver of the response reads: the list, then the text of each line (line 757, _convertAndQueueRespPacket and the
    response callbacks). *)
Fixpoint h_items (n : nat) (h : heap) (p : address) : hres (list item) :=
  match n with
  | O => HDiverge
  | S n' =>
      if (p =? 0)%nat then HOk []
      else match h p with Some (CLine i nx) => dh l <- h_items n' h nx; HOk (i :: l) | _ => HUB end
  end.
(** What the response callback reads: the lines of the elements linked from the response. *)
Definition h_deliver (m : list N) (h : heap) (p : address) : hres (bool * list (list N)) :=
  match h p with
  | Some (CResp b itm) => dh l <- h_items k h itm; dh cs <- lift (deliver m l); HOk (b, cs)
  | _ => HUB
  end.

(** cellular_pkthandler.c:124-197 _processUrcPacket: the copy of the line lives while the URC handler (part of [others]) runs. *)
Definition h_processUrc (t : nat) (h : heap) (txt : str) : hres heap :=
  match alloc t h with
  | None => HOk h
  | Some q => h_free (others t (upd h q (Some (CText txt)))) q
  end.

(** The reader's state: [hs_rx] as in Pktio.v but for the response ([rx_resp] is not used), the heap, pAtCmdResp. *)
Record hstate := { hs_rx : rx; hs_heap : heap; hs_resp : address }.

(** cellular_pktio.c:719-820 _handleMsgType *)
Definition h_handleMsgType (t : nat) (v : view) (mt : msg_type) (s : rx) (h : heap) (p : address) (line : nat) (txt : str)
  : hres (pkt_status * msg_type * list event * hstate) :=
  dh r <- match mt with
          | AT_UNSOLICITED =>
              dh h' <- (if v_handler v then h_processUrc t h txt else HOk h);
              HOk (PKT_OK, mt, if v_handler v then [EvUrc txt] else [], h', p)
          | AT_SOLICITED =>
              dh n <- (if (p =? 0)%nat then h_AtResponseNew t h else HOk (p, h));
              let '(p1, h1) := n in
              dh x <- h_ProcessLine t (v_tokens v) line txt h1 p1 (v_cmd2 v);
              let '(st, h2) := x in
              match st with
              | PKT_OK =>
                  dh ev <- (if v_handler v then dh d <- h_deliver (rx_buf s) h2 p1; HOk [EvResp (fst d) (snd d)] else HOk []);
                  dh f <- h_AtResponseFree h2 p1;
                  HOk (PKT_OK, mt, ev, fst f, snd f)
              | PKT_PENDING_BUFFER | PKT_PENDING_DATA => HOk (st, mt, [], h2, p1)
              | _ => HOk (st, AT_UNDEFINED, [], h2, p1)
              end
          | AT_UNDEFINED => HOk (PKT_OK, mt, [], h, p)
          end;
  let '(st, mt', ev, h1, p1) := r in
  match mt' with
  | AT_UNDEFINED =>
      let st' := if v_handler v then v_undef v txt else st in
      let ev' := if v_handler v then ev ++ [EvUndef txt] else ev in
      match st' with
      | PKT_OK => HOk (PKT_OK, mt', ev', {| hs_rx := s; hs_heap := h1; hs_resp := p1 |})
      | _ => dh f <- h_AtResponseFree h1 p1;
             HOk (PKT_INVALID_DATA, mt', ev' ++ [EvDrop], {| hs_rx := reset_buf cap s; hs_heap := fst f; hs_resp := snd f |})
      end
  | _ => HOk (st, mt', ev, {| hs_rx := s; hs_heap := h1; hs_resp := p1 |})
  end.

(** cellular_pktio.c:665-715 _handleData *)
Definition h_handleData (t : nat) (sod : option nat) (s : hstate) (line n : nat) : hres (nat * nat * hstate) :=
  match sod with
  | None => HUB
  | Some p =>
      if (p <? line)%nat || (line + n <? p)%nat then HUB
      else
        let avail := (n - (p - line))%nat in
        let d := rx_dlen (hs_rx s) in
        if (d <=? avail)%nat then
          dh h' <- h_saveData t (hs_heap s) (hs_resp s) {| it_ptr := p; it_raw := Some d |};
          HOk ((p + d)%nat, (avail - d)%nat,
               {| hs_rx := set_left (set_dlen (hs_rx s) 0) (Some (p + d)%nat) (avail - d); hs_heap := h'; hs_resp := hs_resp s |})
        else HOk (line, 0%nat, {| hs_rx := set_left (hs_rx s) (Some p) avail; hs_heap := hs_heap s; hs_resp := hs_resp s |})
  end.

(** Outcome of one pass of the loop of _handleAllReceived. *)
Inductive h_result :=
| HStop (s : hstate)
| HNext (s : hstate) (line n : nat).
(** The state after a pass of the read loop, with the heap left as it is. *)
Definition with_rx (s : hstate) (r : pass_result) : h_result :=
  match r with
  | Stop x => HStop {| hs_rx := x; hs_heap := hs_heap s; hs_resp := hs_resp s |}
  | Next x line n => HNext {| hs_rx := x; hs_heap := hs_heap s; hs_resp := hs_resp s |} line n
  end.

(** cellular_pktio.c:1101-1161, one pass; the parts without the response are those of Pktio.v. *)
Definition h_pass (t : nat) (v : view) (s : hstate) (line0 n0 : nat) (sod : option nat)
  : hres (list event * h_result * option nat) :=
  dh c <- lift (skip_eol (rx_buf (hs_rx s)) line0 n0);
  let '(line1, n1) := c in
  dh r1 <- lift (preprocessInputBuffer cap v (hs_rx s) line1 n1);
  match r1 with
  | Stop s1 => HOk ([], with_rx s (Stop s1), sod)
  | Next s1 line2 n2 =>
      dh r2 <- lift (preprocessLine cap v s1 line2 n2 sod);
      match r2 with
      | (Stop s2, sod2) => HOk ([], with_rx s (Stop s2), sod2)
      | (Next s2 line n, sod2) =>
          dh f <- lift (find_eol (rx_buf s2) line n);
          match f with
          | None => HOk ([], with_rx s (Stop (set_left s2 (Some line) n)), sod2)
          | Some i =>
              dh m <- lift (st (rx_buf s2) (line + i) 0%N);
              let s3 := set_buf s2 m in
              dh txt <- lift (match cstr_get m line with Some x => Ok x | None => UB end);
              let mt := getMsgType (v_tokens v) (v_cmd v) txt (v_prefix v) in
              dh g <- h_handleMsgType t v mt s3 (others t (hs_heap s)) (hs_resp s) line txt;
              let '(stt, mt', ev, s4) := g in
              match stt with
              | PKT_PENDING_BUFFER =>
                  if negb (rx_dlen (hs_rx s4) =? 0)%nat then
                    dh d <- h_handleData t sod2 s4 line n;
                    let '(line', lft, s5) := d in
                    if (lft =? 0)%nat then HOk (ev, HStop s5, sod2) else HOk (ev, HNext s5 line' lft, sod2)
                  else dh x <- lift (getNextLine (hs_rx s4) line n i stt mt'); HOk (ev, with_rx s4 x, sod2)
              | PKT_OK | PKT_PENDING_DATA => dh x <- lift (getNextLine (hs_rx s4) line n i stt mt'); HOk (ev, with_rx s4 x, sod2)
              | _ => HOk (ev, HStop s4, sod2)
              end
          end
      end
  end.

(** cellular_pktio.c:1090-1162 _handleAllReceived *)
Fixpoint h_handleAllReceived (fuel : nat) (env : environment) (t : nat) (ev : list event) (s : hstate) (line n : nat) (sod : option nat)
  : hres (nat * list event * hstate) :=
  match fuel with
  | O => HDiverge
  | S f =>
      dh r <- h_pass t (env t ev) s line n sod;
      let '(e, out, sod') := r in
      match out with
      | HStop s' => HOk (S t, ev ++ e, s')
      | HNext s' line' n' => h_handleAllReceived f env (S t) (ev ++ e) s' line' n' sod'
      end
  end.

(** pAtCmdResp as _Cellular_ReadLine sees it: only whether it is NULL (lines 603-604). *)
Definition null_test (p : address) : option response := if (p =? 0)%nat then None else Some AtResponseNew.

(** cellular_pktio.c:1166-1198 _handleRxDataEvent *)
Definition h_handleRxDataEvent (fuel : nat) (env : environment) (t : nat) (ev : list event) (s : hstate) (recv : nat -> str)
  : hres (nat * nat * list event * hstate) :=
  dh r <- lift (ReadLine cap (set_resp (hs_rx s) (null_test (hs_resp s))) recv);
  let '(pl, bytes, x1) := r in
  let s1 := {| hs_rx := set_resp x1 None; hs_heap := hs_heap s; hs_resp := hs_resp s |} in
  if (0 <? bytes)%nat then
    match pl with
    | None => HUB
    | Some line =>
        dh d <- (if negb (rx_dlen (hs_rx s1) =? 0)%nat then h_handleData t (Some line) s1 line bytes else HOk (line, bytes, s1));
        let '(line', lft, s2) := d in
        if (0 <? lft)%nat then
          dh m <- lift (st (rx_buf (hs_rx s2)) (line' + lft) 0%N);
          dh q <- h_handleAllReceived fuel env t ev {| hs_rx := set_buf (hs_rx s2) m; hs_heap := hs_heap s2; hs_resp := hs_resp s2 |} line' lft None;
          let '(t', ev', s3) := q in HOk (bytes, t', ev', s3)
        else HOk (bytes, t, ev, s2)
    end
  else HOk (0%nat, t, ev, s1).

(** cellular_pktio.c:1233-1236 *)
Fixpoint h_reader (fuel : nat) (env : environment) (t : nat) (ev : list event) (s : hstate) (inp : list (nat -> str))
  : hres (nat * list event * hstate) :=
  match inp with
  | [] => HOk (t, ev, s)
  | r :: rest =>
      dh x <- h_handleRxDataEvent fuel env t ev s r;
      let '(_, t', ev', s') := x in h_reader fuel env t' ev' s' rest
  end.

(** cellular_pktio.c:1224-1228: the reader is told to stop. *)
Definition h_stop (s : hstate) : hres hstate :=
  dh f <- h_AtResponseFree (hs_heap s) (hs_resp s); HOk {| hs_rx := hs_rx s; hs_heap := fst f; hs_resp := snd f |}.
End Heap.

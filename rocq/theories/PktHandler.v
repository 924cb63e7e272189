(** Model of /repo/source/cellular_pkthandler.c: the URC table, URC dispatch and the undefined-message handler.
    (The request functions are in Request.v.) *)
From Coq Require Import List NArith ZArith Bool Arith.
From Verif Require Import Bytes AtCore AtMem Status Pktio.
Import ListNotations.

(** strncmp(a, b, n) on strings of at least n characters: difference of the first differing characters, taken as
    unsigned char (ISO C 7.24.4.4). *)
Fixpoint strncmp (a b : str) (n : nat) : Z :=
  match n, a, b with
  | S k, x :: a', y :: b' => if (x =? y)%N then strncmp a' b' k else (Z.of_N x - Z.of_N y)%Z
  | S _, x :: _, [] => Z.of_N x
  | S _, [], y :: _ => (- Z.of_N y)%Z
  | _, _, _ => 0%Z
  end.

(** cellular_pkthandler.c:363-391 _searchCompareFunc and 395-423 _sortCompareFunc: the same comparison. *)
Definition compareFunc (a b : str) : Z :=
  let la := length a in
  let lb := length b in
  let c := strncmp a b (Nat.min la lb) in
  if (c =? 0)%Z && negb (la =? lb)%nat then (if (lb <? la)%nat then 1 else -1)%Z else c.

(** /repo/source/include/common/cellular_common.h CellularAtParseTokenMap_t: name and handler; a handler is known by
    a number, [None] is a NULL parserFunc. *)
Definition urc_entry := (str * option nat)%type.

(** bsearch: the binary search of glibc / newlib (ISO C leaves the algorithm open); second result: number of calls
    of the comparison function. *)
Fixpoint bsearch_loop (fuel : nat) (key : str) (tbl : list urc_entry) (l u : nat) : res (option nat * nat) :=
  match fuel with
  | O => Diverge
  | S f =>
      if (l <? u)%nat then
        let idx := Nat.div (l + u) 2 in
        match nth_error tbl idx with
        | None => UB
        | Some (name, _) =>
            let c := compareFunc key name in
            do r <- (if (c <? 0)%Z then bsearch_loop f key tbl l idx
                     else if (0 <? c)%Z then bsearch_loop f key tbl (S idx) u
                     else Ok (Some idx, 0%nat));
            Ok (fst r, S (snd r))
        end
      else Ok (None, 0%nat)
  end.
(** C library bsearch, as called at cellular_pkthandler.c:440, with _searchCompareFunc (363-391). *)
Definition bsearch (key : str) (tbl : list urc_entry) : res (option nat * nat) :=
  bsearch_loop (S (length tbl)) key tbl 0 (length tbl).

(** What the application sees of a URC: a registered handler called with a text, or the generic callback. *)
Inductive urc_effect := CallHandler (h : nat) (text : str) | CallGeneric (text : str).

(** cellular_pkthandler.c:427-465 _atParseGetHandler; [text] is the string at pSavePtr. *)
Definition atParseGetHandler (tbl : list urc_entry) (token text : str) : res (pkt_status * list urc_effect) :=
  do r <- bsearch token tbl;
  match fst r with
  | Some i => match nth_error tbl i with
              | None => UB
              | Some (_, Some h) => Ok (PKT_OK, [CallHandler h text])
              | Some (_, None) => Ok (PKT_FAILURE, [])
              end
  | None => Ok (PKT_PREFIX_MISMATCH, [])
  end.

(** strtok_r(p, ":", &save): token start (None = NULL), memory, *save. *)
Fixpoint tok_end (fuel : nat) (m : list N) (p : nat) (d : str) : res (list N * nat) :=
  match fuel with
  | O => Diverge
  | S f => do c <- ld m p;
           if (c =? 0)%N then Ok (m, p)
           else if in_delim d c then do m' <- st m p 0%N; Ok (m', S p) else tok_end f m (S p) d
  end.
(** Address of the NUL that ends the string at [p]. *)
Fixpoint str_end (fuel : nat) (m : list N) (p : nat) : res nat :=
  match fuel with
  | O => Diverge
  | S f => do c <- ld m p; if (c =? 0)%N then Ok p else str_end f m (S p)
  end.
(** C library strtok_r, as called at cellular_pkthandler.c:156. *)
Definition strtok_r (m : list N) (p : nat) (d : str) : res (option nat * list N * nat) :=
  do t <- strspn_m (S (length m)) m p d;
  match t with
  | None => do e <- str_end (S (length m)) m p; Ok (None, m, e)
  | Some t => do r <- tok_end (S (length m)) m t d; Ok (Some t, fst r, snd r)
  end.

(** A read of a C string. *)
Definition cstr_at (m : list N) (p : nat) : res str := match cstr_get m p with Some s => Ok s | None => UB end.

(** cellular_pkthandler.c:124-197 _processUrcPacket; the line at offset [p] of the receive buffer [m]. *)
Definition processUrcPacket (alloc : nat -> option (list N)) (tbl : list urc_entry) (m : list N) (p : nat)
  : res (pkt_status * list urc_effect) :=
  do d <- ATStrDup_m alloc m p;
  match d with
  | (AT_SUCCESS, Some b) =>
      do pr <- ATIsPrefixPresent_m b 0;
      let inputWithPrefix := match snd pr with Some x => x | None => false end in
      do r <- (if inputWithPrefix then
                 do t <- strtok_r b 1 [chCOLON];
                 let '(tok, b1, save) := t in
                 match tok with
                 | None => Ok (PKT_BAD_REQUEST, [], b1, save)
                 | Some tp => do token <- cstr_at b1 tp; do text <- cstr_at b1 save;
                              do h <- atParseGetHandler tbl token text; Ok (fst h, snd h, b1, save)
                 end
               else
                 do l <- cstr_at b 0; do h <- atParseGetHandler tbl l l; Ok (fst h, snd h, b, 0%nat));
      let '(st, eff, b1, save) := r in
      match st with
      | PKT_PREFIX_MISMATCH =>
          do b2 <- (if inputWithPrefix then
                      match save with O => UB | S q => Bytes.st b1 q chCOLON end
                    else Ok b1);
          do l <- cstr_at b2 0;
          Ok (PKT_OK, eff ++ [CallGeneric l])
      | _ => Ok (st, eff)
      end
  | _ => Ok (PKT_FAILURE, [])
  end.

(** cellular_pkthandler.c:472-500 _handleUndefinedMessage; the callback as its result for the line. *)
Definition handleUndefinedMessage (cb : option (str -> pkt_status)) (line : str) : pkt_status :=
  match cb with
  | None => PKT_INVALID_DATA
  | Some f => match f line with PKT_OK => PKT_OK | _ => PKT_INVALID_DATA end
  end.

(** cellular_pkthandler.c:818-828, the loop of _Cellular_AtParseInit over adjacent entries ([finit]). *)
Fixpoint atParseInit_loop (tbl : list urc_entry) (finit : bool) : bool :=
  match tbl with
  | (a, _) :: (((b, _) :: _) as t) => atParseInit_loop t (if (0 <=? compareFunc a b)%Z then false else finit)
  | _ => finit
  end.

(** cellular_pkthandler.c:802-847 _Cellular_AtParseInit ([None] = NULL table). *)
Definition AtParseInit (tbl : option (list urc_entry)) : pkt_status :=
  match tbl with
  | Some ((_ :: _) as t) => if atParseInit_loop t true then PKT_OK else PKT_BAD_PARAM
  | _ => PKT_INVALID_HANDLE
  end.

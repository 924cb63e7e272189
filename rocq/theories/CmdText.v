(** The command text behind pContext->pCurrentCmd: the library keeps the caller's pointer to the text of the command in progress and
    prints the text in two diagnostics of the reader thread.

    An interleaving system of application threads making requests and the reader.  Only the accesses to pCurrentCmd and the mutexes
    around them are modelled; what decides when a diagnostic is due is Request.v and Pktio.v, here the reader may come to either at
    any time.  A text is known by the number of its call; it is alive until the call returns (the callers in cellular_3gpp_api.c
    build commands in automatic arrays, e.g. 2152, 1683).  With the default empty LogError / LogWarn
    (cellular_config_defaults.h:534, 552) nothing is read. *)
From Coq Require Import List Arith Bool.
Import ListNotations.

(** An application thread: _Cellular_PktHandler_AtcmdRequestWithCallback, cellular_pkthandler.c:562-581, and
    _Cellular_AtcmdRequestTimeoutWithCallbackRaw, 200-263. *)
Inductive apc :=
| Out                       (* not in a request *)
| Entering (id : nat)       (* called; waiting for pktRequestMutex (575) *)
| Begin (id : nat)          (* has it; about to store the pointer (218-223) *)
| Within (id : nat)         (* sending, waiting for the answer (225-250) *)
| Leaving (id : nat).       (* pointer cleared (254-258); about to unlock and return (577) *)

(** The reader.  LogError / LogWarn( ... pCurrentCmd != NULL ? pCurrentCmd : "NULL" ... ) is two loads of the pointer and a read of
    the text; [locked] tells _Cellular_ProcessLine (cellular_pktio.c:403-411, PktRespMutex held) from _handleMsgType (792-796). *)
Inductive dpc :=
| Away
| Test (locked : bool)                         (* first load *)
| Load (locked : bool)                         (* the first load was not NULL; second load *)
| Print (locked : bool) (v : option nat)       (* "%s" of the value of the second load *)
| Unlock.                                      (* end of the locked diagnostic *)

(** A text that was printed: through which diagnostic, the pointer, and whether the call it belongs to was in progress. *)
Record print := { pr_locked : bool; pr_ptr : option nat; pr_alive : bool }.

(** pCurrentCmd, the two mutexes (respL: held by the reader; request: the thread holding it), the threads, history. *)
Record state := {
  cmd : option nat; respL : bool; reqL : option nat; apps : list apc; rdr : dpc; next : nat; prints : list print }.

(** Replace an element. *)
Fixpoint set_nth (l : list apc) (i : nat) (x : apc) : list apc :=
  match l, i with [], _ => [] | _ :: t, O => x :: t | y :: t, Datatypes.S j => y :: set_nth t j x end.
(** Is call [id] in progress: called and not returned. *)
Definition in_call (id : nat) (p : apc) : bool :=
  match p with Out => false | Entering k | Begin k | Within k | Leaving k => k =? id end.
Definition alive (s : state) (id : nat) : bool := existsb (in_call id) (apps s).

(** Store to the members. *)
Definition mk s c r q a d n p : state :=
  {| cmd := match c with Some v => v | None => cmd s end; respL := match r with Some v => v | None => respL s end;
     reqL := match q with Some v => v | None => reqL s end; apps := match a with Some v => v | None => apps s end;
     rdr := match d with Some v => v | None => rdr s end; next := match n with Some v => v | None => next s end;
     prints := p ++ prints s |}.

(** Steps: an application calls; an application thread goes on; the reader comes to a diagnostic; the reader goes on. *)
Inductive label := LCall (i : nat) | LApp (i : nat) | LDiag (locked : bool) | LReader.

(** One step. *)
Definition step (l : label) (s : state) : option state :=
  match l with
  | LCall i =>
      match nth_error (apps s) i with
      | Some Out => Some (mk s None None None (Some (set_nth (apps s) i (Entering (next s)))) None (Some (Datatypes.S (next s))) [])
      | _ => None
      end
  | LApp i =>
      match nth_error (apps s) i with
      | Some (Entering id) =>
          match reqL s with
          | None => Some (mk s None None (Some (Some i)) (Some (set_nth (apps s) i (Begin id))) None None [])
          | Some _ => None
          end
      | Some (Begin id) =>          (* cellular_pkthandler.c:218-223 *)
          if respL s then None else Some (mk s (Some (Some id)) None None (Some (set_nth (apps s) i (Within id))) None None [])
      | Some (Within id) =>         (* cellular_pkthandler.c:254-258 *)
          if respL s then None else Some (mk s (Some None) None None (Some (set_nth (apps s) i (Leaving id))) None None [])
      | Some (Leaving id) => Some (mk s None None (Some None) (Some (set_nth (apps s) i Out)) None None [])
      | _ => None
      end
  | LDiag locked =>
      match rdr s with
      | Away => if locked then (if respL s then None else Some (mk s None (Some true) None None (Some (Test true)) None []))
                else Some (mk s None None None None (Some (Test false)) None [])
      | _ => None
      end
  | LReader =>
      match rdr s with
      | Away => None
      | Test b =>
          match cmd s with
          | None => Some (mk s None None None None (Some (if b then Unlock else Away)) None [])   (* prints "NULL" *)
          | Some _ => Some (mk s None None None None (Some (Load b)) None [])
          end
      | Load b => Some (mk s None None None None (Some (Print b (cmd s))) None [])
      | Print b v =>
          Some (mk s None None None None (Some (if b then Unlock else Away)) None
                  [{| pr_locked := b; pr_ptr := v; pr_alive := match v with Some id => alive s id | None => false end |}])
      | Unlock => Some (mk s None (Some false) None None (Some Away) None [])
      end
  end.

(** After initialisation, with [n] application threads. *)
Definition init (n : nat) : state := {| cmd := None; respL := false; reqL := None; apps := repeat Out n; rdr := Away; next := 0; prints := [] |}.
(** States reachable by any interleaving. *)
Inductive reach (n : nat) : state -> Prop :=
| reach_init : reach n (init n)
| reach_step s l s' : reach n s -> step l s = Some s' -> reach n s'.
(** A schedule. *)
Fixpoint run (ls : list label) (s : state) : option state :=
  match ls with [] => Some s | l :: t => match step l s with Some s1 => run t s1 | None => None end end.

(** Status codes, their translation, and the library-status gate. *)
From Coq Require Import List NArith ZArith Bool.
From Verif Require Import Bytes AtCore.
Import ListNotations.

(** /repo/source/include/cellular_types.h:87-104 CellularError_t *)
Inductive cell_error :=
| C_SUCCESS | C_INVALID_HANDLE | C_MODEM_NOT_READY | C_LIBRARY_NOT_OPEN | C_LIBRARY_ALREADY_OPEN
| C_BAD_PARAMETER | C_NO_MEMORY | C_TIMEOUT | C_SOCKET_CLOSED | C_SOCKET_NOT_CONNECTED
| C_INTERNAL_FAILURE | C_RESOURCE_CREATION_FAIL | C_UNSUPPORTED | C_NOT_ALLOWED | C_UNKNOWN.

(** /repo/source/include/cellular_types.h:337-353 CellularPktStatus_t *)
Inductive pkt_status :=
| PKT_OK | PKT_TIMED_OUT | PKT_FAILURE | PKT_BAD_REQUEST | PKT_BAD_RESPONSE | PKT_SIZE_MISMATCH
| PKT_BAD_PARAM | PKT_SEND_ERROR | PKT_INVALID_HANDLE | PKT_CREATION_FAIL | PKT_PREFIX_MISMATCH
| PKT_INVALID_DATA | PKT_PENDING_DATA | PKT_PENDING_BUFFER.

(** /repo/source/cellular_common.c:463-488 _Cellular_TranslatePktStatus *)
Definition TranslatePktStatus (s : pkt_status) : cell_error :=
  match s with
  | PKT_OK => C_SUCCESS
  | PKT_TIMED_OUT => C_TIMEOUT
  | _ => C_INTERNAL_FAILURE
  end.

(** /repo/source/cellular_common.c:492-518 _Cellular_TranslateAtCoreStatus *)
Definition TranslateAtCoreStatus (s : at_status) : pkt_status :=
  match s with
  | AT_SUCCESS => PKT_OK
  | AT_BAD_PARAMETER => PKT_BAD_PARAM
  | _ => PKT_FAILURE
  end.

(** The three flags of CellularContext_t read under libStatusMutex. *)
Record lib_flags := { bLibOpened : bool; bLibShutdown : bool; bLibClosing : bool }.

(** /repo/source/cellular_common.c:425-459 _Cellular_CheckLibraryStatus ([None] = NULL handle).
    The two critical sections are merged: the flags are passed as read. *)
Definition CheckLibraryStatus (ctx : option lib_flags) : cell_error :=
  match ctx with
  | None => C_INVALID_HANDLE
  | Some f => if negb (bLibOpened f) then C_LIBRARY_NOT_OPEN
              else if bLibShutdown f || bLibClosing f then C_INTERNAL_FAILURE
              else C_SUCCESS
  end.

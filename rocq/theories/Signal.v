(** Signal conversions of /repo/source/cellular_common.c.  int16_t values are [Z] in -32768..32767. *)
From Coq Require Import List NArith ZArith Bool.
From Verif Require Import Bytes Status.
Import ListNotations.
Local Open Scope Z_scope.

(** /repo/source/include/cellular_types.h:49,55 *)
Definition INVALID_SIGNAL_VALUE : Z := -32768.
(** cellular_types.h:55 CELLULAR_INVALID_SIGNAL_BAR_VALUE *)
Definition INVALID_SIGNAL_BAR_VALUE : N := 255.

(** /repo/source/include/cellular_types.h:110-123 CellularRat_t (numeric values) *)
Inductive rat := RAT_GSM | RAT_WCDMA | RAT_EDGE | RAT_HSDPA | RAT_HSUPA | RAT_HSDPAHSUPA | RAT_LTE
               | RAT_CATM1 | RAT_NBIOT | RAT_MAX | RAT_INVALID.

(** cellular_common.c:669-702 _Cellular_ConvertCsqSignalRssi: output cell [None] = NULL pointer. *)
Definition ConvertCsqSignalRssi (csqRssi : Z) (pRssi : option Z) : cell_error * option Z :=
  match pRssi with
  | None => (C_BAD_PARAMETER, None)
  | Some old =>
      if csqRssi =? 99 then (C_SUCCESS, Some INVALID_SIGNAL_VALUE)
      else if (csqRssi <? 0) || (31 <? csqRssi) then (C_BAD_PARAMETER, Some old)
      else (C_SUCCESS, Some (-113 + csqRssi * 2))
  end.

(** cellular_common.c:712-722 *)
Definition rxEqualValueToBerTable : list Z := [14; 28; 57; 113; 226; 453; 905; 1810].

(** cellular_common.c:706-751 _Cellular_ConvertCsqSignalBer; the table access is bounds checked ([UB]). *)
Definition ConvertCsqSignalBer (csqBer : Z) (pBer : option Z) : res (cell_error * option Z) :=
  match pBer with
  | None => Ok (C_BAD_PARAMETER, None)
  | Some old =>
      if csqBer =? 99 then Ok (C_SUCCESS, Some INVALID_SIGNAL_VALUE)
      else if (csqBer <? 0) || (7 <? csqBer) then Ok (C_BAD_PARAMETER, Some old)
      else match nth_error rxEqualValueToBerTable (Z.to_nat csqBer) with
           | Some v => Ok (C_SUCCESS, Some v)
           | None => UB
           end
  end.

(** cellular_common.c:317-346: the three threshold tables. *)
Definition gsmSignalBarsTable : list (Z * N) := [(-104, 1%N); (-98, 2%N); (-89, 3%N); (-80, 4%N); (0, 5%N)].
(** cellular_common.c:328-335 *)
Definition lteCATMSignalBarsTable : list (Z * N) := [(-115, 1%N); (-105, 2%N); (-95, 3%N); (-85, 4%N); (0, 5%N)].
(** cellular_common.c:339-346 *)
Definition lteNBIotSignalBarsTable : list (Z * N) := [(-115, 1%N); (-105, 2%N); (-95, 3%N); (-85, 4%N); (0, 5%N)].

(** cellular_common.c:366-373: first row whose threshold is not exceeded. *)
Fixpoint bars_lookup (t : list (Z * N)) (v : Z) : N :=
  match t with
  | [] => INVALID_SIGNAL_BAR_VALUE
  | (thr, b) :: t' => if v <=? thr then b else bars_lookup t' v
  end.

(** cellular_common.c:308-376 _getSignalBars *)
Definition getSignalBars (v : Z) (r : rat) : N :=
  let table := match r with
               | RAT_GSM | RAT_EDGE => gsmSignalBarsTable
               | RAT_CATM1 | RAT_LTE => lteCATMSignalBarsTable
               | RAT_NBIOT => lteNBIotSignalBarsTable
               | _ => []
               end in
  bars_lookup table v.

(** CellularSignalInfo_t restricted to the fields involved: rssi, rsrp, bars. *)
Record signal_info := { si_rssi : Z; si_rsrp : Z; si_bars : N }.
(** Store to bars. *)
Definition set_bars (s : signal_info) (b : N) := {| si_rssi := si_rssi s; si_rsrp := si_rsrp s; si_bars := b |}.

(** cellular_common.c:774-803 _Cellular_ComputeSignalBars *)
Definition ComputeSignalBars (r : rat) (p : option signal_info) : cell_error * option signal_info :=
  match p with
  | None => (C_BAD_PARAMETER, None)
  | Some s =>
      match r with
      | RAT_GSM | RAT_EDGE => (C_SUCCESS, Some (set_bars s (getSignalBars (si_rssi s) r)))
      | RAT_LTE | RAT_CATM1 | RAT_NBIOT => (C_SUCCESS, Some (set_bars s (getSignalBars (si_rsrp s) r)))
      | _ => (C_UNKNOWN, Some (set_bars s INVALID_SIGNAL_BAR_VALUE))
      end
  end.

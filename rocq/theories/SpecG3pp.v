(** Specification vocabulary for the 3GPP API layer: response lines, standard encodings (3GPP TS 24.008, TS 27.007,
    TS 31.102) and decimal/binary texts.  Independent of the model of cellular_3gpp_api.c. *)
From Coq Require Import String List NArith ZArith Bool.
From Verif Require Import Bytes SpecAt.
Import ListNotations.
Local Open Scope N_scope.

(** A response line "<prefix>:<body>" of at most 256 characters. *)
Definition response_line (raw body : str) : Prop :=
  exists p, raw = p ++ 58 :: body /\ ~ In 58 p /\ no_nul raw /\ (N.of_nat (length raw) <= 256).

(** [body] is a comma separated list of fields once the characters satisfying [dropped] are removed. *)
Definition has_fields (dropped : N -> Prop) (body : str) (fields : list str) : Prop :=
  without dropped body (join 44 fields) /\ Forall (fun f => ~ In 44 f) fields.
Definition is_quote (c : N) : Prop := c = 34.
Definition quote_or_space (c : N) : Prop := c = 34 \/ space_char c.

(** The field at a position, if the line has one there and it is not empty. *)
Definition field_at (fields : list str) (i : nat) : option str :=
  match nth_error fields i with Some [] | None => None | Some f => Some f end.

(** ** Timers *)

(** 3GPP TS 24.008, tables 10.5.163a (GPRS timer 3: periodic RAU/TAU, T3412) and 10.5.163 (GPRS timer 2: active time,
    T3324): an octet is a unit (bits 8-6) and a value (bits 5-1). *)
Inductive duration := Seconds (n : N) | Deactivated.
Definition gprs_timer3 (unit value : N) : duration :=
  match unit with
  | 0 => Seconds (value * 600)        (* 10 minutes *)
  | 1 => Seconds (value * 3600)       (* 1 hour *)
  | 2 => Seconds (value * 36000)      (* 10 hours *)
  | 3 => Seconds (value * 2)
  | 4 => Seconds (value * 30)
  | 5 => Seconds (value * 60)
  | 6 => Seconds (value * 1152000)    (* 320 hours *)
  | _ => Deactivated
  end.
Definition gprs_timer2 (unit value : N) : duration :=
  match unit with
  | 0 => Seconds (value * 2)
  | 1 => Seconds (value * 60)
  | 2 => Seconds (value * 360)        (* decihours *)
  | 7 => Deactivated
  | _ => Seconds (value * 60)         (* "other values shall be interpreted as multiples of 1 minute" *)
  end.
(** How the API represents a duration: seconds, all ones for "deactivated". *)
Definition in_seconds (d : duration) : N := match d with Seconds n => n | Deactivated => 4294967295 end.
(** A field holding the binary text of the octet with this unit and value. *)
Definition octet_field (f : str) (unit value : N) : Prop :=
  unit < 8 /\ value < 32 /\ starts_with_numeral 2 f (Z.of_N (32 * unit + value)).

(** ** Texts of numbers *)

(** The usual decimal notation. *)
Definition decimal_text (n : N) (s : str) : Prop :=
  exists ds, s = map (fun d => 48 + d) ds /\ Forall (fun d => d < 10) ds /\ numeral_value 10 ds = Z.of_N n /\
             match ds with [] => False | [_] => True | d :: _ => d <> 0 end.
(** [n] bits, most significant first. *)
Definition binary_text (k : nat) (n : N) (s : str) : Prop :=
  exists ds, s = map (fun d => 48 + d) ds /\ length ds = k /\ Forall (fun d => d < 2) ds /\ numeral_value 2 ds = Z.of_N n.
(** A non-empty sequence of decimal digits and its value. *)
Definition digits (s : str) (v : Z) : Prop :=
  s <> [] /\ exists ds, s = map (fun d => 48 + d) ds /\ Forall (fun d => d < 10) ds /\ numeral_value 10 ds = v.

(** ** Arrays of characters *)

(** The array holds the string [s], NUL terminated inside the array. *)
Definition holds (b : list N) (s : str) : Prop := exists rest, b = s ++ 0 :: rest.

(** ** Home PLMN (TS 31.102 EF_HPLMNwAcT, coded as in TS 24.008): three octets, nibbles swapped, upper case hex;
    the third MNC digit is F for a two-digit MNC. *)
Definition hplmn_record (mcc mnc : str) : str :=
  match mcc, mnc with
  | [c1; c2; c3], [n1; n2] => [c2; c1; 70; c3; n2; n1]
  | [c1; c2; c3], [n1; n2; n3] => [c2; c1; n3; c3; n2; n1]
  | _, _ => []
  end.

(** ** +CPSMS: <mode>,<RAU>,<READY timer>,<TAU>,<active time> *)
Record psm_values := { pv_mode : N; pv_rau : N; pv_rdy : N; pv_tau : N; pv_act : N }.
Definition mode_field (f : str) (v : N) : Prop := v <= 255 /\ starts_with_numeral 2 f (Z.of_N v).
Definition timer3_field (f : str) (n : N) : Prop := exists u v, octet_field f u v /\ u <> 6 /\ n = in_seconds (gprs_timer3 u v).
Definition timer2_field (f : str) (n : N) : Prop := exists u v, octet_field f u v /\ (u <= 2 \/ u = 7) /\ n = in_seconds (gprs_timer2 u v).
Definition given_or (P : str -> N -> Prop) (default : N) (f : option str) (v : N) : Prop :=
  match f with Some f => P f v | None => v = default end.
(** The values a response with these fields conveys; empty or absent fields leave the defaults (mode 255, timers 0). *)
Definition psm_says (fields : list str) (p : psm_values) : Prop :=
  given_or mode_field 255 (field_at fields 0) (pv_mode p) /\ given_or timer3_field 0 (field_at fields 1) (pv_rau p) /\
  given_or timer2_field 0 (field_at fields 2) (pv_rdy p) /\ given_or timer3_field 0 (field_at fields 3) (pv_tau p) /\
  given_or timer2_field 0 (field_at fields 4) (pv_act p).

(** ** Further line shapes *)

(** [t], which neither starts nor ends with white space, surrounded by white space.  (White space after a text of at most
    two characters is excluded: Cellular_ATRemoveTrailingWhiteSpaces does not handle it, see C08.) *)
Definition padded (l t : str) : Prop :=
  exists sp w, l = sp ++ t ++ w /\ Forall space_char sp /\ Forall space_char w /\
    (w = [] \/ 2 < length (t ++ w))%nat /\ (length l <= 256)%nat /\
    (exists c t', t = c :: t' /\ ~ space_char c) /\ (exists c t', t = t' ++ [c] /\ ~ space_char c).
(** "<prefix>:<text>" once white space is removed. *)
Definition spaced_line (raw text : str) : Prop :=
  exists p, without space_char raw (p ++ 58 :: text) /\ ~ In 58 p /\ (length raw <= 256)%nat.
(** A response line "<prefix>:<fields>" with white space and double quotes anywhere. *)
Definition crsm_line (raw : str) (fields : list str) : Prop :=
  exists text, spaced_line raw text /\ has_fields is_quote text fields /\ no_nul raw.
Definition digit3 (l : str) : Prop := length l = 3%nat /\ Forall digit_char l.
Definition digit23 (l : str) : Prop := (length l = 2 \/ length l = 3)%nat /\ Forall digit_char l.
(** Status word SW1 of a successful read (decimal 144, 145, 146). *)
Definition good_sw1 (s : str) : Prop := s = s2b "144" \/ s = s2b "145" \/ s = s2b "146".

(** A field with a number in 0..max-1; a field with a number outside. *)
Definition small_numeral (max : Z) (f : str) (v : Z) : Prop := (starts_with_numeral 10 f v /\ 0 <= v < max)%Z.
Definition big_numeral (max : Z) (f : str) : Prop := exists v, (starts_with_numeral 10 f v /\ int32_range v /\ ~ 0 <= v < max)%Z.

(** +COPS: <mode>,2,<plmn>,<AcT> *)
Definition cops_fields (fields : list str) (mode act : Z) (p : str) : Prop :=
  exists fm f2 fa, fields = [fm; f2; p; fa] /\ small_numeral 5 fm mode /\ small_numeral 10 f2 2 /\ small_numeral 10 fa act /\
    (length p = 5 \/ length p = 6)%nat.
(** +COPS with a mode, format, operator code or access technology out of range. *)
Inductive cops_out_of_range : list str -> Prop :=
| oor_mode f more : big_numeral 5 f -> cops_out_of_range (f :: more)
| oor_format f v f2 more : small_numeral 5 f v -> big_numeral 10 f2 -> cops_out_of_range (f :: f2 :: more)
| oor_code f v f2 w p more : small_numeral 5 f v -> small_numeral 10 f2 w -> (w = 2%Z /\ length p <> 5%nat /\ length p <> 6%nat \/ (3 <= w)%Z) ->
    cops_out_of_range (f :: f2 :: p :: more)
| oor_act f v f2 p fa more : small_numeral 5 f v -> small_numeral 10 f2 2 -> (length p = 5 \/ length p = 6)%nat -> big_numeral 10 fa ->
    cops_out_of_range (f :: f2 :: p :: fa :: more).

(** +CEDRXS: <AcT-type>,"<requested eDRX value, binary>" *)
Definition edrx_line (raw : str) (entry : Z * Z) : Prop :=
  exists body fr fv, response_line raw body /\ has_fields is_quote body [fr; fv] /\
    starts_with_numeral 10 fr (fst entry) /\ starts_with_numeral 2 fv (snd entry) /\ (0 <= fst entry <= 255)%Z /\ (0 <= snd entry <= 255)%Z.

(** ** The clock: "yy/MM/dd,hh:mm:ss+zz" *)
Record clock := { k_year : Z; k_month : Z; k_day : Z; k_hour : Z; k_minute : Z; k_second : Z; k_zone : Z }.
Definition clock_text (s : str) (k : clock) : Prop :=
  exists Y M D h mi sc sg z vz, s = Y ++ 47 :: M ++ 47 :: D ++ 44 :: h ++ 58 :: mi ++ 58 :: sc ++ sg :: z /\
    digits Y (k_year k) /\ digits M (k_month k) /\ digits D (k_day k) /\ digits h (k_hour k) /\ digits mi (k_minute k) /\
    digits sc (k_second k) /\ digits z vz /\ (sg = 43 /\ k_zone k = vz \/ sg = 45 /\ k_zone k = (- vz)%Z).
(** The numbers fit the members of the caller's structure. *)
Definition clock_range (k : clock) : Prop :=
  (k_year k <= 65535 /\ k_month k <= 255 /\ k_day k <= 255 /\ k_hour k <= 255 /\ k_minute k <= 255 /\ k_second k <= 255 /\
   int32_range (k_zone k) /\ k_zone k <> - 2 ^ 31)%Z.
(** Numbers that a 32-bit variable can hold. *)
Definition clock_numbers (k : clock) : Prop :=
  (int32_range (k_year k) /\ int32_range (k_month k) /\ int32_range (k_day k) /\ int32_range (k_hour k) /\ int32_range (k_minute k) /\
   int32_range (k_second k) /\ int32_range (k_zone k) /\ k_zone k <> - 2 ^ 31)%Z.

(** Registration reports in the modem's byte stream. *)
From Coq Require Import String List NArith ZArith Bool.
From Verif Require Import Bytes AtCore Status SpecAt Pktio PktHandler RegStatus SpecReg SpecPktio SpecStream G3pp Wire SpecWire SpecTimed RegWire.
Import ListNotations.
Local Open Scope list_scope.

(** Name of the URC of a domain (3GPP TS 27.007). *)
Definition reg_name (rt : reg_type) : str :=
  match rt with REG_CREG => s2b "CREG" | REG_CGREG => s2b "CGREG" | REG_CEREG => s2b "CEREG" | REG_UNKNOWN => [] end.
(** [l] is a registration URC of domain [rt] with the values [vs] for its first fields. *)
Definition reg_urc (rt : reg_type) (l : str) (vs : list Z) : Prop :=
  rt <> REG_UNKNOWN /\ at_len_ok l /\ exists payload ts extra, l = 43%N :: reg_name rt ++ 58%N :: payload /\ report_line payload (ts ++ extra) /\
    fields_text (layout rt) ts vs /\ ts <> [] /\ (extra = [] \/ length ts = length (layout rt)).
(** [l] has nothing to do with registration (a line longer than 256 bytes never has). *)
Definition other_line (l : str) : Prop :=
  ~ at_len_ok l \/ forall rt payload, rt <> REG_UNKNOWN -> l <> 43%N :: reg_name rt ++ 58%N :: payload /\ l <> reg_name rt /\ l <> 43%N :: 58%N :: payload.

(** What the lines mean: the record and the events the application must get, one for each change of the status of a domain. *)
Inductive story (cb : bool) : at_data -> list str -> at_data -> list reg_event -> Prop :=
| st_nil d : story cb d [] d []
| st_reg d rt l vs ls d' evs : reg_urc rt l vs -> story cb (recorded rt vs d) ls d' evs ->
    story cb d (l :: ls) d' (due_events cb rt d (recorded rt vs d) ++ evs)
| st_other d l ls d' evs : other_line l -> story cb d ls d' evs -> story cb d (l :: ls) d' evs.

(** The lines of the chunks, for a reader that holds [cap] bytes; if a line is refused, without those behind it in its chunk (and the
    unfinished line at the end of that chunk). *)
Inductive survive (cap : nat) : str -> list str -> list str -> Prop :=
| sv_nil lft : survive cap lft [] []
| sv_chunk lft c cs ls lft' kept : capped_lines cap lft c = (ls, lft') -> survive cap lft' cs kept -> survive cap lft (c :: cs) (ls ++ kept)
| sv_refused lft c cs ls l rest kept : fst (capped_lines cap lft c) = ls ++ l :: rest -> survive cap [] cs kept -> survive cap lft (c :: cs) (ls ++ l :: kept).

(** The port's table has the three registration handlers under their names and nowhere else. *)
Definition reg_table (tbl : list urc_entry) (who : nat -> option reg_type) : Prop :=
  (forall rt, rt <> REG_UNKNOWN -> exists h, In (reg_name rt, Some h) tbl /\ who h = Some rt) /\
  (forall name h rt, In (name, Some h) tbl -> who h = Some rt -> rt <> REG_UNKNOWN /\ name = reg_name rt).
(** No command in flight expects registration lines. *)
Definition no_reg_query (env : environment) : Prop :=
  forall t h rt payload, rt <> REG_UNKNOWN -> v_cmd (env t h) = T_NO_COMMAND \/ ~ expected (v_prefix (env t h)) (43%N :: reg_name rt ++ 58%N :: payload).
(** There is memory for the copy of a line. *)
Definition memory_available (alloc : nat -> option (list N)) : Prop := forall n, (n <= 257)%nat -> alloc n <> None.

(** The registration events among what is told. *)
Fixpoint reg_told (l : list told) : list reg_event :=
  match l with [] => [] | ToldReg e :: r => e :: reg_told r | _ :: r => reg_told r end.

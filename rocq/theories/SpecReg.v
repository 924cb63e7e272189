(** Specification vocabulary for registration reports (3GPP TS 27.007 +CREG/+CGREG/+CEREG). *)
From Coq Require Import List NArith ZArith Bool.
From Verif Require Import Bytes SpecAt RegStatus.
Import ListNotations.
Local Open Scope Z_scope.

(** Fields of a report in the order of the standard. *)
Inductive reg_field := F_STAT | F_AREA | F_CELL | F_ACT | F_RAC | F_CAUSE_TYPE | F_CAUSE.
Definition layout (rt : reg_type) : list reg_field :=
  match rt with
  | REG_CGREG => [F_STAT; F_AREA; F_CELL; F_ACT; F_RAC; F_CAUSE_TYPE; F_CAUSE]
  | _ => [F_STAT; F_AREA; F_CELL; F_ACT; F_CAUSE_TYPE; F_CAUSE]
  end.

(** Area code, cell id and routing area are hexadecimal, the others decimal. *)
Definition field_base (f : reg_field) : N := match f with F_AREA | F_CELL | F_RAC => 16 | _ => 10 end.
Definition field_range (f : reg_field) (v : Z) : Prop :=
  match f with
  | F_STAT => 0 <= v <= 8
  | F_AREA => 0 <= v <= 65535
  | F_CELL => 0 <= v
  | F_ACT => 0 <= v <= 9
  | F_RAC | F_CAUSE_TYPE | F_CAUSE => 0 <= v <= 255
  end.
(** [t] is a text for value [v] of field [f]. *)
Definition field_text (f : reg_field) (t : str) (v : Z) : Prop :=
  starts_with_numeral (field_base f) t v /\ int32_range v /\ field_range f v.
(** [t] carries no acceptable value of field [f]: not a numeral (e.g. empty), or out of range. *)
Definition field_bad (f : reg_field) (t : str) : Prop :=
  no_numeral (field_base f) t \/ exists v, starts_with_numeral (field_base f) t v /\ int32_range v /\ ~ field_range f v.

(** Texts and values for the first fields of the layout. *)
Inductive fields_text : list reg_field -> list str -> list Z -> Prop :=
| ft_nil l : fields_text l [] []
| ft_cons f l t ts v vs : field_text f t v -> fields_text l ts vs -> fields_text (f :: l) (t :: ts) (v :: vs).

Definition reg_field_eqb (a b : reg_field) : bool :=
  match a, b with
  | F_STAT, F_STAT | F_AREA, F_AREA | F_CELL, F_CELL | F_ACT, F_ACT | F_RAC, F_RAC | F_CAUSE_TYPE, F_CAUSE_TYPE | F_CAUSE, F_CAUSE => true
  | _, _ => false
  end.
Fixpoint lookup (l : list reg_field) (vs : list Z) (f : reg_field) : option Z :=
  match l, vs with
  | g :: l', v :: vs' => if reg_field_eqb g f then Some v else lookup l' vs' f
  | _, _ => None
  end.
(** Value the report carries for a field, if any. *)
Definition given (rt : reg_type) (vs : list Z) (f : reg_field) : option Z := lookup (layout rt) vs f.

(** The report says the domain is not registered (neither home nor roaming). *)
Definition not_registered (rt : reg_type) (vs : list Z) : bool :=
  match given rt vs F_STAT with Some v => negb ((v =? 1) || (v =? 5)) | None => false end.
Definition denied (rt : reg_type) (vs : list Z) (old : Z) : bool :=
  match given rt vs F_STAT with Some v => v =? 3 | None => old =? 3 end.
Definition or_else (x : option Z) (y : Z) : Z := match x with Some v => v | None => y end.
Definition reset_or (b : bool) (v old : Z) : Z := if b then v else old.
(** Access technologies the library reports; the others are reported as "invalid" (255). *)
Definition known_act (v : Z) : Z := if existsb (Z.eqb v) [0; 3; 7; 8; 9] then v else 255.
Definition is_cs (rt : reg_type) : bool := match rt with REG_CREG => true | _ => false end.
Definition is_eps (rt : reg_type) : bool := match rt with REG_CEREG => true | _ => false end.

(** What must be recorded after a report with values [vs], starting from record [d]. *)
Definition recorded (rt : reg_type) (vs : list Z) (d : at_data) : at_data :=
  let nr := not_registered rt vs in
  {| d_cs := if is_cs rt then or_else (given rt vs F_STAT) (d_cs d) else d_cs d;
     d_ps := if is_cs rt then d_ps d else or_else (given rt vs F_STAT) (d_ps d);
     d_lac := or_else (if is_eps rt then None else given rt vs F_AREA) (reset_or nr 65535 (d_lac d));
     d_tac := or_else (if is_eps rt then given rt vs F_AREA else None) (d_tac d);
     d_cellId := or_else (given rt vs F_CELL) (reset_or nr 4294967295 (d_cellId d));
     d_rat := or_else (option_map known_act (given rt vs F_ACT)) (reset_or nr 255 (d_rat d));
     d_rac := or_else (given rt vs F_RAC) (reset_or nr 255 (d_rac d));
     d_csRejType := if is_cs rt && denied rt vs (d_cs d) then or_else (given rt vs F_CAUSE_TYPE) (d_csRejType d) else d_csRejType d;
     d_csRejCause := if is_cs rt && denied rt vs (d_cs d) then or_else (given rt vs F_CAUSE) (d_csRejCause d) else d_csRejCause d;
     d_psRejType := if negb (is_cs rt) && denied rt vs (d_ps d) then or_else (given rt vs F_CAUSE_TYPE) (d_psRejType d) else d_psRejType d;
     d_psRejCause := if negb (is_cs rt) && denied rt vs (d_ps d) then or_else (given rt vs F_CAUSE) (d_psRejCause d) else d_psRejCause d |}.

(** Quotes and white space may appear anywhere in a report. *)
Definition ignored_char (c : N) : Prop := c = 34%N \/ space_char c.
(** [raw] is, apart from quotes and white space, the comma-separated list [fields]. *)
Definition report_line (raw : str) (fields : list str) : Prop :=
  at_len_ok raw /\ no_nul raw /\ without ignored_char raw (join 44 fields) /\ Forall (fun f => ~ In 44%N f) fields.

(** Registration status of the domain a report is about. *)
Definition domain_status (rt : reg_type) (d : at_data) : Z := if is_cs rt then d_cs d else d_ps d.

(** The event the application must get: one if a callback is registered and the status of that domain changed, with the
    new values; none otherwise. *)
Definition event_of (rt : reg_type) (d : at_data) : reg_event :=
  {| ev_kind := if is_cs rt then EV_CS else EV_PS; ev_rat := d_rat d; ev_cs := d_cs d; ev_ps := d_ps d;
     ev_csRejCause := d_csRejCause d; ev_csRejType := d_csRejType d; ev_psRejCause := d_psRejCause d; ev_psRejType := d_psRejType d |}.
Definition due_events (cb : bool) (rt : reg_type) (d d' : at_data) : list reg_event :=
  if cb && negb (domain_status rt d' =? domain_status rt d) then [event_of rt d'] else [].

(** A query answer carries the prefix and <n> in its first field, an unsolicited report starts with <stat>. *)
Inductive leading : bool -> list str -> Prop :=
| leading_urc : leading true []
| leading_read n : n <> [] -> leading false [n].

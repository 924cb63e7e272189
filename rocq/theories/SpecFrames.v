(** What a modem stream with embedded binary frames is, for the input-buffer callback of the port (C87). *)
From Coq Require Import List NArith ZArith Bool.
From Verif Require Import Bytes AtCore Status SpecAt Pktio SpecPktio SpecStream.
Import ListNotations.

(** The modem sends text lines, each with its line end, and frames of arbitrary bytes. *)
Inductive segment :=
| Line (l ends : str)
| Frame (f : str).
Definition seg_bytes (g : segment) : str := match g with Line l ends => l ++ ends | Frame f => f end.
Definition bytes_of (gs : list segment) : str := concat (map seg_bytes gs).
(** The text lines of the stream, without the frames. *)
Fixpoint lines_of (gs : list segment) : list str :=
  match gs with [] => [] | Line l _ :: t => l :: lines_of t | Frame _ :: t => lines_of t end.

Section Callback.
(** The registered callback: status, number of bytes it took, the bytes as it leaves them. *)
Variable cbk : str -> pkt_status * nat * str.
Definition declines (bs : str) : Prop := exists k, cbk bs = (PKT_PREFIX_MISMATCH, k, bs).
Definition needs_more (bs : str) : Prop := exists k, cbk bs = (PKT_SIZE_MISMATCH, k, bs).
Definition takes (k : nat) (bs : str) : Prop := cbk bs = (PKT_OK, k, bs).

(** A frame the callback knows: it takes exactly the frame, whatever follows, and asks for more while the frame is incomplete (or
    declines, while what it has seen could still be the beginning of a line). *)
Definition known_frame (f : str) : Prop :=
  (exists c t, f = c :: t /\ ~ eol c) /\
  (forall x, takes (length f) (f ++ x)) /\
  (forall p q, f = p ++ q -> p <> [] -> q <> [] -> needs_more p \/ declines p /\ line_text p).
(** A line that is not the callback's business. *)
Definition foreign_line (l : str) : Prop :=
  (forall e x, eol e -> declines (l ++ e :: x)) /\
  (forall p q, l = p ++ q -> p <> [] -> declines p \/ needs_more p).
Definition segment_ok (g : segment) : Prop :=
  match g with
  | Line l ends => l <> [] /\ line_text l /\ ends <> [] /\ Forall eol ends /\ foreign_line l
  | Frame f => known_frame f
  end.
(** Every frame is directly followed by a line (or the end). *)
Fixpoint separated (gs : list segment) : Prop :=
  match gs with
  | [] => True
  | Frame _ :: ((Frame _ :: _) as t) => False
  | _ :: t => separated t
  end.
Definition frames_stream (gs : list segment) : Prop :=
  Forall segment_ok gs /\ separated gs /\ (declines [] \/ needs_more []).
End Callback.

(** Environments of the stream theorems with an input-buffer callback instead of a data callback. *)
Definition frames_env (cbk : str -> pkt_status * nat * str) (env : environment) : Prop :=
  forall t h, env t h = env 0%nat h /\
    let v := env t h in
    v_inbuf v = Some cbk /\ v_send v = None /\ v_data v = None /\ v_handler v = true /\ tables_ok (v_tokens v) /\
    prefix_usable (v_prefix v) /\ v_cmd2 v = v_cmd v.

(** The same view with another input-buffer / data-send callback. *)
Definition with_inbuf (c : option (str -> pkt_status * nat * str)) (v : view) : view :=
  {| v_inbuf := c; v_send := v_send v; v_data := v_data v; v_tokens := v_tokens v; v_cmd := v_cmd v; v_prefix := v_prefix v;
     v_cmd2 := v_cmd2 v; v_handler := v_handler v; v_undef := v_undef v |}.
Definition with_send (c : option (str -> pkt_status * str)) (v : view) : view :=
  {| v_inbuf := v_inbuf v; v_send := c; v_data := v_data v; v_tokens := v_tokens v; v_cmd := v_cmd v; v_prefix := v_prefix v;
     v_cmd2 := v_cmd2 v; v_handler := v_handler v; v_undef := v_undef v |}.

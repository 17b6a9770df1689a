(** Vocabulary for headers inside a frame, in terms of the field and header
    records of Hdr.v only. *)

From Verif Require Import Hdr.
From Verif Require Export SpecText SpecBits.

(** What a field carries: the value given (or computed), else the default. *)
Definition field_data (f : field) : option (list Z) :=
  match f_val f with Some v => Some v | None => f_def f end.

(** The field's bits lie inside the header. *)
Definition within (h : hdr) (f : field) : Prop :=
  0 <= f_off f /\ 0 <= f_width f /\ f_off f + f_width f <= 8 * h_size h.

Definition overlap (f g : field) : Prop :=
  f_off f < f_off g + f_width g /\ f_off g < f_off f + f_width f.

(** Every field that carries data lies inside the header and its data is wide
    enough for it. *)
Definition well_formed (h : hdr) : Prop :=
  0 <= h_size h /\
  forall f, In f (h_fields h) ->
    0 <= f_width f <= 8 * h_size h /\
    forall v, field_data f = Some v -> f_width f = 0 \/
      (within h f /\ f_width f <= 8 * Z.of_nat (length v) /\
       Forall is_byte v /\ Z.of_nat (length v) < 2 ^ 60).

(** Every field that is compared lies inside the header. *)
Definition well_formed_mask (h : hdr) : Prop :=
  0 <= h_size h /\
  forall f, In f (h_fields h) ->
    0 <= f_width f <= 8 * h_size h /\ (f_skip f = false -> f_width f = 0 \/ within h f).

Definition sum_sizes (hs : list hdr) : Z := fold_right Z.add 0 (map h_size hs).

(** Where header number [k] starts (in bytes). *)
Definition start_of (hs : list hdr) (k : nat) : Z := sum_sizes (firstn k hs).

(** [fs] is laid out from bit [p] to bit [e] without gap: each field starts where
    the previous one ended, or lies inside what is already covered (an overlay
    giving another name to bits of other fields). *)
Inductive tiled : list field -> Z -> Z -> Prop :=
| tl_end : forall p, tiled [] p p
| tl_next : forall f r p e, f_off f = p -> 0 <= f_width f ->
    tiled r (p + f_width f) e -> tiled (f :: r) p e
| tl_overlay : forall f r p e, 0 < f_off f -> 0 <= f_width f -> f_off f + f_width f <= p ->
    tiled r p e -> tiled (f :: r) p e.

(** A bit that takes part in the comparison: every bit without a mask, otherwise
    the bits set in the mask (and those beyond its end). *)
Definition compared (mask : option (list Z)) (i : Z) : Prop :=
  match mask with
  | None => True
  | Some m => 8 * Z.of_nat (length m) <= i \/ bit_at m i = true
  end.

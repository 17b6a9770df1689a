(** What a frame written in words means (C65): headers of the published formats, each
    with assignments "field value" in any order, and a payload. *)

From Verif Require Import PTextIp Frame SpecParse SpecFrame.
From Verif Require Export SpecLayout.

(** *** Values *)

(** The number a text stands for in a field of [k] bytes. *)
Inductive value_text (k : Z) : string -> Z -> Prop :=
| vt_number : forall s n, 1 <= k <= 8 -> number s n -> 0 <= n < 2 ^ 64 -> value_text k s n
| vt_hex : forall body ds, 8 < k -> digits_of 16 body ds -> (0 < length ds)%nat -> Nat.Even (length ds) ->
    Z.of_nat (length ds) <= 2 * k -> value_text k ("0x" ++ body) (positional 16 ds)
| vt_binary : forall body ds, 8 < k -> digits_of 2 body ds -> (0 < length ds)%nat -> Z.of_nat (length ds) mod 8 = 0 ->
    Z.of_nat (length ds) <= 8 * k -> value_text k ("0b" ++ body) (positional 2 ds)
| vt_mac : forall ts vs, k = 6 -> Forall2 (hex_group 2) ts vs -> length vs = 6%nat -> ~ starts_0b (joined ":" ts) ->
    value_text k (joined ":" ts) (positional 256 vs)
| vt_mac_short : forall tp tq p q, k = 6 -> Forall2 (hex_group 2) tp p -> Forall2 (hex_group 2) tq q ->
    (length p + length q <= 5)%nat -> ~ starts_0b (joined ":" tp) ->
    value_text k (joined ":" tp ++ "::" ++ joined ":" tq) (positional 256 (p ++ zeros (6 - length p - length q) ++ q)%list)
| vt_ipv4 : forall a b c d, k = 4 -> is_byte a -> is_byte b -> is_byte c -> is_byte d ->
    value_text k (decimal a ++ "." ++ decimal b ++ "." ++ decimal c ++ "." ++ decimal d) (positional 256 [a; b; c; d])
| vt_ipv6 : forall ts gs, k = 16 -> Forall2 (hex_group 4) ts gs -> length gs = 8%nat -> ~ starts_0b (joined ":" ts) ->
    value_text k (joined ":" ts) (positional 65536 gs)
| vt_ipv6_short : forall tp tq p q, k = 16 -> Forall2 (hex_group 4) tp p -> Forall2 (hex_group 4) tq q ->
    (length p + length q <= 7)%nat -> ~ starts_0b (joined ":" tp) ->
    value_text k (joined ":" tp ++ "::" ++ joined ":" tq) (positional 65536 (p ++ zeros (8 - length p - length q) ++ q)%list).

(** Four fields are written in another way. *)
Definition special : list (string * string) :=
  [ ("coap", "code"); ("opc-ua", "pub-id"); ("opc-ua", "wg-id"); ("oam-ccm", "meg_id") ]%string.

(** The number the text [s] stands for in field [fld], of [w] bits, of header [n]. *)
Inductive means (n fld : string) (w : Z) : string -> Z -> Prop :=
| m_value : forall s x, ~ In (n, fld) special -> value_text ((w + 7) / 8) s x -> means n fld w s x
| m_code : forall c dd, (n, fld) = ("coap", "code")%string -> 0 <= c <= 7 -> 0 <= dd <= 31 -> means n fld w (code_text c dd) (32 * c + dd)
| m_little : forall s x, In (n, fld) [("opc-ua", "pub-id"); ("opc-ua", "wg-id")]%string -> number s x -> 0 <= x < 2 ^ 64 ->
    means n fld w s (256 * (x mod 256) + x / 256 mod 256)
| m_left : forall s d, (n, fld) = ("oam-ccm", "meg_id")%string -> hexdump d s -> d <> [] -> Z.of_nat (length d) <= 48 ->
    means n fld w s (positional 256 (d ++ zeros (48 - length d))%list).

(** *** Frames *)

(** Headers with their assignments, and the pieces of the payload (none: no payload). *)
Definition headers := list (string * list (string * string)).

Definition header_text (p : string * list (string * string)) : list string := fst p :: words_of (snd p).
Definition payload_text (ps : list piece) : list string :=
  match ps with [] => [] | _ => "data"%string :: flat_map piece_words ps end.
Definition text (hs : headers) (ps : list piece) : list string := (flat_map header_text hs ++ payload_text ps)%list.

Definition format_named (n : string) (m : format) : Prop := In (n, m) formats.

(** A header of one of the formats; every assignment is to a field of the format,
    with a text that means something for it. *)
Definition well_written (p : string * list (string * string)) : Prop :=
  exists m, format_named (fst p) m /\
  forall fld s, In (fld, s) (snd p) -> fld <> "-"%string /\ exists off w x, place m fld = Some (off, w) /\ means (fst p) fld w s x.

Definition payload (ps : list piece) : list Z := concat (map piece_data ps).

(** The bits of the headers. *)
Definition header_bits (n : string) : Z :=
  match find (fun p => String.eqb (fst p) n) formats with Some p => bits (snd p) | None => 0 end.
Definition bits_of (hs : headers) : Z := fold_right (fun p a => header_bits (fst p) + a) 0 hs.

(** The [w] bits from bit [off] of header [k] on. *)
Definition bits_at (hs : headers) (b : list Z) (k : nat) (off w : Z) : Z :=
  number_at b (bits_of (firstn k hs) + off) (Z.to_nat w).

(** The fields of header [k], [p] as written, are in [b]: the number the last text
    given for it stands for, cut to the width of the field; the preset value if
    nothing is given and the program does not work the field out. *)
Definition fields_are (hs : headers) (b : list Z) (k : nat) (p : string * list (string * string)) : Prop :=
  forall m fld off w, format_named (fst p) m -> fld <> "-"%string -> place m fld = Some (off, w) ->
  match last_given (snd p) fld with
  | Some s => forall x, means (fst p) fld w s x -> bits_at hs b k off w = x mod 2 ^ w
  | None => is_worked_out (fst p) fld = false -> bits_at hs b k off w = preset_value (fst p) fld
  end.

(** [b] is the frame with the headers [hs] and the payload [ps]: the headers one after
    the other without gap, the payload, zeros up to 60 bytes. *)
Record frame_is (hs : headers) (ps : list piece) (b : list Z) : Prop := MkFrameIs {
  fi_size : Z.of_nat (length b) = Z.max 60 (bits_of hs / 8 + Z.of_nat (length (payload ps)));
  fi_bytes : Forall is_byte b;
  fi_whole : bits_of hs mod 8 = 0;
  fi_fields : forall k p, nth_error hs k = Some p -> fields_are hs b k p;
  fi_payload : slice b (Z.to_nat (bits_of hs / 8)) (length (payload ps)) = payload ps;
  fi_rest : forall i, (Z.to_nat (bits_of hs / 8) + length (payload ps) <= i)%nat -> nth i b 0 = 0 }.

(** What the frame [f] has for header [k]: its name and which fields are given. *)
Definition header_is (f : frame) (k : nat) (p : string * list (string * string)) : Prop :=
  named f k (fst p) /\
  forall m fld off w, format_named (fst p) m -> fld <> "-"%string -> place m fld = Some (off, w) ->
    user_gave f k fld = match last_given (snd p) fld with Some _ => true | None => false end.

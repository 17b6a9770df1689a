(** Vocabulary for the fields that are filled automatically. *)

From Verif Require Import Frame Fill.
From Verif Require Export SpecText SpecBits SpecFrame SpecParse SpecSum.

(** [f'] and the bytes [b] are what serialising the frame given by the words [ws]
    produces; [f] is the frame as parsed.  No header is one of the two kinds that are
    not [regular] (SpecParse.v). *)
Definition serialised (ws : list string) (f f' : frame) (b : list Z) : Prop :=
  (exists n, argc_frame ws = Ret (Some (n, f))) /\
  Forall (fun h => regular h = true) (fr_stack f) /\
  frame_to_buf f = Ret (f', b).

(** Header [k] of the frame has the name [n]. *)
Definition named (f : frame) (k : nat) (n : string) : Prop :=
  exists h, nth_error (fr_stack f) k = Some h /\ h_name h = n.

(** The user gave a value for field [fld] of header [k]. *)
Definition user_gave (f : frame) (k : nat) (fld : string) : bool :=
  match nth_error (fr_stack f) k with Some h => given h fld | None => false end.

(** Where header [k] starts, and how many bytes there are from there to the end of
    the last header. *)
Definition at_byte (f : frame) (k : nat) : nat := Z.to_nat (start_of (fr_stack f) k).
Definition bytes_from (f : frame) (k : nat) : Z := sum_sizes (fr_stack f) - start_of (fr_stack f) k.

(** The emitted bytes from header [k] to the end of the last header. *)
Definition message (f : frame) (b : list Z) (k : nat) : list Z :=
  slice b (at_byte f k) (Z.to_nat (bytes_from f k)).

(** The number in the [w] bits at bit [o] of header [k]. *)
Definition field_at (f : frame) (b : list Z) (k : nat) (o : Z) (w : nat) : Z :=
  number_at b (8 * start_of (fr_stack f) k + o) w.

(** The same bytes with the two at [off] set to zero. *)
Definition blank (off : nat) (m : list Z) : list Z := firstn off m ++ [0; 0] ++ skipn (off + 2) m.

Definition four_bytes (n : Z) : list Z := two_bytes (n / 65536) ++ two_bytes (n mod 65536).

(** The pseudo headers of RFC 768/793 and RFC 8200 for an IP header that starts at
    byte [p]: the addresses as they are in the frame, the protocol and the length. *)
Definition pseudo_header4 (b : list Z) (p : nat) (proto len : Z) : list Z :=
  slice b (p + 12) 4 ++ slice b (p + 16) 4 ++ [0; proto] ++ two_bytes len.
Definition pseudo_header6 (b : list Z) (p : nat) (proto len : Z) : list Z :=
  slice b (p + 8) 16 ++ slice b (p + 24) 16 ++ four_bytes len ++ [0; 0; 0; proto].

(** The transport headers: name, protocol number and byte offset of the checksum. *)
Definition transport (n : string) (proto : Z) (off : nat) : Prop :=
  (n = "udp"%string /\ proto = 17 /\ off = 6%nat) \/ (n = "tcp"%string /\ proto = 6 /\ off = 16%nat).

(** The length fields: header, field, bit offset of its 16 bits, and the number of
    bytes of the header that the length does not count (RFC 791, 8200, 768,
    IEEE 1588 messageLength and lengthField). *)
Definition length_fields : list (string * (string * Z * Z)) :=
  [ ("ipv4", ("len", 16, 0)); ("ipv6", ("len", 32, 40)); ("udp", ("len", 32, 0));
    ("ptp-sync", ("hdr-messageLength", 16, 0)); ("ptp-follow-up", ("hdr-messageLength", 16, 0));
    ("ptp-request", ("hdr-messageLength", 16, 0)); ("ptp-response", ("hdr-messageLength", 16, 0));
    ("ptp-peer-request", ("hdr-messageLength", 16, 0)); ("ptp-peer-response", ("hdr-messageLength", 16, 0));
    ("ptp-peer-response-follow-up", ("hdr-messageLength", 16, 0)); ("ptp-announce", ("hdr-messageLength", 16, 0));
    ("ptp-tlv-org", ("tlv-length", 16, 4)); ("ptp-tlv-path", ("tlv-length", 16, 4)) ]%string.

(** The number that announces a header in the one before it: ethertypes and IP
    protocol numbers.  Headers that are not listed have the number 0; mldv2_group and
    the two ptp-tlv headers have a number although they never follow a header that
    announces them. *)
Definition type_numbers : list (string * Z) :=
  [ ("ipv4", 0x0800); ("arp", 0x0806); ("ctag", 0x8100); ("ipv6", 0x86dd); ("profinet-rtc", 0x8892);
    ("stag", 0x88a8); ("mrp_tst", 0x88e3); ("mrp_topo", 0x88e3); ("mrp_lnk", 0x88e3); ("mrp_prop_nack", 0x88e3);
    ("ptp-sync", 0x88f7); ("ptp-follow-up", 0x88f7); ("ptp-request", 0x88f7);
    ("ptp-response", 0x88f7); ("ptp-peer-request", 0x88f7); ("ptp-peer-response", 0x88f7);
    ("ptp-peer-response-follow-up", 0x88f7); ("ptp-announce", 0x88f7); ("sv", 0x88fb);
    ("oam-ccm", 0x8902); ("oam-laps", 0x8902); ("oam-lb", 0x8902); ("oam-lt", 0x8902); ("oam-raps", 0x8902);
    ("htag", 0x892f); ("opc-ua", 0xb62c); ("rtag", 0xf1c1);
    ("icmp", 1); ("igmp", 2); ("mldv2_group", 2); ("tcp", 6); ("ptp-tlv-org", 6); ("ptp-tlv-path", 6); ("udp", 17) ]%string.

Definition type_number (n : string) : Z :=
  match find (fun p => String.eqb (fst p) n) type_numbers with Some p => snd p | None => 0 end.

(** The fields that announce the next header: header, field, bit offset, width, and
    what is emitted when no header follows. *)
Definition type_fields : list (string * (string * Z * Z * Z)) :=
  [ ("eth", ("et", 96, 16, 0xaaaa)); ("ctag", ("et", 16, 16, 0)); ("stag", ("et", 16, 16, 0)); ("rtag", ("et", 32, 16, 0));
    ("htag", ("et", 32, 16, 0)); ("ipv4", ("proto", 72, 8, 17)); ("ipv6", ("next", 48, 8, 17)) ]%string.

(** What header [k] says about the one after it: its number, but 58 for an icmp
    header without a given checksum after an ipv6 header. *)
Definition announced (f : frame) (k : nat) (this next : string) : Z :=
  if String.eqb this "ipv6" && String.eqb next "icmp" && negb (user_gave f (S k) "chksum") then 58 else type_number next.

(** Header [k] of [f] and of [f'] are [h] and [h']. *)
Definition header_pair (f f' : frame) (k : nat) (h h' : hdr) : Prop :=
  nth_error (fr_stack f) k = Some h /\ nth_error (fr_stack f') k = Some h'.

(** Field [j] of header [h] is [fl] and shares no bit with another field. *)
Definition alone (h : hdr) (j : nat) (fl : field) : Prop :=
  nth_error (h_fields h) j = Some fl /\
  forall i g, i <> j -> nth_error (h_fields h) i = Some g -> ~ overlap fl g.

(** igmp and mld messages have two forms.  A header for which one of the report
    fields is given is a report: its report fields are at bits 32 and 48 and the
    fields listed second are not part of it. *)
Definition is_query (h : hdr) : bool := existsb (given h) ["qresv"; "s"; "qrv"; "qqic"; "ns"]%string.
Definition is_report (h : hdr) : bool := existsb (given h) ["rresv"; "ng"]%string.
Definition report_place (h : hdr) (fl : field) : Z :=
  if is_report h then if String.eqb (f_name fl) "rresv" then 32 else if String.eqb (f_name fl) "ng" then 48 else f_off fl else f_off fl.
Definition not_in_report (n : string) : list string :=
  if String.eqb n "igmp" then ["ga"]%string else ["max_resp"; "rsv"; "ga"]%string.

(** The number of bytes a CoAP option needs for a delta or a length. *)
Definition option_extra (x : Z) : Z := if x <? 13 then 0 else if x <? 269 then 1 else 2.

(** The value given for field [fld] of [h]. *)
Definition value_of (h : hdr) (fld : string) : option (list Z) :=
  match find_field h fld with Some f => f_val f | None => None end.

(** The size of a header after filling. *)
Definition size_after (h : hdr) : Z :=
  if String.eqb (h_name h) "igmp" then (if is_query h then 12 else 8)
  else if String.eqb (h_name h) "mld" then (if is_report h then 8 else if is_query h then 28 else 24)
  else if String.eqb (h_name h) "sv" then (if existsb (given h) ["tlv2_type"; "tlv2_len"; "tlv2_mac"]%string then 22 else 14)
  else if String.eqb (h_name h) "coap-opt" then
    match value_of h "num", value_of h "val" with
    | Some d, Some v => 1 + option_extra (positional 256 d mod 65536) + option_extra (Z.of_nat (length v) mod 65536) + Z.of_nat (length v)
    | _, _ => h_size h
    end
  else h_size h.

(** ** CoAP options (RFC 7252, section 3.1) *)

(** The number behind a 4-bit delta or length, whose extension is in front of [m]. *)
Definition extended (nibble : Z) (m : list Z) : option (Z * list Z) :=
  if nibble <? 13 then Some (nibble, m)
  else if nibble =? 13 then match m with x :: r => Some (x + 13, r) | _ => None end
  else if nibble =? 14 then match m with x :: y :: r => Some (256 * x + y + 269, r) | _ => None end
  else None.

(** The option in front of [m]: its delta, its value and the bytes after it. *)
Definition decode_option (m : list Z) : option (Z * list Z * list Z) :=
  match m with
  | [] => None
  | x :: r =>
      match extended (x / 16) r with
      | None => None
      | Some (delta, r1) =>
          match extended (x mod 16) r1 with
          | None => None
          | Some (len, r2) =>
              if len <=? Z.of_nat (length r2)
              then Some (delta, firstn (Z.to_nat len) r2, skipn (Z.to_nat len) r2) else None
          end
      end
  end.

(** A CoAP option value of zeros only counts as empty. *)
Definition option_data (v : list Z) : list Z := if forallb (Z.eqb 0) v then [] else v.

(** The headers that can be serialised twice. *)
Definition repeatable (h : hdr) : bool := negb (existsb (String.eqb (h_name h)) ["igmp"; "mld"; "sv"; "coap-opt"]%string).

(** If the header is an SV header, a value of its last part was given, so that the
    header is emitted whole. *)
Definition sv_whole (h : hdr) : bool :=
  negb (String.eqb (h_name h) "sv") || existsb (given h) ["tlv2_type"; "tlv2_len"; "tlv2_mac"]%string.

(** A field of the frame is ignored. *)
Definition ignores (f : frame) : Prop := exists h fl, In h (fr_stack f) /\ In fl (h_fields h) /\ f_skip fl = true.

(** Bit [i] takes part in the comparison with the frame: it lies after the last header
    or in a field that is not ignored. *)
Definition counts (f : frame) (i : Z) : Prop :=
  8 * sum_sizes (fr_stack f) <= i \/
  exists k h fl, nth_error (fr_stack f) k = Some h /\ In fl (h_fields h) /\ f_skip fl = false /\
    8 * start_of (fr_stack f) k + f_off fl <= i < 8 * start_of (fr_stack f) k + f_off fl + f_width fl.

(** Frames written in words, with every header that has a published format (C82): as in
    SpecExact.v, but also the headers whose form depends on the fields given (igmp, mld,
    sv, profinet-rtc, coap with a token), CoAP options, a CoAP payload, and payload
    bytes anywhere in the frame. *)

From Verif Require Import Frame SpecParse.
From Verif Require Export SpecExact.

(** *** The parts of a frame and how they are written *)
Inductive part :=
| Header (n : string) (asg : list (string * string))     (* n  field value  field value ... *)
| Data (ps : list piece)                                  (* data  pieces *)
| CoapOption (num : string) (ps : list piece)             (* coap-opt num NUM val  pieces *)
| CoapPayload (ps : list piece).                          (* coap-parms par  pieces *)

Definition part_name (p : part) : string :=
  match p with Header n _ => n | Data _ => "data" | CoapOption _ _ => "coap-opt" | CoapPayload _ => "coap-parms" end.

Definition part_words (p : part) : list string :=
  match p with
  | Header n asg => n :: words_of asg
  | Data ps => "data"%string :: flat_map piece_words ps
  | CoapOption num ps => ("coap-opt" :: "num" :: num :: "val" :: flat_map piece_words ps)%string
  | CoapPayload ps => ("coap-parms" :: "par" :: flat_map piece_words ps)%string
  end.

(** *** Parts that are bytes *)

(** RFC 7252, 3.1: a delta and a length, each a nibble with an extension, and the
    value. *)
Definition nibble (x : Z) : Z := if x <? 13 then x else if x <? 269 then 13 else 14.
Definition extension (x : Z) : list Z := if x <? 13 then [] else if x <? 269 then [x - 13] else two_bytes (x - 269).
Definition option_bytes (delta : Z) (v : list Z) : list Z :=
  let n := Z.of_nat (length v) in (16 * nibble delta + nibble n :: extension delta ++ extension n ++ v)%list.

(** The bytes of a part that is not made of fields.  A value of zeros only is empty
    (C30); the payload of a CoAP message is introduced by the byte 255. *)
Inductive raw_bytes : part -> list Z -> Prop :=
| rb_data : forall ps, raw_bytes (Data ps) (payload ps)
| rb_option : forall num x ps, number num x -> 0 <= x < 65536 -> raw_bytes (CoapOption num ps) (option_bytes x (option_data (payload ps)))
| rb_payload : forall ps, raw_bytes (CoapPayload ps) (255 :: payload ps).

(** *** The form of a part *)
Definition gives (asg : list (string * string)) (fld : string) : bool :=
  match last_given asg fld with Some _ => true | None => false end.
Definition queries (asg : list (string * string)) : bool := existsb (gives asg) ["qresv"; "s"; "qrv"; "qqic"; "ns"]%string.
Definition reports (asg : list (string * string)) : bool := existsb (gives asg) ["rresv"; "ng"]%string.
Definition redbox (asg : list (string * string)) : bool := existsb (gives asg) ["tlv2_type"; "tlv2_len"; "tlv2_mac"]%string.

(** RFC 2236 and RFC 3376, 4; RFC 2710 and RFC 3810, 5; IEC 62439-3, 4.3 (the end TLV
    after the first one has no name); IEC 61158-6-10 with [w] bits of data. *)
Definition igmp_form (report query : bool) : format :=
  ([ ("type"%string, 8); ("max_resp"%string, 8); ("chksum"%string, 16) ] ++ (if report then [ ("rresv"%string, 16); ("ng"%string, 16) ] else [ ("ga"%string, 32) ]) ++
   (if query then [ ("qresv"%string, 4); ("s"%string, 1); ("qrv"%string, 3); ("qqic"%string, 8); ("ns"%string, 16) ] else []))%list.
Definition mld_form (report query : bool) : format :=
  ([ ("type"%string, 8); ("code"%string, 8); ("chksum"%string, 16) ] ++
   (if report then [ ("rresv"%string, 16); ("ng"%string, 16) ] else [ ("max_resp"%string, 16); ("rsv"%string, 16); ("ga"%string, 128) ]) ++
   (if query then [ ("qresv"%string, 4); ("s"%string, 1); ("qrv"%string, 3); ("qqic"%string, 8); ("ns"%string, 16) ] else []))%list.
Definition sv_form (second : bool) : format :=
  ([ ("path"%string, 4); ("ver"%string, 12); ("seqn"%string, 16); ("tlv1_type"%string, 8); ("tlv1_len"%string, 8); ("tlv1_mac"%string, 48) ] ++
   (if second then [ ("tlv2_type"%string, 8); ("tlv2_len"%string, 8); ("tlv2_mac"%string, 48); ("tlv0_type"%string, 8); ("tlv0_len"%string, 8) ] else [ ("-"%string, 16) ]))%list.
Definition rtc_form (w : Z) : format :=
  [ ("frameid", 16); ("data", w); ("cycle", 16); ("ignore", 1); ("reserved2", 1); ("station-ok", 1); ("provider-state-run", 1);
    ("reserved1", 1); ("data-valid", 1); ("redundancy", 1); ("primary", 1); ("transfer-status", 8) ]%string.
Definition coap_form (w : Z) : format :=
  [ ("ver", 2); ("type", 2); ("tkl", 4); ("code", 8); ("msgid", 16); ("token", w) ]%string.

Inductive form : part -> format -> Prop :=
| fm_table : forall n asg m, format_named n m -> (n = "coap"%string -> gives asg "token" = false) -> form (Header n asg) m
| fm_token : forall asg s d, last_given asg "token" = Some s -> hexdump d s -> (1 <= length d <= 8)%nat ->
    form (Header "coap" asg) (coap_form (8 * Z.of_nat (length d)))
| fm_igmp : forall asg, form (Header "igmp" asg) (igmp_form (reports asg) (queries asg))
| fm_mld : forall asg, reports asg && queries asg = false -> form (Header "mld" asg) (mld_form (reports asg) (queries asg))
| fm_sv : forall asg, form (Header "sv" asg) (sv_form (redbox asg))
| fm_data : forall asg s d, last_given asg "data" = Some s -> hexdump d s ->
    form (Header "profinet-rtc" asg) (rtc_form (8 * Z.max 40 (Z.of_nat (length d))))
| fm_no_data : forall asg, gives asg "data" = false -> form (Header "profinet-rtc" asg) (rtc_form 320)
| fm_raw : forall p d, raw_bytes p d -> form p [("-"%string, 8 * Z.of_nat (length d))].

(** *** Values *)

(** The number the text [s] stands for in field [fld], of [w] bits, of header [n]: as
    in SpecWhole.v; a token and PROFINET data are dumps of bytes in hexadecimal, the
    data followed by zeros up to 40 bytes. *)
Inductive stands_for (n fld : string) (w : Z) : string -> Z -> Prop :=
| sf_means : forall s x, ~ In (n, fld) [("coap", "token"); ("profinet-rtc", "data")]%string -> means n fld w s x -> stands_for n fld w s x
| sf_token : forall s d, (n, fld) = ("coap", "token")%string -> hexdump d s -> (1 <= length d <= 8)%nat -> stands_for n fld w s (positional 256 d)
| sf_data : forall s d, (n, fld) = ("profinet-rtc", "data")%string -> hexdump d s -> d <> [] -> Z.of_nat (length d) <= 130000 ->
    stands_for n fld w s (positional 256 (d ++ zeros (40 - length d))%list).

(** *** Frames *)

(** Parts with their forms. *)
Definition item : Type := part * format.

(** The word "ignore" is always the request to ignore a value, so that the PROFINET
    field of that name cannot be given (C74). *)
Definition well_put (it : item) : Prop :=
  form (fst it) (snd it) /\
  match fst it with
  | Header n asg => forall fld s, In (fld, s) asg -> ~ In fld ["-"; "ignore"]%string /\ exists off w x, place (snd it) fld = Some (off, w) /\ stands_for n fld w s x
  | Data ps => ps <> [] /\ Forall piece_ok ps
  | CoapOption _ ps => ps <> [] /\ Forall piece_ok ps /\ Z.of_nat (length (payload ps)) < 65536
  | CoapPayload ps => ps <> [] /\ Forall piece_ok ps
  end.

Definition spoken (its : list item) : list string := flat_map (fun it => part_words (fst it)) its.

(** profinet-rtc has a field "data": payload bytes cannot directly follow it. *)
Definition separate (its : list item) : Prop :=
  forall k asg m ps m', nth_error its k = Some (Header "profinet-rtc" asg, m) -> nth_error its (S k) = Some (Data ps, m') -> False.

(** The first of the names that is [n], among the first [k]. *)
Fixpoint position (n : string) (l : list string) : option nat :=
  match l with
  | [] => None
  | x :: r => if String.eqb x n then Some 0%nat else option_map S (position n r)
  end.
Definition names_of (its : list item) : list string := map (fun it => part_name (fst it)) its.
Definition first_ipv6 (its : list item) (k : nat) : option nat := position "ipv6" (firstn k (names_of its)).

Definition mentions (its : list item) (k : nat) (fld : string) : bool :=
  match nth_error its k with
  | Some (Header _ asg, _) => gives asg fld
  | _ => false
  end.

(** An mld header without a given checksum needs the addresses of an ipv6 header. *)
Definition addressed (its : list item) : Prop :=
  forall k asg m, nth_error its k = Some (Header "mld" asg, m) -> gives asg "chksum" = false ->
    exists j, first_ipv6 its k = Some j /\ mentions its j "sip" = true /\ mentions its j "dip" = true.

(** The bits of the parts, the byte part [k] starts at, the bytes from there to the end
    of the last part. *)
Definition total (its : list item) : Z := fold_right (fun it a => bits (snd it) + a) 0 its.
Definition begins (its : list item) (k : nat) : Z := total (firstn k its) / 8.
Definition left_from (its : list item) (k : nat) : Z := total its / 8 - begins its k.
Definition rest_from (its : list item) (b : list Z) (k : nat) : list Z :=
  slice b (Z.to_nat (begins its k)) (Z.to_nat (left_from its k)).

(** *** The fields nobody gives *)

(** The number of the part after part [k], which is called [n]; [d] if there is none. *)
Definition next_number (its : list item) (k : nat) (n : string) (d : Z) : Z :=
  match nth_error (names_of its) (S k) with
  | Some m => if String.eqb n "ipv6" && String.eqb m "icmp" && negb (mentions its (S k) "chksum") then 58 else type_number m
  | None => d
  end.

(** The pseudo header for part [k], if an IP header is directly before it. *)
Definition pseudo_before (its : list item) (b : list Z) (k : nat) (proto : Z) : option (list Z) :=
  match k with
  | O => None
  | S j =>
      match nth_error (names_of its) j with
      | Some n =>
          if String.eqb n "ipv4" then Some (pseudo_header4 b (Z.to_nat (begins its j)) proto (left_from its k mod 65536))
          else if String.eqb n "ipv6" then Some (pseudo_header6 b (Z.to_nat (begins its j)) proto (left_from its k))
          else None
      | None => None
      end
  end.

Definition behind_ipv6 (its : list item) (k : nat) : bool :=
  match k with
  | O => false
  | S j => match nth_error (names_of its) j with Some n => String.eqb n "ipv6" | None => false end
  end.

(** What the checksum of part [k], called [n], is taken over, itself being zero:
    RFC 791, RFC 768, RFC 793, RFC 792, RFC 4443, RFC 3376 and RFC 2710. *)
Definition summed_over (its : list item) (b : list Z) (k : nat) (n : string) : option (list Z) :=
  if String.eqb n "ipv4" then Some (blank 10 (slice b (Z.to_nat (begins its k)) 20))
  else if String.eqb n "udp" then option_map (fun P => P ++ blank 6 (rest_from its b k)) (pseudo_before its b k 17)
  else if String.eqb n "tcp" then option_map (fun P => P ++ blank 16 (rest_from its b k)) (pseudo_before its b k 6)
  else if String.eqb n "icmp" then
    if behind_ipv6 its k then option_map (fun P => P ++ blank 2 (rest_from its b k)) (pseudo_before its b k 58)
    else Some (blank 2 (rest_from its b k))
  else if String.eqb n "igmp" then Some (blank 2 (rest_from its b k))
  else if String.eqb n "mld" then
    option_map (fun j => pseudo_header6 b (Z.to_nat (begins its j)) 58 (left_from its k) ++ blank 2 (rest_from its b k)) (first_ipv6 its k)
  else None.

(** Field [fld] of part [k], a header called [n] of the form [m]. *)
Definition unset (its : list item) (b : list Z) (k : nat) (n : string) (m : format) (fld : string) : Z :=
  match length_field n fld with
  | Some uncounted => (left_from its k - uncounted) mod 65536
  | None =>
      match type_field n fld with
      | Some (w, d) => next_number its k n d mod 2 ^ w
      | None =>
          if String.eqb fld "chksum" then match summed_over its b k n with Some d => positional 256 (once d) | None => 0 end
          else if String.eqb n "coap" && String.eqb fld "tkl" then match place m "token" with Some (_, w) => w / 8 | None => 0 end
          else preset_value n fld
      end
  end.

(** [b] is the frame the parts stand for: the parts one after the other without gap,
    zeros up to 60 bytes.  Bits without a name are zero ("-" has no preset). *)
Record spelled (its : list item) (b : list Z) : Prop := MkSpelled {
  sp_size : Z.of_nat (length b) = Z.max 60 (total its / 8);
  sp_bytes : Forall is_byte b;
  sp_whole : total its mod 8 = 0;
  sp_fields : forall k n asg m fld off w, nth_error its k = Some (Header n asg, m) -> place m fld = Some (off, w) ->
    match last_given asg fld with
    | Some s => forall x, stands_for n fld w s x -> number_at b (total (firstn k its) + off) (Z.to_nat w) = x mod 2 ^ w
    | None => number_at b (total (firstn k its) + off) (Z.to_nat w) = unset its b k n m fld
    end;
  sp_raw : forall k p m d, nth_error its k = Some (p, m) -> raw_bytes p d -> slice b (Z.to_nat (begins its k)) (length d) = d;
  sp_rest : forall i, (Z.to_nat (total its / 8) <= i)%nat -> nth i b 0 = 0 }.

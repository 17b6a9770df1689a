(** Model of the field/header layer of src/ef.c. *)

From Verif Require Export ParseBytes.

(** ** Data types (src/ef.h:116-159)

    Function pointers are replaced by tags naming the C function. *)

(** [field_t.parser] / [field_t.parser_multi] *)
Inductive field_parser :=
| FP_default        (* NULL: parse_bytes *)
| FP_field_hex      (* parse_field_hex, src/ef-parse-bytes.c:566 *)
| FP_coap_code      (* src/ef-coap.c:29 *)
| FP_coap_token     (* src/ef-coap.c:55 *)
| FP_coap_opt_val   (* parser_multi, src/ef-coap.c:245 *)
| FP_coap_parms     (* parser_multi, src/ef-coap.c:81 *)
| FP_profinet       (* src/ef-profinet.c:23 *)
| FP_opc16.         (* src/ef-opcua.c:5 *)

(** [hdr_t.frame_fill_defaults] *)
Inductive filler :=
| FL_none           (* NULL, or a function that only returns 0 *)
| FL_ether          (* ether_type_fill_defaults, src/ef.c:153 *)
| FL_ipv4 | FL_ipv6 | FL_icmp | FL_igmp | FL_mld | FL_udp_tcp
| FL_ptp            (* fill_defaults, src/ef-ptp.c:6 *)
| FL_ptp_tlv        (* tlv_fill_defaults, src/ef-ptp.c:28 *)
| FL_coap | FL_coap_opt | FL_sv.

(** [hdr_t.parser] *)
Inductive hdr_parser :=
| HP_fields         (* hdr_parse_fields, src/ef.c:325 *)
| HP_payload        (* src/ef-payload.c:3 *)
| HP_padding        (* src/ef-padding.c:3 *)
| HP_none.          (* NULL (pseudo headers, never parsed) *)

(** src/ef.h:116-127 *)
Record field := MkField {
  f_name : string;
  f_skip : bool;          (* rx_match_skip *)
  f_width : Z;            (* bit_width *)
  f_off : Z;              (* bit_offset *)
  f_def : option buf;
  f_val : option buf;
  f_parser : field_parser }.

(** src/ef.h:133-147; [offset_in_frame] is written but never read. *)
Record hdr := MkHdr {
  h_name : string;
  h_type : Z;
  h_size : Z;
  h_fields : list field;
  h_fill : filler;
  h_parser : hdr_parser }.

(** src/ef.h:153-159 *)
Record frame := MkFrame {
  fr_stack : list hdr;
  fr_padding : Z;
  fr_has_mask : bool }.

Definition FRAME_STACK_MAX : Z := 100.

(** Assignments to members. *)
Definition set_skip (b : bool) (f : field) : field :=
  MkField (f_name f) b (f_width f) (f_off f) (f_def f) (f_val f) (f_parser f).
Definition set_width (w : Z) (f : field) : field :=
  MkField (f_name f) (f_skip f) w (f_off f) (f_def f) (f_val f) (f_parser f).
Definition set_off (o : Z) (f : field) : field :=
  MkField (f_name f) (f_skip f) (f_width f) o (f_def f) (f_val f) (f_parser f).
Definition set_def (d : option buf) (f : field) : field :=
  MkField (f_name f) (f_skip f) (f_width f) (f_off f) d (f_val f) (f_parser f).
Definition set_val (v : option buf) (f : field) : field :=
  MkField (f_name f) (f_skip f) (f_width f) (f_off f) (f_def f) v (f_parser f).

Definition set_fields (fs : list field) (h : hdr) : hdr :=
  MkHdr (h_name h) (h_type h) (h_size h) fs (h_fill h) (h_parser h).
Definition set_size (s : Z) (h : hdr) : hdr :=
  MkHdr (h_name h) (h_type h) s (h_fields h) (h_fill h) (h_parser h).
Definition set_type (t : Z) (h : hdr) : hdr :=
  MkHdr (h_name h) t (h_size h) (h_fields h) (h_fill h) (h_parser h).

(** ** Looking up fields *)

(** src/ef.c:192-200 find_field: the first field of that name. *)
Definition find_field (h : hdr) (n : string) : option field :=
  find (fun f => String.eqb n (f_name f)) (h_fields h).

(** Dereferencing the result of [find_field]. *)
Definition fget (h : hdr) (n : string) : out field :=
  match find_field h n with
  | Some f => Ret f
  | None => Crash Null_deref
  end.

(** Writing through the pointer returned by [find_field]: the first field of
    that name is changed. *)
Fixpoint mod_first (n : string) (g : field -> field) (fs : list field) : list field :=
  match fs with
  | [] => []
  | f :: r => if String.eqb n (f_name f) then g f :: r else f :: mod_first n g r
  end.

Definition fmod (n : string) (g : field -> field) (h : hdr) : hdr :=
  set_fields (mod_first n g (h_fields h)) h.

(** ** Template construction *)

(** src/ef.c:171-190 def_offset. *)
Fixpoint def_offset_loop (fs : list field) (offset : Z) : list field * Z :=
  match fs with
  | [] => ([], offset)
  | f :: r =>
      if negb (f_off f =? 0) && (f_off f <? offset) then
        let '(r', o') := def_offset_loop r offset in (f :: r', o')
      else
        let '(r', o') := def_offset_loop r (offset + f_width f) in
        (set_off offset f :: r', o')
  end.

Definition def_offset (h : hdr) : hdr :=
  let '(fs, o) := def_offset_loop (h_fields h) 0 in
  set_size (BIT_TO_BYTE o) (set_fields fs h).

(** src/ef.c:202-209 def_val. *)
Definition def_val (n def : string) (h : hdr) : out hdr :=
  match find_field h n with
  | None => Ret h
  | Some f =>
      d <- parse_bytes def (BIT_TO_BYTE (f_width f));;
      Ret (fmod n (set_def d) h)
  end.

(** ** Bit access *)

(** src/ef.c:220-228 bit_get *)
Definition bit_get (v : buf) (pos : Z) : out Z :=
  let byte_pos := pos / 8 in
  let k := 7 - pos mod 8 in
  if byte_pos <? zlen v then
    x <- bget v byte_pos;; Ret (Z.land (Z.shiftr x k) 1)
  else Crash Assert_fail.

(** src/ef.c:230-242 bit_set *)
Definition bit_set (b : buf) (pos value : Z) : out buf :=
  let byte_pos := pos / 8 in
  let k := 7 - pos mod 8 in
  if byte_pos <? zlen b then
    x <- bget b byte_pos;;
    bput b byte_pos
      (if negb (value =? 0) then u8 (Z.lor x (Z.shiftl 1 k))
       else u8 (Z.land x (Z.lnot (Z.shiftl 1 k))))
  else Crash Assert_fail.

(** The loop src/ef.c:277-279; [n] iterations are left, [pos] is the counter. *)
Fixpoint write_bits (n : nat) (pos : Z) (b : buf) (base : Z) (val : buf) (first : Z)
  : out buf :=
  match n with
  | O => Ret b
  | S k =>
      x <- bit_get val (u64 (pos + first));;
      b1 <- bit_set b (base + pos) x;;
      write_bits k (pos + 1) b1 base val first
  end.

(** src/ef.c:244-280 hdr_write_field; [first] is [bits_to_1st_valid], a size_t. *)
Definition hdr_write_field (b : buf) (offset : Z) (f : field) (val : buf) : out buf :=
  if 8 * zlen b <? f_width f + f_off f + offset * 8 then Crash Assert_fail
  else
    let first := u64 (8 * zlen val - f_width f) in
    write_bits (Z.to_nat (f_width f)) 0 b (f_off f + 8 * offset) val first.

(** What is written for a field: src/ef.c:425-442. *)
Definition field_source (mask : bool) (f : field) : option buf :=
  if mask then
    if f_skip f then None else Some (repeat 255 (Z.to_nat (BIT_TO_BYTE (f_width f))))
  else
    match f_val f with
    | Some v => Some v
    | None => f_def f
    end.

(** src/ef.c:411-454 hdr_copy_to_buf_.  The result is the buffer; the C return
    value (-1 on the early return) is ignored by every caller. *)
Fixpoint copy_fields (fs : list field) (offset : Z) (b : buf) (mask : bool) : out buf :=
  match fs with
  | [] => Ret b
  | f :: r =>
      if zlen b <? BIT_TO_BYTE (f_width f) + offset then Ret b
      else
        b1 <- match field_source mask f with
              | Some v => hdr_write_field b offset f v
              | None => Ret b
              end;;
        copy_fields r offset b1 mask
  end.

Definition hdr_copy_to_buf_ (h : hdr) (offset : Z) (b : buf) (mask : bool) : out buf :=
  copy_fields (h_fields h) offset b mask.

(** src/ef.c:460-462, 456-458 *)
Definition hdr_copy_to_buf (h : hdr) (offset : Z) (b : buf) : out buf :=
  hdr_copy_to_buf_ h offset b false.
Definition hdr_copy_to_buf_mask (h : hdr) (offset : Z) (b : buf) : out buf :=
  hdr_copy_to_buf_ h offset b true.

(** The loop "for each header: copy it at offset, advance", as in
    src/ef.c:486-489, 516-519 and in the checksum code of the headers. *)
Fixpoint copy_stack (hs : list hdr) (offset : Z) (b : buf) (mask : bool) : out buf :=
  match hs with
  | [] => Ret b
  | h :: r =>
      b1 <- hdr_copy_to_buf_ h offset b mask;;
      copy_stack r (offset + h_size h) b1 mask
  end.

(** Sum of the header sizes. *)
Definition stack_size (hs : list hdr) : Z := fold_right (fun h a => h_size h + a) 0 hs.

(** ** frame_def (src/ef.c:283-299): a header with its defaults only. *)
Fixpoint frame_def_loop (fs : list field) (b : buf) : out buf :=
  match fs with
  | [] => Ret b
  | f :: r =>
      match f_def f with
      | None => frame_def_loop r b
      | Some d => b1 <- hdr_write_field b 0 f d;; frame_def_loop r b1
      end
  end.

Definition frame_def (h : hdr) : out buf := frame_def_loop (h_fields h) (balloc (h_size h)).

(** The field parsers that are not [parse_bytes]: src/ef-coap.c,
    src/ef-profinet.c, src/ef-opcua.c, and field_parse_multi_var_byte. *)

From Verif Require Export Hdr.

Definition mod_nth (n : nat) (g : field -> field) (fs : list field) : list field :=
  match nth_error fs n with
  | Some f => upd fs n (g f)
  | None => fs
  end.

(** The loop "bit_offset = offset; offset = bit_offset + bit_width" of
    src/ef-coap.c:70-73, 233-236 and src/ef-profinet.c:34-37 (the loops run
    over all fields of those headers). *)
Fixpoint relayout (fs : list field) (offset : Z) : list field * Z :=
  match fs with
  | [] => ([], offset)
  | f :: r =>
      let '(r', o') := relayout r (offset + f_width f) in
      (set_off offset f :: r', o')
  end.

(** Set the width of field [n], lay the fields out again and recompute the
    size: src/ef-coap.c:68-75, 231-237, src/ef-profinet.c:32-39. *)
Definition resize_field (n : nat) (w : Z) (h : hdr) : hdr :=
  let '(fs, o) := relayout (mod_nth n (set_width w) (h_fields h)) 0 in
  set_size (o / 8) (set_fields fs h).

(** src/ef-coap.c:29-53.  The last comparison tests s[2], not s[3]; [char] is
    signed, [tmp] is a uint8_t. *)
Definition coap_parse_code (s : string) : option buf :=
  match s with
  | String c0 (String c1 (String c2 (String c3 EmptyString))) =>
      if (48 <=? scode c0) && (scode c0 <=? 55) && (code c1 =? 46)
         && (48 <=? scode c2) && (scode c2 <=? 51)
         && (48 <=? scode c3) && (scode c2 <=? 57) then
        let tmp := u8 (scode c2 - 48) in
        let tmp := u8 (tmp * 10 + scode c3 - 48) in
        if tmp <? 32 then Some [u8 (Z.shiftl (scode c0 - 48) 5 + tmp)] else None
      else None
  | _ => None
  end.

(** src/ef-coap.c:55-79; field 5 is COAP_FIELD_TOKEN. *)
Definition coap_parse_token (h : hdr) (s : string) : out (hdr * option buf) :=
  o <- parse_var_bytes_hex s 1;;
  match o with
  | None => Ret (h, None)
  | Some b =>
      if (8 <? zlen b) || (zlen b =? 0) then Ret (h, None)
      else Ret (resize_field 5 (zlen b * 8) h, Some b)
  end.

(** src/ef-profinet.c:23-42; field 1 is PNET_RTC_FIELD_DATA. *)
Definition profinet_data_parser (h : hdr) (s : string) : out (hdr * option buf) :=
  o <- parse_var_bytes_hex s 40;;
  match o with
  | None => Ret (h, None)
  | Some b =>
      if size_limit <? zlen b then Crash Out_of_model
      else Ret (resize_field 1 (zlen b * 8) h, Some b)
  end.

(** src/ef-opcua.c:5-15 *)
Definition opc_parse_uint16 (s : string) : out (option buf) :=
  o <- parse_bytes s 2;;
  match o with
  | None => Ret None
  | Some b =>
      x0 <- bget b 0;; x1 <- bget b 1;;
      b1 <- bput b 0 x1;; b2 <- bput b1 1 x0;; Ret (Some b2)
  end.

(** [f->parser (hdr, offset, s, bytes)] of src/ef.c:389 (and the direct call of
    parse_bytes in line 402): the header may be changed, the result goes to
    [f->val]. *)
Definition run_parser (p : field_parser) (h : hdr) (s : string) (bytes : Z)
  : out (hdr * option buf) :=
  match p with
  | FP_field_hex => o <- parse_field_hex s bytes;; Ret (h, o)
  | FP_coap_code => Ret (h, coap_parse_code s)
  | FP_coap_token => coap_parse_token h s
  | FP_profinet => profinet_data_parser h s
  | FP_opc16 => o <- opc_parse_uint16 s;; Ret (h, o)
  | _ => o <- parse_bytes s bytes;; Ret (h, o)
  end.

Definition is_multi (p : field_parser) : bool :=
  match p with
  | FP_coap_opt_val | FP_coap_parms => true
  | _ => false
  end.

(** src/ef-parse-bytes.c:808-827 for the field called [n]; the result is the
    changed header and the return value.  Headers above [size_limit] are not
    modelled. *)
Definition field_parse_multi_var_byte (h : hdr) (n : string) (ws : list string)
  : out (hdr * Z) :=
  '(res, b) <- parse_var_bytes ws;;
  if (1 <? res) && (res <=? zlen ws) then
    match b with
    | None => Crash Null_deref
    | Some b =>
        if size_limit <? h_size h + zlen b then Crash Out_of_model
        else
          Ret (set_size (u32 (h_size h + zlen b))
                 (fmod n (fun f => set_width (zlen b * 8) (set_val (Some b) f)) h), res)
    end
  else Ret (h, 0).

(** src/ef-coap.c:245-272 *)
Definition coap_parse_option_value (h : hdr) (n : string) (ws : list string)
  : out (hdr * Z) :=
  '(h1, res) <- field_parse_multi_var_byte h n ws;;
  if (1 <? res) && (res <=? zlen ws) then
    f <- fget h1 n;;
    match f_val f with
    | None => Crash Null_deref
    | Some v =>
        if forallb (Z.eqb 0) v then
          Ret (set_size (u32 (h_size h1 - zlen v))
                 (fmod n (fun f => set_width 0 (set_val (Some []) f)) h1), res)
        else Ret (h1, res)
    end
  else Ret (h1, res).

(** src/ef-coap.c:81-109.  [b] is not initialised: when parse_var_bytes stores
    nothing, line 105 reads an indeterminate pointer. *)
Definition coap_parse_parms (h : hdr) (n : string) (ws : list string) : out (hdr * Z) :=
  '(res, b) <- parse_var_bytes ws;;
  match b with
  | None => Crash Uninit_ptr
  | Some b =>
      if (1 <? res) && (res <=? zlen ws) then
        if size_limit <? zlen b then Crash Out_of_model
        else
          let bb := 255 :: b in
          Ret (set_size (zlen bb)
                 (fmod n (fun f => set_width (zlen bb * 8) (set_val (Some bb) f)) h), res)
      else Ret (h, 0)
  end.

(** [f->parser_multi (hdr, offset, f, argc, argv)] of src/ef.c:392. *)
Definition run_multi (p : field_parser) (h : hdr) (n : string) (ws : list string)
  : out (hdr * Z) :=
  match p with
  | FP_coap_opt_val => coap_parse_option_value h n ws
  | FP_coap_parms => coap_parse_parms h n ws
  | _ => Crash Null_deref
  end.

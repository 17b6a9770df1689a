(** Model of the [frame_fill_defaults] functions and of frame serialisation:
    src/ef.c, src/ef-ipv4.c, src/ef-ipv6.c, src/ef-icmp.c, src/ef-igmp.c,
    src/ef-mld.c, src/ef-udp.c, src/ef-ptp.c, src/ef-coap.c, src/ef-sv.c.

    A function [int f (struct frame *, int stack_idx)] becomes a function of
    the header stack and the index to the changed header stack; the return
    values are 0 throughout and ignored by the caller (src/ef.c:473). *)

From Verif Require Export Templates.

Definition is_some {A} (o : option A) : bool :=
  match o with Some _ => true | None => false end.

(** [f->stack[i]]; the callers keep 0 <= i < stack_size. *)
Definition hget (stk : list hdr) (i : nat) : out hdr :=
  match nth_error stk i with
  | Some h => Ret h
  | None => Crash Null_deref
  end.

(** Writing through a pointer returned by find_field; NULL is dereferenced when
    there is no such field. *)
Definition fset (n : string) (g : field -> field) (h : hdr) : out hdr :=
  f <- fget h n;; Ret (fmod n g h).

(** "snprintf (buf, 16, fmt, x); field->val = parse_bytes (buf, bytes)" with the
    printed text given. *)
Definition put_text (n txt : string) (bytes : Z) (h : hdr) : out hdr :=
  o <- parse_bytes txt bytes;; fset n (set_val o) h.

(** "%d" and "0x%x" *)
Definition fmt_d (x : Z) : string := print_d x.
Definition fmt_0x (x : Z) : string := "0x" ++ print_base 16 x.

(** Sum of the sizes of the headers from index [i] on; above [size_limit] the C
    [int] arithmetic is not modelled. *)
Definition len_from (stk : list hdr) (i : nat) : out Z :=
  let n := stack_size (skipn i stk) in
  if size_limit <? n then Crash Out_of_model else Ret n.

(** src/ef.c:132-150.  Little-endian host: a 16-bit word read from memory has
    the first byte as its low byte, htons swaps. *)
Fixpoint chksum_loop (sum : Z) (b : buf) : Z :=
  match b with
  | x :: y :: r => chksum_loop (u32 (sum + (x + 256 * y))) r
  | [x] => u32 (sum + x)
  | [] => sum
  end.

Definition htons (x : Z) : Z := x mod 256 * 256 + x / 256.

Definition inet_chksum (sum : Z) (b : buf) : Z :=
  let s := chksum_loop sum b in
  let t := Z.land (Z.lnot (Z.shiftr s 16 + Z.land s 65535)) 65535 in
  htons t.

(** src/ef.c:153-169 (also eth_fill_defaults, src/ef-eth.c:4, and
    vlan_fill_defaults, src/ef-vlan.c:3) *)
Definition ether_type_fill_defaults (stk : list hdr) (i : nat) : out (list hdr) :=
  h <- hget stk i;;
  et <- fget h "et";;
  match f_val et with
  | Some _ => Ret stk
  | None =>
      match nth_error stk (S i) with
      | Some nx =>
          h1 <- put_text "et" (fmt_d (h_type nx)) 2 h;;
          Ret (upd stk i h1)
      | None => Ret stk
      end
  end.

(** "if there is a next header its type, otherwise 17": src/ef-ipv4.c:11-20 and
    src/ef-ipv6.c:10-19. *)
Definition fill_proto (n : string) (stk : list hdr) (i : nat) (h : hdr) : out hdr :=
  p <- fget h n;;
  match f_val p with
  | Some _ => Ret h
  | None =>
      put_text n (match nth_error stk (S i) with
                  | Some nx => fmt_d (h_type nx)
                  | None => "17"
                  end) 1 h
  end.

(** src/ef-ipv4.c:4-50 *)
Definition ipv4_fill_defaults (stk : list hdr) (i : nat) : out (list hdr) :=
  h <- hget stk i;;
  h <- fill_proto "proto" stk i h;;
  l <- fget h "len";;
  h <- match f_val l with
       | Some _ => Ret h
       | None => n <- len_from stk i;; put_text "len" (fmt_d n) 2 h
       end;;
  c <- fget h "chksum";;
  h <- match f_val c with
       | Some _ => Ret h
       | None =>
           b <- hdr_copy_to_buf h 0 (balloc 20);;
           put_text "chksum" (fmt_d (inet_chksum 0 b)) 2 h
       end;;
  Ret (upd stk i h).

(** src/ef-ipv6.c:4-35 *)
Definition ipv6_fill_defaults (stk : list hdr) (i : nat) : out (list hdr) :=
  h <- hget stk i;;
  h <- fill_proto "next" stk i h;;
  l <- fget h "len";;
  h <- match f_val l with
       | Some _ => Ret h
       | None => n <- len_from stk (S i);; put_text "len" (fmt_d n) 2 h
       end;;
  Ret (upd stk i h).

(** The pseudo header: a clone of a template with sip, dip, proto and len set:
    src/ef-icmp.c:30-44 and src/ef-udp.c:55-79. *)
Definition make_pseudo (tmpl ll : hdr) (proto len : Z) : out hdr :=
  s <- fget ll "sip";; ph <- fset "sip" (set_val (f_val s)) tmpl;;
  d <- fget ll "dip";; ph <- fset "dip" (set_val (f_val d)) ph;;
  ph <- put_text "proto" (fmt_d proto) 1 ph;;
  lf <- fget ph "len";;
  put_text "len" (fmt_d len) (Z.quot (f_width lf) 8) ph.

(** "Serialize the header (making checksum calculation easier)": an optional
    pseudo header followed by the headers from [i] on. *)
Definition serialize_from (pseudo : option hdr) (stk : list hdr) (i : nat) : out buf :=
  n <- len_from stk i;;
  match pseudo with
  | Some ph =>
      b <- hdr_copy_to_buf ph 0 (balloc (n + h_size ph));;
      copy_stack (skipn i stk) (h_size ph) b false
  | None => copy_stack (skipn i stk) 0 (balloc n) false
  end.

(** src/ef-icmp.c:8-67.  ([HDR_IPV6_PSEUDO]'s len is 32 bits wide, so the
    parse_bytes (buf, 4) of line 44 is what [make_pseudo] does.) *)
Definition icmp_fill_defaults (stk : list hdr) (i : nat) : out (list hdr) :=
  h <- hget stk i;;
  n <- len_from stk i;;
  c <- fget h "chksum";;
  match f_val c with
  | Some _ => Ret stk
  | None =>
      '(h, pseudo) <-
        match i with
        | O => Ret (h, None)
        | S j =>
            ll <- hget stk j;;
            if String.eqb (h_name ll) "ipv6" then
              ph <- make_pseudo HDR_IPV6_PSEUDO ll 58 n;;
              Ret (set_type 58 h, Some ph)
            else Ret (h, None)
        end;;
      b <- serialize_from pseudo (upd stk i h) i;;
      h <- put_text "chksum" (fmt_d (inet_chksum 0 b)) 2 h;;
      Ret (upd stk i h)
  end.

(** src/ef-udp.c:34-100 *)
Definition udp_tcp_fill_defaults (stk : list hdr) (i : nat) : out (list hdr) :=
  h <- hget stk i;;
  n <- len_from stk i;;
  h <- match find_field h "len" with
       | None => Ret h
       | Some l =>
           match f_val l with
           | Some _ => Ret h
           | None => put_text "len" (fmt_d n) 2 h
           end
       end;;
  c <- fget h "chksum";;
  match f_val c, i with
  | None, S j =>
      ll <- hget stk j;;
      let tmpl := if String.eqb (h_name ll) "ipv4" then Some HDR_IPV4_PSEUDO
                  else if String.eqb (h_name ll) "ipv6" then Some HDR_IPV6_PSEUDO
                  else None in
      match tmpl with
      | None => Ret (upd stk i h)
      | Some t =>
          ph <- make_pseudo t ll (h_type h) n;;
          b <- serialize_from (Some ph) (upd stk i h) i;;
          h <- put_text "chksum" (fmt_d (inet_chksum 0 b)) 2 h;;
          Ret (upd stk i h)
      end
  | _, _ => Ret (upd stk i h)
  end.

(** The search loops of src/ef-igmp.c:17-23, 42-48, src/ef-mld.c:29-35, 54-60
    (value or default) and src/ef-sv.c:18-24 (value only, [defs] = false). *)
Fixpoint any_set (defs : bool) (h : hdr) (ns : list string) : out bool :=
  match ns with
  | [] => Ret false
  | n :: r =>
      f <- fget h n;;
      if is_some (f_val f) || (defs && is_some (f_def f)) then Ret true
      else any_set defs h r
  end.

(** "fld = find_field (h, n[i]); fld->bit_width = 0" for each name. *)
Fixpoint zero_widths (ns : list string) (h : hdr) : out hdr :=
  match ns with
  | [] => Ret h
  | n :: r => h1 <- fset n (set_width 0) h;; zero_widths r h1
  end.

Definition shrink (k : Z) (h : hdr) : hdr := set_size (u32 (h_size h - k)) h.

(** Common part of src/ef-igmp.c:14-73 and src/ef-mld.c:26-92: remove the query
    and/or report part; in a report remove [rep_remove] bytes, the fields
    [rep_drop], and move "rresv" and "ng" forward. *)
Definition query_fields : list string := ["qresv"; "s"; "qrv"; "qqic"; "ns"].
Definition report_fields : list string := ["rresv"; "ng"].

Definition group_layout (rep_remove : Z) (rep_drop : list string) (h : hdr) : out hdr :=
  q <- any_set true h query_fields;;
  h <- (if q then Ret h else zero_widths query_fields (shrink 4 h));;
  r <- any_set true h report_fields;;
  if r then
    h <- zero_widths rep_drop (shrink rep_remove h);;
    h <- fset "rresv" (set_off 32) h;;
    fset "ng" (set_off 48) h
  else zero_widths report_fields (shrink 4 h).

(** src/ef-igmp.c:4-101 *)
Definition igmp_fill_defaults (stk : list hdr) (i : nat) : out (list hdr) :=
  h <- hget stk i;;
  c0 <- fget h "chksum";;
  h <- group_layout 4 ["ga"] h;;
  match f_val c0 with
  | Some _ => Ret (upd stk i h)
  | None =>
      b <- serialize_from None (upd stk i h) i;;
      h <- put_text "chksum" (fmt_0x (inet_chksum 0 b)) 2 h;;
      Ret (upd stk i h)
  end.

(** The first header named "ipv6" below [i]: src/ef-mld.c:102-110. *)
Definition find_ipv6 (stk : list hdr) (i : nat) : option hdr :=
  find (fun h => String.eqb (h_name h) "ipv6") (firstn i stk).

(** src/ef-mld.c:5-179.  The four exit(-1) calls are [Exit_call]. *)
Definition mld_fill_defaults (stk : list hdr) (i : nat) : out (list hdr) :=
  h <- hget stk i;;
  c0 <- fget h "chksum";;
  h <- group_layout 20 ["ga"; "max_resp"; "rsv"] h;;
  match f_val c0 with
  | Some _ => Ret (upd stk i h)
  | None =>
      match find_ipv6 stk i with
      | None => Crash Exit_call
      | Some ip =>
          match find_field ip "sip", find_field ip "dip" with
          | Some sf, Some df =>
              match f_val sf, f_val df with
              | Some sip, Some dip =>
                  if (zlen sip =? 16) && (zlen dip =? 16) then
                    n <- len_from (upd stk i h) i;;
                    let pseudo := sip ++ dip ++ be_bytes 4 n ++ [0; 0; 0; 58] in
                    let sum := chksum_loop 0 pseudo in
                    b <- serialize_from None (upd stk i h) i;;
                    h <- put_text "chksum" (fmt_0x (inet_chksum sum b)) 2 h;;
                    Ret (upd stk i h)
                  else Crash Exit_call
              | _, _ => Crash Exit_call
              end
          | _, _ => Crash Exit_call
          end
      end
  end.

(** src/ef-ptp.c:6-26 ([sub] = 0, "hdr-messageLength") and 28-51 ([sub] = 4,
    "tlv-length"). *)
Definition ptp_fill (n : string) (sub : Z) (stk : list hdr) (i : nat) : out (list hdr) :=
  h <- hget stk i;;
  match find_field h n with
  | None => Ret stk
  | Some l =>
      match f_val l with
      | Some _ => Ret stk
      | None =>
          k <- len_from stk i;;
          h <- put_text n (fmt_d (k - sub)) 2 h;;
          Ret (upd stk i h)
      end
  end.

(** src/ef-coap.c:111-125 *)
Definition coap_fill_defaults (stk : list hdr) (i : nat) : out (list hdr) :=
  h <- hget stk i;;
  tkl <- fget h "tkl";;
  token <- fget h "token";;
  match f_val tkl, f_val token with
  | None, Some _ =>
      match nth_error (h_fields h) 5 with
      | None => Crash OOB_read
      | Some f5 =>
          h <- put_text "tkl" (fmt_d (BIT_TO_BYTE (f_width f5))) 1 h;;
          Ret (upd stk i h)
      end
  | _, _ => Ret stk
  end.

(** Nibble and extension bytes for a delta or a length:
    src/ef-coap.c:193-205 and 208-221 (16-bit unsigned arithmetic). *)
Definition opt_split (x : Z) : Z * buf :=
  if 12 <? x then
    if 268 <? x then
      let e := u16 (x - 269) in (14, [Z.shiftr e 8; Z.land e 255])
    else (13, [u8 (x - 13)])
  else (x, []).

(** src/ef-coap.c:166-241 *)
Definition options_fill_defaults (stk : list hdr) (i : nat) : out (list hdr) :=
  h <- hget stk i;;
  fnum <- fget h "num";;
  fval <- fget h "val";;
  match f_val fnum, f_val fval with
  | Some num, Some v =>
      x0 <- bget num 0;;
      x1 <- bget num 1;;
      let '(dn, de) := opt_split (u16 (x0 * 256 + x1)) in
      let '(ln, le) := opt_split (u16 (zlen v)) in
      let bb := u8 (Z.lor (u8 (Z.shiftl dn 4)) (Z.land ln 15)) :: de ++ le in
      h1 <- fset "num" (set_val (Some bb)) h;;
      Ret (upd stk i (resize_field 0 (zlen bb * 8) h1))
  | _, _ => Ret stk
  end.

(** src/ef-sv.c:9-37 *)
Definition tlv2_fields : list string := ["tlv2_type"; "tlv2_len"; "tlv2_mac"].

Definition sv_fill_defaults (stk : list hdr) (i : nat) : out (list hdr) :=
  h <- hget stk i;;
  found <- any_set false h tlv2_fields;;
  if found then Ret stk
  else h <- zero_widths tlv2_fields (shrink 8 h);; Ret (upd stk i h).

(** [f->stack[i]->frame_fill_defaults (f, i)] *)
Definition run_fill (k : filler) (stk : list hdr) (i : nat) : out (list hdr) :=
  match k with
  | FL_none => Ret stk
  | FL_ether => ether_type_fill_defaults stk i
  | FL_ipv4 => ipv4_fill_defaults stk i
  | FL_ipv6 => ipv6_fill_defaults stk i
  | FL_icmp => icmp_fill_defaults stk i
  | FL_igmp => igmp_fill_defaults stk i
  | FL_mld => mld_fill_defaults stk i
  | FL_udp_tcp => udp_tcp_fill_defaults stk i
  | FL_ptp => ptp_fill "hdr-messageLength" 0 stk i
  | FL_ptp_tlv => ptp_fill "tlv-length" 4 stk i
  | FL_coap => coap_fill_defaults stk i
  | FL_coap_opt => options_fill_defaults stk i
  | FL_sv => sv_fill_defaults stk i
  end.

(** src/ef.c:471-473: from the last header to the first; [n] headers are left. *)
Fixpoint fill_all (n : nat) (stk : list hdr) : out (list hdr) :=
  match n with
  | O => Ret stk
  | S i =>
      h <- hget stk i;;
      stk1 <- run_fill (h_fill h) stk i;;
      fill_all i stk1
  end.

(** src/ef.c:465-492: the buffer, and the stack as the filling left it. *)
Definition frame_to_buf (f : frame) : out (frame * buf) :=
  stk <- fill_all (length (fr_stack f)) (fr_stack f);;
  n <- len_from stk 0;;
  b <- copy_stack stk 0 (balloc (Z.max n 60)) false;;
  Ret (MkFrame stk (fr_padding f) (fr_has_mask f), b).

(** src/ef.c:494-522 *)
Definition frame_mask_to_buf (f : frame) : out buf :=
  let stk := fr_stack f in
  n <- len_from stk 0;;
  let b := balloc (Z.max n 60) in
  b <- (if n <? 60 then memset_in b n 255 (zlen b - n) else Ret b);;
  copy_stack stk 0 b true.

(** Model of src/ef-parse-bytes.c: from text to bytes.

    Functions returning [buf_t *] return [out (option buf)]; [None] is NULL. *)

From Verif Require Export Libc.

(** ** Fixed size binary and hexadecimal literals *)

Definition is_bit (c : ascii) : bool := (code c =? 48) || (code c =? 49).

(** src/ef-parse-bytes.c:60-71: number of '0'/'1' and whether there are others. *)
Fixpoint bin_scan (s : string) (cnt : Z) (others : bool) : Z * bool :=
  match s with
  | EmptyString => (cnt, others)
  | String c r => if is_bit c then bin_scan r (cnt + 1) others else bin_scan r cnt true
  end.

(** src/ef-parse-bytes.c:93-110: the second pass; [p] is [p_o - b->data]. *)
Fixpoint bin_fill (s : string) (b : buf) (p cnt : Z) : out buf :=
  match s with
  | EmptyString => Ret b
  | String c r =>
      if is_bit c then
        x <- bget b p;;
        b1 <- bput b p (u8 (Z.lor x (code c - 48)));;
        let cnt1 := cnt + 1 in
        if cnt1 mod 8 =? 0 then bin_fill r b1 (p + 1) cnt1
        else
          y <- bget b1 p;;
          b2 <- bput b1 p (u8 (Z.shiftl y 1));;
          bin_fill r b2 p cnt1
      else bin_fill r b p cnt
  end.

(** src/ef-parse-bytes.c:54-113 *)
Definition parse_bytes_binary (s : string) (size : Z) : out (option buf) :=
  let '(cnt, others) := bin_scan s 0 false in
  if others || (cnt =? 0) then Ret None
  else if negb (cnt mod 8 =? 0) then Ret None
  else b <- bin_fill s (balloc size) (size - cnt / 8) 0;; Ret (Some b).

(** The delimiters . : - _ *)
Definition is_delim (c : ascii) : bool :=
  (code c =? 46) || (code c =? 58) || (code c =? 45) || (code c =? 95).

(** src/ef-parse-bytes.c:121-144 = 490-513: nibble count, other characters,
    misaligned delimiter or odd count. *)
Fixpoint nib_scan (s : string) (cnt : Z) (others align : bool) : Z * bool * bool :=
  match s with
  | EmptyString => (cnt, others, align || negb (cnt mod 2 =? 0))
  | String c r =>
      match hexval c with
      | Some _ => nib_scan r (cnt + 1) others align
      | None =>
          if is_delim c then nib_scan r cnt others (align || negb (cnt mod 2 =? 0))
          else nib_scan r cnt true align
      end
  end.

(** src/ef-parse-bytes.c:162-188 = 535-561: the second pass. *)
Fixpoint nib_fill (s : string) (b : buf) (p cnt : Z) : out buf :=
  match s with
  | EmptyString => Ret b
  | String c r =>
      match hexval c with
      | Some t =>
          x <- bget b p;;
          b1 <- bput b p (u8 (Z.lor x t));;
          let cnt1 := cnt + 1 in
          if cnt1 mod 2 =? 1 then
            y <- bget b1 p;;
            b2 <- bput b1 p (u8 (Z.shiftl y 4));;
            nib_fill r b2 p cnt1
          else nib_fill r b1 (p + 1) cnt1
      | None => nib_fill r b p cnt
      end
  end.

(** src/ef-parse-bytes.c:115-191.  Nothing checks that the literal fits: [p]
    may start below zero. *)
Definition parse_bytes_hex (s : string) (size : Z) : out (option buf) :=
  let '(cnt, others, align) := nib_scan s 0 false false in
  if others || (cnt =? 0) then Ret None
  else if align then Ret None
  else b <- nib_fill s (balloc size) (size - cnt / 2) 0;; Ret (Some b).

(** ** MAC addresses *)

(** Local variables of src/ef-parse-bytes.c:319-338. *)
Record mac_st := MkMac {
  mc_m : buf; mc_idx : Z; mc_split : Z; mc_split_cnt : Z;
  mc_val_cnt : Z; mc_col_cnt : Z; mc_elem : Z }.

Definition mac_init : mac_st := MkMac (repeat 0 6) 0 0 0 0 0 0.

(** One iteration of the loop src/ef-parse-bytes.c:342-414; [None] = return 0. *)
Definition mac_step (c : ascii) (s : mac_st) : out (option mac_st) :=
  let body (colon : bool) (val : Z) : out (option mac_st) :=
    if 5 <? mc_idx s then Ret None
    else if colon then
      let idx := if negb (mc_val_cnt s =? 0) && (mc_col_cnt s =? 0)
                 then mc_idx s + 1 else mc_idx s in
      let col := mc_col_cnt s + 1 in
      if col =? 2 then
        let sc := mc_split_cnt s + 1 in
        if 1 <? sc then Ret None
        else if negb (mc_split s =? 0) then Ret None
        else Ret (Some (MkMac (mc_m s) idx idx sc 0 col (mc_elem s)))
      else if 2 <? col then Ret None
      else Ret (Some (MkMac (mc_m s) idx (mc_split s) (mc_split_cnt s) 0 col (mc_elem s)))
    else
      let vc := mc_val_cnt s + 1 in
      if 2 <? vc then Ret None
      else
        let el := if vc =? 1 then mc_elem s + 1 else mc_elem s in
        x <- bget (mc_m s) (mc_idx s);;
        m1 <- bput (mc_m s) (mc_idx s) (u8 (Z.shiftl x 4));;
        y <- bget m1 (mc_idx s);;
        m2 <- bput m1 (mc_idx s) (u8 (Z.lor y val));;
        Ret (Some (MkMac m2 (mc_idx s) (mc_split s) (mc_split_cnt s) vc 0 el)) in
  match hexval c with
  | Some v => body false v
  | None => if code c =? 58 then body true 0 else Ret None
  end.

Fixpoint mac_loop (s : string) (st : mac_st) : out (option mac_st) :=
  match s with
  | EmptyString => Ret (Some st)
  | String c r =>
      o <- mac_step c st;;
      match o with
      | None => Ret None
      | Some st' => mac_loop r st'
      end
  end.

(** memmove (m + to, m + from, n) inside one array, bounds checked. *)
Definition memmove_in (m : buf) (to from n : Z) : out buf :=
  if n <? 0 then Crash Neg_size
  else if (from <? 0) || (zlen m <? from + n) then Crash OOB_read
  else if (to <? 0) || (zlen m <? to + n) then Crash OOB_write
  else
    let src := firstn (Z.to_nat n) (skipn (Z.to_nat from) m) in
    Ret (firstn (Z.to_nat to) m ++ src ++ skipn (Z.to_nat (to + n)) m).

(** memset (m + at, v, n), bounds checked. *)
Definition memset_in (m : buf) (at_ v n : Z) : out buf :=
  if n <? 0 then Crash Neg_size
  else if (at_ <? 0) || (zlen m <? at_ + n) then Crash OOB_write
  else Ret (firstn (Z.to_nat at_) m ++ repeat v (Z.to_nat n) ++ skipn (Z.to_nat (at_ + n)) m).

(** src/ef-parse-bytes.c:319-453 *)
Definition parse_mac (s : string) : out (option buf) :=
  o <- mac_loop s mac_init;;
  match o with
  | None => Ret None
  | Some st =>
      if 1 <? mc_split_cnt st then Ret None
      else if 6 <? mc_elem st then Ret None
      else if (6 <=? mc_elem st) && (0 <? mc_split_cnt st) then Ret None
      else
        let from := mc_split st in
        let to := 6 - mc_elem st + mc_split st in
        let n := mc_elem st - mc_split st in
        m1 <- memmove_in (mc_m st) to from n;;
        m2 <- memset_in m1 (mc_split st) 0 (to - from);;
        Ret (Some m2)
  end.

(** ** parse_bytes *)

(** src/ef-parse-bytes.c:19-23, 205-212: the prefix, [None] if there is none
    ([start_mask] = 0), and the text after it ([data_begin]). *)
Inductive prefix := P0x | P0o | P0b.

Definition split_prefix (s : string) : option prefix * string :=
  match s with
  | String c1 (String c2 r) =>
      if code c1 =? 48 then
        if code c2 =? 120 then (Some P0x, r)
        else if code c2 =? 111 then (Some P0o, r)
        else if code c2 =? 98 then (Some P0b, r)
        else (None, s)
      else (None, s)
  | _ => (None, s)
  end.

(** The character sets of src/ef-parse-bytes.c:45-52. *)
Definition in_base2 (c : ascii) : bool := in_range 48 49 c.
Definition in_base8 (c : ascii) : bool := in_range 50 55 c.
Definition in_base10 (c : ascii) : bool := in_range 56 57 c.
Definition in_base16 (c : ascii) : bool := in_range 97 102 c || in_range 65 70 c.
Definition is_dot (c : ascii) : bool := code c =? 46.
Definition is_colon (c : ascii) : bool := code c =? 58.

(** src/ef-parse-bytes.c:214-230: [has_mask], one boolean per flag, and
    [has_other].  (The counters [has_chars[i].cnt] are never read.) *)
Record char_flags := MkFlags {
  has2 : bool; has8 : bool; has10 : bool; has16 : bool;
  has_dot : bool; has_colon : bool; has_other : bool }.

Definition flags_of (d : string) : char_flags :=
  MkFlags (str_existsb in_base2 d) (str_existsb in_base8 d) (str_existsb in_base10 d)
          (str_existsb in_base16 d) (str_existsb is_dot d) (str_existsb is_colon d)
          (str_existsb (fun c => negb (in_base2 c || in_base8 c || in_base10 c
                                       || in_base16 c || is_dot c || is_colon c)) d).

(** src/ef-parse-bytes.c:232-253: the base, 0 when the text is not a number. *)
Definition base_of (p : option prefix) (f : char_flags) : Z :=
  match p with
  | Some P0x => if negb (has_other f) && negb (has_dot f) && negb (has_colon f)
                then 16 else 0
  | None => if negb (has_other f) && negb (has_dot f) && negb (has_colon f)
               && negb (has16 f) then 10 else 0
  | Some P0o => if negb (has_other f) && negb (has_dot f) && negb (has_colon f)
                   && negb (has16 f) && negb (has10 f) then 8 else 0
  | Some P0b => if negb (has_other f) && negb (has_dot f) && negb (has_colon f)
                   && negb (has16 f) && negb (has10 f) && negb (has8 f) then 2 else 0
  end.

(** The 8 bytes of htobe64 (val) in memory. *)
Fixpoint be_bytes (n : nat) (v : Z) : buf :=
  match n with
  | O => []
  | S k => be_bytes k (v / 256) ++ [v mod 256]
  end.

(** src/ef-parse-bytes.c:194-482.  [bytes] is the C int parameter. *)
Definition parse_bytes (s : string) (bytes : Z) : out (option buf) :=
  let '(pfx, d) := split_prefix s in
  let f := flags_of d in
  let base := base_of pfx f in
  if negb (base =? 0) && (bytes <=? 8) then
    let '(v, rest) := strtoull d base in
    match v, rest with
    | Some val, EmptyString =>
        if bytes <? 0 then Crash Neg_size
        else Ret (Some (skipn (Z.to_nat (8 - bytes)) (be_bytes 8 val)))
    | _, _ => Ret None
    end
  else if base =? 16 then parse_bytes_hex d bytes
  else if base =? 2 then parse_bytes_binary d bytes
  else
    match pfx with
    | Some _ => Ret None
    | None =>
        if (bytes =? 4) && negb (has_other f) && negb (has_colon f) && has_dot f then
          Ret (inet_pton4 d)
        else if (bytes =? 6) && negb (has_other f) && negb (has_dot f) && has_colon f then
          parse_mac d
        else if (bytes =? 16) && negb (has_other f) && has_colon f then
          Ret (inet_pton6 d)
        else Ret None
    end.

(** ** Variable length data *)

(** src/ef-parse-bytes.c:484-564: left aligned, at least [min_size] bytes. *)
Definition parse_var_bytes_hex (s : string) (min_size : Z) : out (option buf) :=
  let '(cnt, others, align) := nib_scan s 0 false false in
  if others || (cnt =? 0) then Ret None
  else if align then Ret None
  else
    b <- nib_fill s (balloc (Z.max (cnt / 2) min_size)) 0 0;; Ret (Some b).

(** memcpy (dst, src, |src|) to the start of [dst], bounds checked. *)
Definition memcpy_start (dst src : buf) : out buf :=
  if zlen dst <? zlen src then Crash OOB_write
  else Ret (src ++ skipn (length src) dst).

(** src/ef-parse-bytes.c:566-592; the memset clears sizeof(int) = 4 bytes. *)
Definition parse_field_hex (s : string) (bytes : Z) : out (option buf) :=
  o <- parse_var_bytes_hex s 0;;
  match o with
  | None => Ret None
  | Some b =>
      if bytes <? zlen b then Ret None
      else
        r1 <- memset_in (balloc bytes) 0 0 4;;
        r2 <- memcpy_start r1 b;;
        Ret (Some r2)
  end.

(** src/ef-parse-bytes.c:594-608 *)
Definition parse_var_bytes_ascii (s : string) : buf := str_bytes s.
Definition parse_var_bytes_ascii0 (s : string) : buf := str_bytes s ++ [0].

(** Big-endian value of a byte list (be32toh at line 630). *)
Definition be_val (l : buf) : Z := fold_left (fun a x => a * 256 + x) l 0.

(** src/ef-parse-bytes.c:610-634; [None] = -1. *)
Definition parse_uint8 (s : string) : out (option Z) :=
  o <- parse_bytes s 1;;
  match o with
  | None => Ret None
  | Some b => x <- bget b 0;; Ret (Some x)
  end.

Definition parse_uint32 (s : string) : out (option Z) :=
  o <- parse_bytes s 4;;
  match o with
  | None => Ret None
  | Some b => if zlen b <? 4 then Crash OOB_read else Ret (Some (be_val (firstn 4 b)))
  end.

(** src/ef-parse-bytes.c:636-656.  Sizes above [size_limit] are outside the
    model (they would overflow [bit_width] later on). *)
Definition parse_var_bytes_repeat (cnt_ val_ : string) : out (option buf) :=
  c <- parse_uint32 cnt_;;
  match c with
  | None => Ret None
  | Some cnt =>
      v <- parse_uint8 val_;;
      match v with
      | None => Ret None
      | Some x => if size_limit <? cnt then Crash Out_of_model
                  else Ret (Some (repeat x (Z.to_nat cnt)))
      end
  end.

(** The loop src/ef-parse-bytes.c:672-673: [val] is a uint8_t. *)
Fixpoint cnt_pattern (n : nat) (v : Z) : buf :=
  match n with
  | O => []
  | S k => v :: cnt_pattern k (u8 (v + 1))
  end.

(** src/ef-parse-bytes.c:658-687 *)
Definition parse_var_bytes_pattern (pat len_ : string) : out (option buf) :=
  c <- parse_uint32 len_;;
  match c with
  | None => Ret None
  | Some n =>
      if size_limit <? n then Crash Out_of_model
      else if String.eqb pat "cnt" then Ret (Some (cnt_pattern (Z.to_nat n) 0))
      else if String.eqb pat "zero" then Ret (Some (repeat 0 (Z.to_nat n)))
      else if String.eqb pat "ones" then Ret (Some (repeat 255 (Z.to_nat n)))
      else Ret None
  end.

(** Result of a word-consuming parser: -1, 0 (nothing recognised) or the number
    of words consumed together with the data. *)
Inductive vres :=
| VErr
| VNone
| VSome (n : nat) (b : buf).

Definition vres_of (n : nat) (o : option buf) : vres :=
  match o with Some b => VSome n b | None => VErr end.

(** src/ef-parse-bytes.c:692-760: one piece. *)
Definition parse_var_bytes_ (ws : list string) : out vres :=
  match ws with
  | [] => Ret VNone
  | w :: r =>
      if String.eqb w "help" then Ret VErr
      else if String.eqb w "hex" then
        match r with
        | [] => Ret VErr
        | s :: _ => o <- parse_var_bytes_hex s 0;; Ret (vres_of 2 o)
        end
      else if String.eqb w "ascii" then
        match r with
        | [] => Ret VErr
        | s :: _ => Ret (VSome 2 (parse_var_bytes_ascii s))
        end
      else if String.eqb w "ascii0" then
        match r with
        | [] => Ret VErr
        | s :: _ => Ret (VSome 2 (parse_var_bytes_ascii0 s))
        end
      else if String.eqb w "repeat" then
        match r with
        | c :: v :: _ => o <- parse_var_bytes_repeat c v;; Ret (vres_of 3 o)
        | _ => Ret VErr
        end
      else if String.eqb w "pattern" then
        match r with
        | p :: l :: _ => o <- parse_var_bytes_pattern p l;; Ret (vres_of 3 o)
        | _ => Ret VErr
        end
      else Ret VNone
  end.

(** src/ef-parse-bytes.c:767-800: the loop; [acc] is [b_res] and [i] the words
    consumed so far.  The result keeps [b_out] apart from the return value
    because [*b_out] is left untouched when nothing was read or on error. *)
Fixpoint pvb_loop (fuel : nat) (ws : list string) (i : nat) (acc : option buf)
  : out (Z * option buf) :=
  match fuel with
  | O => Crash Fuel
  | S fuel =>
      match ws with
      | [] => Ret (Z.of_nat i, acc)
      | _ =>
          r <- parse_var_bytes_ ws;;
          match r with
          | VErr => Ret (-1, None)
          | VNone => Ret (Z.of_nat i, acc)
          | VSome n b =>
              let acc' := match acc with None => b | Some a => a ++ b end in
              pvb_loop fuel (skipn n ws) (i + n) (Some acc')
          end
      end
  end.

(** src/ef-parse-bytes.c:762-806: return value and what was stored in
    [*b_out], if anything. *)
Definition parse_var_bytes (ws : list string) : out (Z * option buf) :=
  pvb_loop (S (length ws)) ws 0 None.

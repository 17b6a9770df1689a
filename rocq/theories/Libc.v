(** The C library functions the program relies on, as glibc implements them.
    They are part of the trusted base (no source in /repo). *)

From Verif Require Export Base.

(** ** strtoull

    [strtoull (s, &end, base)] restricted to what [parse_bytes]
    (src/ef-parse-bytes.c:260) can pass: the caller has already checked that
    every character is a digit of [base] (so leading blanks, signs and the
    optional 0x prefix cannot occur).  Returns the value, or [None] for ERANGE,
    and the unread rest.  An empty string gives (0, "") and errno stays 0. *)
Fixpoint strtoull_loop (base acc : Z) (s : string) : Z * string :=
  match s with
  | EmptyString => (acc, EmptyString)
  | String c r =>
      match hexval c with
      | Some d => if d <? base then strtoull_loop base (acc * base + d) r else (acc, s)
      | None => (acc, s)
      end
  end.

Definition strtoull (s : string) (base : Z) : option Z * string :=
  let '(v, r) := strtoull_loop base 0 s in
  (if v <? 18446744073709551616 then Some v else None, r).

(** ** atoi: (int) strtol (s, NULL, 10), LP64. *)
Definition is_space (c : ascii) : bool :=
  (code c =? 32) || in_range 9 13 c.

Fixpoint skip_space (s : string) : string :=
  match s with
  | EmptyString => EmptyString
  | String c r => if is_space c then skip_space r else s
  end.

Fixpoint dec_prefix (acc : Z) (s : string) : Z :=
  match s with
  | EmptyString => acc
  | String c r => if in_range 48 57 c then dec_prefix (acc * 10 + (code c - 48)) r else acc
  end.

Definition LONG_MAX : Z := 9223372036854775807.

Definition strtol10 (s : string) : Z :=
  match skip_space s with
  | EmptyString => 0
  | String c r as s1 =>
      if code c =? 45 then Z.max (- LONG_MAX - 1) (- dec_prefix 0 r)
      else if code c =? 43 then Z.min LONG_MAX (dec_prefix 0 r)
      else Z.min LONG_MAX (dec_prefix 0 s1)
  end.

(** The conversion [(uint32_t)(int)strtol(...)] done at src/ef-args.c:226
    where [atoi] is assigned to the [uint32_t] member [repeat]. *)
Definition atoi_u32 (s : string) : Z := u32 (strtol10 s).

(** [(int)] of the same, for the time-out option (src/ef-args.c:344). *)
Definition atoi (s : string) : Z :=
  let v := atoi_u32 s in if v <? 2147483648 then v else v - 4294967296.

(** ** printf "%d", "%02hhx" *)

Definition digit_char (d : Z) : ascii :=
  if d <? 10 then chr (48 + d) else chr (97 + (d - 10)).

Fixpoint print_loop (fuel : nat) (base n : Z) (acc : string) : string :=
  match fuel with
  | O => acc
  | S f =>
      let acc' := String (digit_char (n mod base)) acc in
      if n <? base then acc' else print_loop f base (n / base) acc'
  end.

(** Digits of [n >= 0] in [base], most significant first, lower case. *)
Definition print_base (base n : Z) : string :=
  print_loop (S (Z.to_nat (Z.log2 n))) base n "".

(** "%d" *)
Definition print_d (n : Z) : string :=
  if n <? 0 then String (chr 45) (print_base 10 (- n)) else print_base 10 n.

(** "%02hhx" *)
Definition print_02x (b : Z) : string :=
  String (digit_char (b / 16)) (String (digit_char (b mod 16)) "").

(** ** inet_pton (AF_INET)  -- glibc resolv/inet_pton.c, inet_pton4

    [done] are the finished octets, [cur] the octet being read if a digit has
    been seen ([saw_digit]). *)
Fixpoint inet_pton4_loop (s : string) (octets : Z) (done : buf) (cur : option Z) : option buf :=
  match s with
  | EmptyString =>
      if octets <? 4 then None
      else match cur with
           | Some v => Some (done ++ [v])
           | None => Some (done ++ [0])
           end
  | String c r =>
      if in_range 48 57 c then
        let d := code c - 48 in
        match cur with
        | Some v =>
            if v =? 0 then None
            else let v' := v * 10 + d in
                 if 255 <? v' then None else inet_pton4_loop r octets done (Some v')
        | None =>
            if 4 <? octets + 1 then None else inet_pton4_loop r (octets + 1) done (Some d)
        end
      else if code c =? 46 then
        match cur with
        | Some v => if octets =? 4 then None else inet_pton4_loop r octets (done ++ [v]) None
        | None => None
        end
      else None
  end.

Definition inet_pton4 (s : string) : option buf := inet_pton4_loop s 0 [] None.

(** ** inet_pton (AF_INET6)  -- glibc resolv/inet_pton.c, inet_pton6

    [o] are the bytes written so far ([tmp .. tp)), [colon] the position of
    [colonp], [tok] the text from [curtok] on, [nd] is [xdigits_seen]. *)
Definition pton6_finish (o : buf) (colon : option nat) (nd val : Z) : option buf :=
  let fin :=
    if 0 <? nd then
      if 16 <? zlen o + 2 then None else Some (o ++ [u8 (Z.shiftr val 8); u8 val])
    else Some o in
  match fin with
  | None => None
  | Some o =>
      match colon with
      | Some k =>
          if zlen o =? 16 then None
          else Some (firstn k o ++ repeat 0 (16 - length o)%nat ++ skipn k o)
      | None => if zlen o =? 16 then Some o else None
      end
  end.

Fixpoint inet_pton6_loop (s tok : string) (o : buf) (colon : option nat) (nd val : Z)
  : option buf :=
  match s with
  | EmptyString => pton6_finish o colon nd val
  | String c r =>
      match hexval c with
      | Some d =>
          if nd =? 4 then None
          else inet_pton6_loop r tok o colon (nd + 1) (Z.lor (Z.shiftl val 4) d)
      | None =>
          if code c =? 58 then
            if nd =? 0 then
              match colon with
              | Some _ => None
              | None => inet_pton6_loop r r o (Some (length o)) 0 val
              end
            else
              match r with
              | EmptyString => None
              | _ =>
                  if 16 <? zlen o + 2 then None
                  else inet_pton6_loop r r (o ++ [u8 (Z.shiftr val 8); u8 val]) colon 0 0
              end
          else if (code c =? 46) && (zlen o + 4 <=? 16) then
            match inet_pton4 tok with
            | Some q => pton6_finish (o ++ q) colon 0 0
            | None => None
            end
          else None
      end
  end.

Definition inet_pton6 (s : string) : option buf :=
  match s with
  | EmptyString => None
  | String c r =>
      if code c =? 58 then
        match r with
        | String c2 _ => if code c2 =? 58 then inet_pton6_loop r r [] None 0 0 else None
        | EmptyString => None
        end
      else inet_pton6_loop s s [] None 0 0
  end.

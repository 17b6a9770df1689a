(** Properties C01-C10: from text to bytes.  Theorems only; the vocabulary is in
    SpecText.v, the proofs are in PText*.v. *)

From Verif Require Import PTextIp.

(** C01.  A numeral of n < 2^64 in base 2, 8, 10 or 16, written with the prefix
    of its base, is stored in k <= 8 bytes as n modulo 256^k, big-endian. *)
Theorem C01_numerals : forall base body n k,
  is_radix base -> denotes base body n -> n < 2 ^ 64 -> 1 <= k <= 8 ->
  exists l, parse_bytes (radix_prefix base ++ body) k = Ret (Some l) /\ big_endian k n l.
Proof. exact numeral_stored. Qed.
Print Assumptions C01_numerals.

(** Every natural number has numerals in each base. *)
Example C01_numerals_exist : forall base n, is_radix base -> 0 <= n -> exists s, denotes base s n.
Proof. exact numeral_exists. Qed.

Example C01_case : denotes 16 "DeadBeef" 3735928559 /\
  parse_bytes "0xDeadBeef" 3 = Ret (Some [173; 190; 239]).
Proof.
  split; [|vm_compute; reflexivity].
  exists [13; 14; 10; 13; 11; 14; 14; 15]. split; [|reflexivity]. repeat constructor.
Qed.

(** C02.  For at most 8 bytes and a text without '.' and ':': accepted exactly
    when it is a prefixed numeral of a number below 2^64; otherwise "no value". *)
Theorem C02_exactly_numerals : forall s k, ~ contains "." s -> ~ contains ":" s -> 1 <= k <= 8 ->
  ((exists l, parse_bytes s k = Ret (Some l)) <->
   (exists base body n, is_radix base /\ s = (radix_prefix base ++ body)%string /\
                        denotes base body n /\ n < 2 ^ 64))
  /\ ((forall l, parse_bytes s k <> Ret (Some l)) -> parse_bytes s k = Ret None).
Proof. exact numeral_accepted_iff. Qed.
Print Assumptions C02_exactly_numerals.

Example C02_case : ~ contains "." "12a" /\ ~ contains ":" "12a" /\ parse_bytes "12a" 4 = Ret None
  /\ parse_bytes "18446744073709551616" 8 = Ret None /\ parse_bytes "0o17" 1 = Ret (Some [15]).
Proof.
  repeat split; try (vm_compute; reflexivity); unfold contains; cbn; intuition discriminate.
Qed.

(** C03.  A value parsed for a k byte request has k bytes in 0..255. *)
Theorem C03_size : forall s k l, 0 <= k -> parse_bytes s k = Ret (Some l) ->
  Z.of_nat (length l) = k /\ Forall is_byte l.
Proof. exact parse_bytes_len. Qed.
Print Assumptions C03_size.

Example C03_case : parse_bytes "0x1122334455667788aabb" 12 =
  Ret (Some [0; 0; 17; 34; 51; 68; 85; 102; 119; 136; 170; 187]).
Proof. vm_compute. reflexivity. Qed.

(** C04.  MAC address texts.  Full claim: for all texts of this form.  It fails
    for texts that start with "0b", which are taken for a binary literal
    ([C04_refuted]); for all others: *)
Theorem C04_mac_partial :
  (forall ts vs, Forall2 (hex_group 2) ts vs -> length vs = 6%nat ->
     ~ starts_0b (joined ":" ts) ->
     parse_bytes (joined ":" ts) 6 = Ret (Some vs)) /\
  (forall tp tq p q, Forall2 (hex_group 2) tp p -> Forall2 (hex_group 2) tq q ->
     (length p + length q <= 5)%nat -> ~ starts_0b (joined ":" tp) ->
     parse_bytes (joined ":" tp ++ "::" ++ joined ":" tq) 6 =
     Ret (Some (p ++ zeros (6 - length p - length q) ++ q))).
Proof. exact (conj mac_full mac_split_text). Qed.
Print Assumptions C04_mac_partial.

Theorem C04_refuted : exists ts vs, Forall2 (hex_group 2) ts vs /\ length vs = 6%nat /\
  parse_bytes (joined ":" ts) 6 = Ret None.
Proof.
  exists ["0b"; "00"; "00"; "00"; "00"; "01"], [11; 0; 0; 0; 0; 1]. split; [|split; vm_compute; reflexivity].
  assert (G : forall a b x y, digit a = Some x -> digit b = Some y ->
     hex_group 2 (String a (String b "")) (16 * x + y)).
  { intros a b x y Ha Hb. pose proof (digit_range _ _ Ha). pose proof (digit_range _ _ Hb).
    split; [cbn; lia|]. exists [x; y]. split; [|symmetry; apply positional_2]. repeat constructor; auto; lia. }
  constructor; [apply (G "0"%char "b"%char 0 11); reflexivity|].
  repeat (constructor; [apply (G "0"%char "0"%char 0 0); reflexivity|]).
  constructor; [apply (G "0"%char "1"%char 0 1); reflexivity|constructor].
Qed.
Print Assumptions C04_refuted.

Example C04_case : ~ starts_0b "1:FF" /\
  parse_bytes "1:FF::0c" 6 = Ret (Some [1; 255; 0; 0; 0; 12]).
Proof. split; [intros [r H]; discriminate|vm_compute; reflexivity]. Qed.

(** C05.  Every text with a colon, for a 6 byte field: the parser returns (it
    never leaves its array), and what it accepts has at most six octets, at most
    five with '::', stored around the '::'. *)
Theorem C05_mac_safe : forall s, contains ":" s ->
  exists o, parse_bytes s 6 = Ret o /\
  forall r, o = Some r ->
    Z.of_nat (length r) = 6 /\
    exists os, octets s = Some os /\ (length os <= 6)%nat /\
      ((forall A B, s <> (A ++ "::" ++ B)%string) -> r = zeros (6 - length os) ++ os) /\
      (forall A B, s = (A ++ "::" ++ B)%string ->
         (length os <= 5)%nat /\
         exists p q, octets A = Some p /\ octets B = Some q /\ os = p ++ q /\
                     r = p ++ zeros (6 - length p - length q) ++ q).
Proof. exact mac_every_string. Qed.
Print Assumptions C05_mac_safe.

Example C05_case : contains ":" "1:2:3:4:5:6:7" /\ parse_bytes "1:2:3:4:5:6:7" 6 = Ret None
  /\ parse_bytes "1:2:3::4:5:6" 6 = Ret None /\ octets "1:2:3:4:5:6:7" = Some [1; 2; 3; 4; 5; 6; 7].
Proof. repeat split; try (vm_compute; reflexivity). unfold contains; cbn; auto. Qed.

(** C06.  Dotted quads. *)
Theorem C06_ipv4 :
  (forall a b c d, is_byte a -> is_byte b -> is_byte c -> is_byte d ->
     parse_bytes (decimal a ++ "." ++ decimal b ++ "." ++ decimal c ++ "." ++ decimal d) 4 =
     Ret (Some [a; b; c; d])) /\
  (forall s l, contains "." s -> parse_bytes s 4 = Ret (Some l) ->
     exists a b c d, is_byte a /\ is_byte b /\ is_byte c /\ is_byte d /\
       s = (decimal a ++ "." ++ decimal b ++ "." ++ decimal c ++ "." ++ decimal d)%string /\
       l = [a; b; c; d]).
Proof. exact (conj quad_parsed dotted_accepted). Qed.
Print Assumptions C06_ipv4.

Example C06_case : decimal 192 = "192" /\ parse_bytes "192.168.0.10" 4 = Ret (Some [192; 168; 0; 10])
  /\ parse_bytes "192.168.0.256" 4 = Ret None.
Proof. repeat split; vm_compute; reflexivity. Qed.

(** C07.  IPv6 texts; same exception as C04. *)
Theorem C07_ipv6_partial :
  (forall ts gs, Forall2 (hex_group 4) ts gs -> length gs = 8%nat ->
     ~ starts_0b (joined ":" ts) ->
     parse_bytes (joined ":" ts) 16 = Ret (Some (flat_map group_bytes gs))) /\
  (forall tp tq p q, Forall2 (hex_group 4) tp p -> Forall2 (hex_group 4) tq q ->
     (length p + length q <= 7)%nat -> ~ starts_0b (joined ":" tp) ->
     parse_bytes (joined ":" tp ++ "::" ++ joined ":" tq) 16 =
     Ret (Some (flat_map group_bytes p ++ zeros (16 - 2 * length p - 2 * length q)
                ++ flat_map group_bytes q))).
Proof. exact (conj ipv6_full ipv6_split_text). Qed.
Print Assumptions C07_ipv6_partial.

Theorem C07_refuted : exists tp p, Forall2 (hex_group 4) tp p /\ (length p <= 7)%nat /\
  parse_bytes (joined ":" tp ++ "::") 16 = Ret None.
Proof.
  exists ["0b1"], [177]. split; [|split; [cbn; lia|vm_compute; reflexivity]].
  repeat constructor; cbn; try lia. exists [0; 11; 1]. split; [|reflexivity]. repeat constructor.
Qed.
Print Assumptions C07_refuted.

Example C07_case : hex_group 4 "fe80" 65152 /\ ~ starts_0b "fe80" /\
  parse_bytes "fe80::1:2" 16 = Ret (Some [254; 128; 0; 0; 0; 0; 0; 0; 0; 0; 0; 0; 0; 1; 0; 2]).
Proof.
  split; [|split; [intros [r H]; discriminate|vm_compute; reflexivity]].
  split; [cbn; lia|]. exists [15; 14; 8; 0]. split; [|reflexivity]. repeat constructor.
Qed.

(** C08.  Literals for fields wider than 8 bytes. *)
Theorem C08_wide_literals_partial :
  (forall body ds k, 8 < k -> digits_of 16 body ds -> (0 < length ds)%nat ->
     Nat.Even (length ds) -> Z.of_nat (length ds) <= 2 * k ->
     exists l, parse_bytes ("0x" ++ body) k = Ret (Some l) /\ big_endian k (positional 16 ds) l) /\
  (forall body ds k, 8 < k -> digits_of 2 body ds -> (0 < length ds)%nat ->
     Z.of_nat (length ds) mod 8 = 0 -> Z.of_nat (length ds) <= 8 * k ->
     exists l, parse_bytes ("0b" ++ body) k = Ret (Some l) /\ big_endian k (positional 2 ds) l).
Proof. exact (conj wide_hex wide_bin). Qed.
Print Assumptions C08_wide_literals_partial.

(** The remaining clause, "a longer literal never corrupts memory", is false: a
    longer literal always accesses memory in front of the buffer. *)
Theorem C08_refuted :
  (forall body ds k, 8 < k -> digits_of 16 body ds -> Nat.Even (length ds) ->
     2 * k < Z.of_nat (length ds) -> parse_bytes ("0x" ++ body) k = Crash OOB_read) /\
  (exists body ds k, 8 < k /\ digits_of 16 body ds /\ Nat.Even (length ds) /\
     2 * k < Z.of_nat (length ds)).
Proof.
  split; [exact wide_hex_overflow|].
  exists "00000000000000000000", (repeat 0 20), 9. repeat split; try (cbn; lia).
  - repeat constructor.
  - exists 10%nat. reflexivity.
Qed.
Print Assumptions C08_refuted.

Example C08_case : digits_of 16 "0102030405060708090A" [0;1;0;2;0;3;0;4;0;5;0;6;0;7;0;8;0;9;0;10] /\
  parse_bytes "0x0102030405060708090A" 11 = Ret (Some [0; 1; 2; 3; 4; 5; 6; 7; 8; 9; 10]).
Proof. split; [repeat constructor|vm_compute; reflexivity]. Qed.

(** C09.  Hex dumps, with any separators between the bytes. *)
Theorem C09_hexdump :
  (forall data, Forall is_byte data -> data <> [] ->
     parse_var_bytes_hex (hex_str data) 0 = Ret (Some data)) /\
  (forall data text, hexdump data text -> data <> [] ->
     parse_var_bytes_hex text 0 = Ret (Some data)).
Proof.
  exact (conj (fun d Hb Hn => parse_var_hex_dump d _ (hex_str_dump d Hb) Hn) parse_var_hex_dump).
Qed.
Print Assumptions C09_hexdump.

Example C09_case : hexdump [10; 188] "0a-.BC" /\ hex_str [10; 188] = "0abc".
Proof.
  split; [|vm_compute; reflexivity].
  apply (hd_byte "0" "a" 0 10); [reflexivity|reflexivity|].
  apply hd_sep; [unfold separator; cbn; auto|]. apply hd_sep; [unfold separator; cbn; auto|].
  apply (hd_byte "B" "C" 11 12); [reflexivity|reflexivity|constructor].
Qed.

(** C10.  Variable length data is the concatenation of its pieces; words after
    the last piece are left alone. *)
Theorem C10_pieces : forall ps rest,
  ps <> [] -> Forall piece_ok ps ->
  (rest = [] \/ exists w r, rest = w :: r /\ not_piece_word w) ->
  parse_var_bytes (flat_map piece_words ps ++ rest) =
  Ret (Z.of_nat (length (flat_map piece_words ps)), Some (concat (map piece_data ps))).
Proof. exact pieces_parsed. Qed.
Print Assumptions C10_pieces.

Example C10_case :
  let ps := [Hex "0a0b" [10; 11]; Ascii0 "hi"; Repeat "3" "0xff" 3 255; Pattern Counting "0b11" 3] in
  Forall piece_ok ps /\
  parse_var_bytes ["hex"; "0a0b"; "ascii0"; "hi"; "repeat"; "3"; "0xff"; "pattern"; "cnt"; "0b11"; "udp"] =
  Ret (10, Some [10; 11; 104; 105; 0; 255; 255; 255; 0; 1; 2]).
Proof.
  cbv zeta. split; [|vm_compute; reflexivity].
  assert (N : forall b s ds n, is_radix b -> digits_of b s ds -> n = positional b ds -> number (radix_prefix b ++ s) n).
  { intros b s ds n Hr Hd ->. exists b, s. repeat split; auto. exists ds. auto. }
  constructor; [|constructor; [exact I|constructor; [|constructor; [|constructor]]]].
  - split; [|discriminate]. apply (hd_byte "0" "a" 0 10); [reflexivity|reflexivity|].
    apply (hd_byte "0" "b" 0 11); [reflexivity|reflexivity|constructor].
  - split; [apply (N 10 "3" [3]); [unfold is_radix; cbn; auto|repeat constructor|reflexivity]|].
    split; [apply (N 16 "ff" [15; 15]); [unfold is_radix; cbn; auto|repeat constructor|reflexivity]|lia].
  - split; [apply (N 2 "11" [1; 1]); [unfold is_radix; cbn; auto|repeat constructor|reflexivity]|lia].
Qed.

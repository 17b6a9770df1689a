(** The Internet checksum (RFC 1071), independent of the program. *)

From Coq Require Import ZArith List Bool.
Import ListNotations.
Open Scope Z_scope.

(** The 16 bit words of a byte string, first byte most significant; an odd last byte
    is followed by a zero. *)
Fixpoint words16 (b : list Z) : list Z :=
  match b with
  | x :: y :: r => 256 * x + y :: words16 r
  | [x] => [256 * x]
  | [] => []
  end.

(** One's complement addition of 16 bit words: the carry goes around. *)
Definition ones_add (a w : Z) : Z := if a + w <? 65536 then a + w else a + w - 65535.

Definition ones_sum (b : list Z) : Z := fold_left ones_add (words16 b) 0.

(** Data that contains its checksum is accepted by a receiver. *)
Definition verifies (b : list Z) : Prop := ones_sum b = 65535.

(** The two bytes of a 16 bit number. *)
Definition two_bytes (c : Z) : list Z := [c / 256; c mod 256].

(** The sum of the 16 bit words, first byte least significant. *)
Fixpoint host_sum (b : list Z) : Z :=
  match b with
  | x :: y :: r => x + 256 * y + host_sum r
  | [x] => x
  | [] => 0
  end.

(** The checksum the program stores: the complement of that sum, whose upper half has
    been added to the lower half once, least significant byte first. *)
Definition once (b : list Z) : list Z :=
  let c := 65535 - (host_sum b / 65536 + host_sum b mod 65536) mod 65536 in [c mod 256; c / 256].

(** Adding the upper half of that sum to its lower half gives no new carry. *)
Definition no_second_carry (b : list Z) : Prop :=
  host_sum b / 65536 + host_sum b mod 65536 < 65536.

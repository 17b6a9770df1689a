(** Vocabulary for bits, fields and headers inside a byte string. *)

From Coq Require Import ZArith List Bool.
Import ListNotations.
Open Scope Z_scope.

(** Bit [i] of a byte string, counted from the most significant bit of the
    first byte; bits beyond the end are 0. *)
Definition bit_at (b : list Z) (i : Z) : bool :=
  Z.testbit (nth (Z.to_nat (i / 8)) b 0) (7 - i mod 8).

(** The unsigned number written in the [w] bits from bit [pos] on, most
    significant bit first. *)
Fixpoint number_at (b : list Z) (pos : Z) (w : nat) : Z :=
  match w with
  | O => 0
  | S k => 2 * number_at b pos k + (if bit_at b (pos + Z.of_nat k) then 1 else 0)
  end.

(** The bytes of [b] from [pos] on, [n] of them. *)
Definition slice (b : list Z) (pos n : nat) : list Z := firstn n (skipn pos b).

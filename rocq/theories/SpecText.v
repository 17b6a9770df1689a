(** Specification vocabulary for the properties about texts and bytes.

    Nothing here refers to the model of the program: numerals, addresses and
    data pieces are described the way a user of the tool would. *)

From Coq Require Import String Ascii List ZArith.
From Coq Require Import DecimalString.
Import ListNotations.
Open Scope string_scope.
Open Scope list_scope.
Open Scope Z_scope.

(** ** Digits and numerals *)

(** Position of a character in a string, counted from [i]. *)
Fixpoint index_in (c : ascii) (s : string) (i : Z) : option Z :=
  match s with
  | EmptyString => None
  | String x r => if Ascii.eqb c x then Some i else index_in c r (i + 1)
  end.

(** Value of a digit, either case. *)
Definition digit (c : ascii) : option Z :=
  match index_in c "0123456789abcdef" 0 with
  | Some d => Some d
  | None => index_in c "0123456789ABCDEF" 0
  end.

(** The characters of a string. *)
Fixpoint chars (s : string) : list ascii :=
  match s with
  | EmptyString => []
  | String c r => c :: chars r
  end.

(** [digits_of base s ds]: [s] is spelled by the digits [ds] of [base]. *)
Definition digits_of (base : Z) (s : string) (ds : list Z) : Prop :=
  Forall2 (fun c d => digit c = Some d /\ d < base) (chars s) ds.

(** Positional value: first digit most significant. *)
Fixpoint positional (base : Z) (ds : list Z) : Z :=
  match ds with
  | [] => 0
  | d :: r => d * base ^ Z.of_nat (length r) + positional base r
  end.

(** [s] is a numeral of [n] in [base] (leading zeros allowed, empty = 0). *)
Definition denotes (base : Z) (s : string) (n : Z) : Prop :=
  exists ds, digits_of base s ds /\ n = positional base ds.

(** Radix prefixes. *)
Definition radix_prefix (base : Z) : string :=
  if base =? 2 then "0b" else if base =? 8 then "0o"
  else if base =? 16 then "0x" else "".

Definition is_radix (base : Z) : Prop := In base [2; 8; 10; 16].

(** Canonical decimal text of a natural number (Coq's own printer). *)
Definition decimal (n : Z) : string := NilZero.string_of_uint (N.to_uint (Z.to_N n)).

(** ** Bytes *)

Definition is_byte (x : Z) : Prop := 0 <= x < 256.

(** [l] is the [k] byte big-endian representation of [n] modulo 256^k. *)
Definition big_endian (k : Z) (n : Z) (l : list Z) : Prop :=
  Z.of_nat (length l) = k /\ Forall is_byte l /\ positional 256 l = n mod 256 ^ k.

Definition contains (c : ascii) (s : string) : Prop := In c (chars s).

(** ** Lists of items separated by a character *)

Fixpoint joined (sep : string) (l : list string) : string :=
  match l with
  | [] => ""
  | [x] => x
  | x :: r => (x ++ sep ++ joined sep r)%string
  end.

(** One hexadecimal group: 1..n digits, value v. *)
Definition hex_group (n : nat) (t : string) (v : Z) : Prop :=
  (1 <= String.length t <= n)%nat /\ denotes 16 t v.

(** The text starts with "0b", which the tool takes for a radix prefix. *)
Definition starts_0b (s : string) : Prop := exists r, (s = "0b" ++ r)%string.

Definition zeros (n : nat) : list Z := repeat 0 n.

(** Two bytes of a 16 bit group. *)
Definition group_bytes (g : Z) : list Z := [g / 256; g mod 256].

(** ** Hex dumps *)

Definition separator (c : ascii) : Prop := In c ["."; ":"; "-"; "_"]%char.

Inductive hexdump : list Z -> string -> Prop :=
| hd_nil : hexdump [] ""
| hd_sep : forall c b s, separator c -> hexdump b s -> hexdump b (String c s)
| hd_byte : forall c1 c2 h l b s,
    digit c1 = Some h -> digit c2 = Some l -> hexdump b s ->
    hexdump (16 * h + l :: b) (String c1 (String c2 s)).

(** ** Pieces of variable length data *)

Inductive pattern := Counting | Zeroes | Ones.

Inductive piece :=
| Hex (text : string) (data : list Z)
| Ascii_ (text : string)
| Ascii0 (text : string)
| Repeat (count_text val_text : string) (count val : Z)
| Pattern (p : pattern) (count_text : string) (count : Z).

(** A number as the tool accepts it: radix prefix and digits. *)
Definition number (s : string) (n : Z) : Prop :=
  exists base body, is_radix base /\ (s = radix_prefix base ++ body)%string /\ denotes base body n.

Definition piece_ok (p : piece) : Prop :=
  match p with
  | Hex t d => hexdump d t /\ d <> []
  | Ascii_ _ | Ascii0 _ => True
  | Repeat ct vt c v => number ct c /\ number vt v /\ 0 <= c <= 134217728 /\ 0 <= v < 256
  | Pattern _ ct c => number ct c /\ 0 <= c <= 134217728
  end.

Definition pattern_word (p : pattern) : string :=
  match p with Counting => "cnt" | Zeroes => "zero" | Ones => "ones" end.

Definition piece_words (p : piece) : list string :=
  match p with
  | Hex t _ => ["hex"; t]
  | Ascii_ t => ["ascii"; t]
  | Ascii0 t => ["ascii0"; t]
  | Repeat ct vt _ _ => ["repeat"; ct; vt]
  | Pattern p ct _ => ["pattern"; pattern_word p; ct]
  end.

Definition text_bytes (s : string) : list Z := map (fun c => Z.of_nat (nat_of_ascii c)) (chars s).

Definition pattern_byte (p : pattern) (i : nat) : Z :=
  match p with Counting => Z.of_nat i mod 256 | Zeroes => 0 | Ones => 255 end.

Definition piece_data (p : piece) : list Z :=
  match p with
  | Hex _ d => d
  | Ascii_ t => text_bytes t
  | Ascii0 t => text_bytes t ++ [0]
  | Repeat _ _ c v => repeat v (Z.to_nat c)
  | Pattern p _ c => map (pattern_byte p) (seq 0 (Z.to_nat c))
  end.

(** A word that starts no piece and is not the help request. *)
Definition not_piece_word (w : string) : Prop :=
  ~ In w ["help"; "hex"; "ascii"; "ascii0"; "repeat"; "pattern"].

(** ** MAC address texts in full generality *)

(** Values of the non-empty fields between colons; [cur] is the field being
    read (number of digits, value).  [None] if a field has more than two digits
    or a character is neither a hexadecimal digit nor a colon. *)
Fixpoint octets_from (s : string) (cur : option (nat * Z)) : option (list Z) :=
  match s with
  | EmptyString => Some (match cur with Some (_, v) => [v] | None => [] end)
  | String c r =>
      if Ascii.eqb c ":" then
        match octets_from r None with
        | Some l => Some (match cur with Some (_, v) => v :: l | None => l end)
        | None => None
        end
      else
        match digit c with
        | None => None
        | Some d =>
            match cur with
            | None => octets_from r (Some (1%nat, d))
            | Some (1%nat, v) => octets_from r (Some (2%nat, 16 * v + d))
            | Some _ => None
            end
        end
  end.
Definition octets (s : string) : option (list Z) := octets_from s None.

(** Outcomes, byte buffers and characters.

    Every definition of the model cites the C code it stands for.  A buffer
    [buf_t] (src/ef.h:22-25) is the list of its [size] bytes; a byte is a [Z]
    in 0..255 ([bytes_ok]).  Allocation is assumed to succeed. *)

From Coq Require Export String Ascii List ZArith Lia Bool.
Export ListNotations.
Open Scope string_scope.
Open Scope list_scope.
Open Scope Z_scope.

(** Abnormal ends of a run.  The first five are undefined behaviour of the C
    program; [Assert_fail] is the abort of a failed [assert] (asserts are
    enabled: CMakeLists.txt sets no NDEBUG); [Exit_call] is a call of [exit];
    [Out_of_model] marks sizes above [size_limit], where C [int] arithmetic on
    bit positions could overflow; [Fuel] is a model artefact (recursion fuel
    exhausted) that is proved unreachable. *)
Inductive crash :=
| OOB_read | OOB_write | Null_deref | Uninit_ptr | Neg_size
| Assert_fail | Exit_call | Out_of_model | Fuel.

(** Undefined behaviour proper. *)
Definition is_ub (c : crash) : bool :=
  match c with
  | OOB_read | OOB_write | Null_deref | Uninit_ptr | Neg_size => true
  | _ => false
  end.

Inductive out (A : Type) :=
| Ret (a : A)
| Crash (c : crash).
Arguments Ret {A} a.
Arguments Crash {A} c.

Definition bind {A B} (x : out A) (f : A -> out B) : out B :=
  match x with
  | Ret a => f a
  | Crash c => Crash c
  end.
Notation "x <- e1 ;; e2" := (bind e1 (fun x => e2))
  (at level 61, e1 at next level, right associativity).
Notation "' p <- e1 ;; e2" := (bind e1 (fun p => e2))
  (at level 61, p pattern, e1 at next level, right associativity).

(** ** Numbers *)

Definition u8 (x : Z) : Z := x mod 256.
Definition u16 (x : Z) : Z := x mod 65536.
Definition u32 (x : Z) : Z := x mod 4294967296.
Definition u64 (x : Z) : Z := x mod 18446744073709551616.

(** src/ef.h:16-17  BIT_TO_BYTE(x) = (1 + ((x - 1) / 8))  -- C division
    truncates towards zero, so BIT_TO_BYTE(0) = 1. *)
Definition BIT_TO_BYTE (x : Z) : Z := 1 + Z.quot (x - 1) 8.

(** Largest frame/payload size (in bytes) the model covers. *)
Definition size_limit : Z := 134217728.

(** ** Buffers *)

Definition buf := list Z.

Definition byte_ok (b : Z) : Prop := 0 <= b < 256.
Definition bytes_ok (b : buf) : Prop := Forall byte_ok b.

Definition zlen {A} (l : list A) : Z := Z.of_nat (length l).

Fixpoint upd {A} (l : list A) (n : nat) (v : A) : list A :=
  match l, n with
  | [], _ => []
  | _ :: r, O => v :: r
  | x :: r, S k => x :: upd r k v
  end.

(** src/ef-buf.c:14-27 balloc: a zeroed buffer. *)
Definition balloc (n : Z) : buf := repeat 0 (Z.to_nat n).

(** [b->data[i]], bounds checked. *)
Definition bget (b : buf) (i : Z) : out Z :=
  if (0 <=? i) && (i <? zlen b) then Ret (nth (Z.to_nat i) b 0) else Crash OOB_read.

(** [b->data[i] = v], bounds checked. *)
Definition bput (b : buf) (i : Z) (v : Z) : out buf :=
  if (0 <=? i) && (i <? zlen b) then Ret (upd b (Z.to_nat i) v) else Crash OOB_write.

(** ** Characters and strings *)

Definition code (c : ascii) : Z := Z.of_N (N_of_ascii c).

(** [char] is signed on the supported targets: value used by ordered
    comparisons that have no matching upper bound. *)
Definition scode (c : ascii) : Z := if code c <? 128 then code c else code c - 256.

Definition chr (n : Z) : ascii := ascii_of_N (Z.to_N n).

Definition in_range (lo hi : Z) (c : ascii) : bool := (lo <=? code c) && (code c <=? hi).

(** '0'..'9', 'a'..'f', 'A'..'F' to a nibble: the comparison chain repeated at
    src/ef-parse-bytes.c:163-177, 346-362 and 536-550. *)
Definition hexval (c : ascii) : option Z :=
  if in_range 48 57 c then Some (code c - 48)
  else if in_range 97 102 c then Some (code c - 97 + 10)
  else if in_range 65 70 c then Some (code c - 65 + 10)
  else None.

Fixpoint str_existsb (p : ascii -> bool) (s : string) : bool :=
  match s with
  | EmptyString => false
  | String c r => p c || str_existsb p r
  end.

Fixpoint str_forallb (p : ascii -> bool) (s : string) : bool :=
  match s with
  | EmptyString => true
  | String c r => p c && str_forallb p r
  end.

(** strlen *)
Definition slen (s : string) : Z := Z.of_nat (String.length s).

(** The bytes of a C string. *)
Fixpoint str_bytes (s : string) : buf :=
  match s with
  | EmptyString => []
  | String c r => code c :: str_bytes r
  end.

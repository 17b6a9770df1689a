(** Lists of buffers, text in them, and single buffers: the functions of src/ef-buf.c
    that ef.h:22-75 offers to other programs.  (easyframes itself uses [balloc],
    [bclone], [bfree] and [bprintf] only; the rest of the model has those as values.)

    Here a buffer or a list element is a block of a heap; functions follow pointers.
    Simplifications: addresses are not reused, so that every use of a freed block is
    seen; a format with its arguments is the text it produces; [calloc] succeeds or
    fails as the argument [ok] says; what the caller must not pass (a NULL list, a
    format that vsnprintf refuses) is left out.  [bl_to_buf], [bset_value] and
    [bwrite_all] are declared in ef.h:54-75, but no file defines them. *)

From Verif Require Export Base.
Local Open Scope Z_scope.

Definition addr := nat.

(** src/ef.h:34-37; the bytes are behind the element in the same block. *)
Record elem := MkElem { e_next : option addr; e_data : buf }.

Inductive block := Buffer (b : buf) | Element (e : elem).

Inductive cell := Used (b : block) | Freed.

Definition heap := list cell.

Inductive stop :=
| Null_pointer       (* access through NULL *)
| Dangling           (* access to or free of a freed block *)
| Wild               (* access to something that is no block of that type *)
| Outside            (* access outside the bytes of a block *)
| Assertion          (* assert() fails *)
| Endless.           (* a loop or recursion without end *)

Inductive res (A : Type) := Done (a : A) (H : heap) | Stop (s : stop).
Arguments Done {A} a H.
Arguments Stop {A} s.

Definition M (A : Type) := heap -> res A.
Definition pure {A} (a : A) : M A := fun H => Done a H.
Definition fail {A} (s : stop) : M A := fun _ => Stop s.
Definition seq {A B} (m : M A) (k : A -> M B) : M B :=
  fun H => match m H with Done a H' => k a H' | Stop s => Stop s end.
Notation "x <~ m ;; k" := (seq m (fun x => k)) (at level 61, m at next level, right associativity).
Notation "m ~;; k" := (seq m (fun _ => k)) (at level 61, right associativity).

(** calloc, free, and access to a block *)
Definition calloc (b : block) : M addr := fun H => Done (length H) (H ++ [Used b]).

Definition load (p : option addr) : M block := fun H =>
  match p with
  | None => Stop Null_pointer
  | Some a => match nth_error H a with Some (Used b) => Done b H | Some Freed => Stop Dangling | None => Stop Wild end
  end.

Definition store (p : option addr) (b : block) : M unit := fun H =>
  match p with
  | None => Stop Null_pointer
  | Some a => match nth_error H a with Some (Used _) => Done tt (upd H a (Used b)) | Some Freed => Stop Dangling | None => Stop Wild end
  end.

Definition free (a : addr) : M unit := fun H =>
  match nth_error H a with Some (Used _) => Done tt (upd H a Freed) | Some Freed => Stop Dangling | None => Stop Wild end.

Definition load_buf (p : option addr) : M buf :=
  b <~ load p;; match b with Buffer d => pure d | Element _ => fail Wild end.

Definition load_elem (p : option addr) : M elem :=
  b <~ load p;; match b with Element e => pure e | Buffer _ => fail Wild end.

(** ** Buffers *)

(** src/ef-buf.c:7-12 *)
Definition bfree (p : option addr) : M unit :=
  match p with None => pure tt | Some a => free a end.

(** src/ef-buf.c:14-27 *)
Definition balloc (ok : bool) (size : nat) : M (option addr) :=
  if ok then a <~ calloc (Buffer (repeat 0 size));; pure (Some a) else pure None.

(** src/ef-buf.c:29-40 *)
Definition bclone (ok : bool) (p : option addr) : M (option addr) :=
  match p with
  | None => pure None
  | Some _ => b <~ load_buf p;; q <~ balloc ok (length b);;
      match q with None => pure None | Some _ => store q (Buffer b) ~;; pure q end
  end.

(** src/ef-buf.c:42-53 *)
Definition bequal (p q : option addr) : M bool :=
  match p, q with
  | None, None => pure true
  | Some _, Some _ => a <~ load_buf p;; b <~ load_buf q;;
      if negb (Nat.eqb (length a) (length b)) then pure false else pure (forallb (fun xy => fst xy =? snd xy) (combine a b))
  | _, _ => pure false
  end.

(** What [vsnprintf] leaves in [n] bytes that hold [old]: as much of the text as fits
    with a zero behind it. *)
Definition vsnprintf (n : nat) (t : buf) (old : buf) : buf :=
  match n with
  | O => old
  | S m => let k := Nat.min m (length t) in firstn k t ++ 0 :: skipn (S k) old
  end.

(** src/ef-buf.c:257-274 *)
Definition bprintf (ok : bool) (t : buf) : M (option addr) :=
  q <~ balloc ok (length t + 1);;
  match q with
  | None => pure None
  | Some _ => b <~ load_buf q;; store q (Buffer (vsnprintf (length b) t b)) ~;; pure q
  end.

(** ** Elements *)

(** src/ef-buf.c:91-99; one call for each element of the list, [n] of them at most. *)
Fixpoint ble_free_ (n : nat) (p : option addr) : M unit :=
  match p with
  | None => pure tt
  | Some a =>
      match n with
      | O => fail Endless
      | S n => e <~ load_elem p;;
          match e_next e with Some _ => ble_free_ n (e_next e) | None => pure tt end ~;; free a
      end
  end.

(** A way through a heap that is longer than the heap has blocks never ends. *)
Definition ble_free (p : option addr) : M unit := fun H => ble_free_ (length H) p H.

(** src/ef-buf.c:101-115 *)
Definition ble_alloc (ok : bool) (size : nat) : M (option addr) :=
  if ok then a <~ calloc (Element (MkElem None (repeat 0 size)));; pure (Some a) else pure None.

(** src/ef-buf.c:117-122 *)
Fixpoint ble_tail_ (n : nat) (p : option addr) : M (option addr) :=
  match n with
  | O => fail Endless
  | S n => e <~ load_elem p;; match e_next e with Some _ => ble_tail_ n (e_next e) | None => pure p end
  end.

Definition ble_tail (p : option addr) : M (option addr) := fun H => ble_tail_ (S (length H)) p H.

(** src/ef-buf.c:124-128 *)
Definition ble_append (head e : option addr) : M (option addr) :=
  t <~ ble_tail head;; x <~ load_elem t;; store t (Element (MkElem e (e_data x))) ~;; pure e.

(** src/ef-buf.c:130-140 *)
Definition ble_append_buf (ok : bool) (head e : option addr) : M (option addr) :=
  b <~ load_buf e;; le <~ ble_alloc ok (length b);;
  match le with
  | None => pure None
  | Some _ => store le (Element (MkElem None b)) ~;; bfree e ~;; ble_append head le
  end.

(** ** Lists with text *)

(** src/ef.h:48-52 *)
Record blist := MkList { l_size : Z; l_cap : Z; l_head : option addr }.

(** src/ef-buf.c:142-145; ef.h:62-63 [bl_init] and [bl_destroy] are the same. *)
Definition bl_reset (l : blist) : M blist :=
  ble_free (l_head l) ~;; pure (MkList 0 0 None).

Definition bl_init := bl_reset.
Definition bl_destroy := bl_reset.

(** assert(), which is nothing if the library is compiled with NDEBUG. *)
Definition assert (on : bool) (c : bool) : M unit := if on && negb c then fail Assertion else pure tt.

(** src/ef-buf.c:157-161 *)
Fixpoint sum_sizes (n : nat) (p : option addr) : M Z :=
  match p with
  | None => pure 0
  | Some _ => match n with
              | O => fail Endless
              | S n => e <~ load_elem p;; s <~ sum_sizes n (e_next e);; pure (zlen (e_data e) + s)
              end
  end.

(** src/ef-buf.c:147-172 *)
Definition bl_check (on : bool) (l : blist) : M unit :=
  assert on (l_size l <=? l_cap l) ~;;
  s <~ (fun H => sum_sizes (S (length H)) (l_head l) H);;
  assert on (s =? l_cap l) ~;;
  (if on && (l_size l <? l_cap l) then
     t <~ ble_tail (l_head l);; e <~ load_elem t;; assert on (l_cap l - l_size l <? zlen (e_data e))
   else pure tt) ~;;
  assert on false.

(** Overwrites from byte [i] on. *)
Definition put_at (i : nat) (d old : buf) : buf := firstn i old ++ d ++ skipn (i + length d) old.

(** src/ef-buf.c:192-255; the result is the number and the list as it is afterwards. *)
Definition bl_printf_append (on ok : bool) (l : blist) (t : buf) : M (Z * blist) :=
  bl_check on l ~;;
  let free_space := (l_cap l - l_size l) mod 2 ^ 64 in
  p <~ (if free_space =? 0 then pure None else
          t' <~ ble_tail (l_head l);; e <~ load_elem t';;
          let i := zlen (e_data e) - free_space in
          if i <? 0 then fail Outside else
          store t' (Element (MkElem (e_next e) (firstn (Z.to_nat i) (e_data e) ++ vsnprintf (Z.to_nat free_space) t (skipn (Z.to_nat i) (e_data e))))) ~;;
          pure (Some (t', Z.to_nat i)));;
  if 2 ^ 31 <=? zlen t then pure (-1, l) else
  if zlen t <=? free_space then
    let l' := MkList (l_size l + zlen t) (l_cap l) (l_head l) in
    bl_check on l' ~;; pure (zlen t, l')
  else
    let alloc_size := Z.max 4096 (zlen t) in
    n <~ ble_alloc ok (Z.to_nat alloc_size);;
    match n with
    | None => pure (-1, l)
    | Some _ =>
        e <~ load_elem n;;
        let d := vsnprintf (Z.to_nat alloc_size) t (e_data e) in
        (match p with
         | None => store n (Element (MkElem None d))
         | Some (t', i) =>
             x <~ load_elem t';; store t' (Element (MkElem (e_next x) (put_at i (firstn (Z.to_nat free_space) d) (e_data x)))) ~;;
             store n (Element (MkElem None (put_at 0 (firstn (Z.to_nat (zlen t - free_space)) (skipn (Z.to_nat free_space) d)) d)))
         end) ~;;
        let l' := MkList (l_size l + zlen t) (l_cap l + alloc_size) (l_head l) in
        bl_check on l' ~;; pure (zlen t, l')
    end.

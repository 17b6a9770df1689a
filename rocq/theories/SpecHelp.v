(** Reading the help and the diagnostics (C74, C75, C76). *)

From Verif Require Import Exec.
From Verif Require Export SpecReport SpecParse.

(** What stands before and behind the first [c]. *)
Fixpoint split_at (c : ascii) (s : string) : string * string :=
  match s with
  | EmptyString => (""%string, ""%string)
  | String a r => if Ascii.eqb a c then (""%string, r) else let '(x, y) := split_at c r in (String a x, y)
  end.

Definition first_word (line : string) : string := fst (split_at space (trim line)).

(** The rows of the list of headers: behind the title, each starting with the word. *)
Definition listed_headers (text : string) : list string := map first_word (tl (lines text)).

(** A row "name +offset:width text" of the help of a header. *)
Definition field_row (line : string) : string * string * string :=
  let '(a, r) := split_at "+" line in
  let '(o, r) := split_at ":" r in
  let '(w, _) := split_at space (trim r) in
  (first_word a, trim o, w).

(** The rows: behind the name of the header, an empty line and two lines of title; lines
    that are indented further continue a row. *)
Definition listed_fields (text : string) : list (string * string * string) :=
  map field_row (filter (fun l => negb (is_some (after "   " l))) (skipn 4 (lines text))).

(** The rows "  word: ..." of the usage. *)
Definition is_word_char (c : ascii) : bool := in_range 97 122 c.
Definition usage_word (line : string) : list string :=
  match after "  " line with
  | Some r => let '(w, rest) := split_at ":" r in
              if forallb is_word_char (chars w) && negb (String.eqb w "") && is_some (after " " rest) then [w] else []
  | None => []
  end.
Definition listed_commands (text : string) : list string := flat_map usage_word (lines text).

(** The words that start the lines behind lines ending in "Syntax:". *)
Fixpoint ends_in (e s : string) : bool := String.eqb s e || match s with EmptyString => false | String _ r => ends_in e r end.
Fixpoint syntax_lines (ls : list string) : list string :=
  match ls with
  | l :: (m :: _) as r => if ends_in "Syntax:" l then first_word m :: syntax_lines r else syntax_lines r
  | _ => []
  end.

(** The words of a line. *)
Fixpoint words_from (w s : string) : list string :=
  match s with
  | EmptyString => if String.eqb w "" then [] else [w]
  | String c r => if Ascii.eqb c space then (if String.eqb w "" then words_from "" r else w :: words_from "" r) else words_from (w ++ String c "") r
  end.
Definition words_in (s : string) : list string := words_from "" s.

(** The examples: lines "ef ...", and the lines they continue on. *)
Definition backslash : string := String "092"%char EmptyString.
Fixpoint without_last (s : string) : string :=
  match s with EmptyString => EmptyString | String c EmptyString => EmptyString | String c r => String c (without_last r) end.
Fixpoint join_lines (ls : list string) : list string :=
  match ls with
  | l :: r => match join_lines r with
              | m :: r' => if ends_in backslash l then (without_last l ++ " " ++ m)%string :: r' else l :: m :: r'
              | [] => [l]
              end
  | [] => []
  end.
Definition examples (text : string) : list (list string) :=
  flat_map (fun l => match words_in l with w :: ws => if String.eqb w "ef" then [ws] else [] | [] => [] end) (join_lines (lines text)).


(** Values written like an address or a hexadecimal number of a field of [n] bytes. *)
Definition hex_char (c : ascii) : Prop := In c (chars "0123456789abcdefABCDEF").
Definition made_of (ok : ascii -> Prop) (s : string) : Prop := Forall ok (chars s).
Inductive looks_right : Z -> string -> Prop :=
| like_ipv4 : forall s, made_of (fun c => hex_char c \/ c = "."%char) s -> In "."%char (chars s) -> looks_right 4 s
| like_mac : forall s, made_of (fun c => hex_char c \/ c = ":"%char) s -> In ":"%char (chars s) -> looks_right 6 s
| like_ipv6 : forall s, made_of (fun c => hex_char c \/ c = ":"%char \/ c = "."%char) s -> In ":"%char (chars s) -> looks_right 16 s
| like_hex : forall n s, 8 < n -> made_of hex_char s -> looks_right n ("0x" ++ s).

Definition with_0b (s : string) : Prop := exists r, s = ("0b" ++ r)%string.

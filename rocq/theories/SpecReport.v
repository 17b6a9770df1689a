(** Reading the output of a run (C72, C73): lines, and the lines about an interface. *)

From Verif Require Import Exec.
From Verif Require Export SpecExec.

(** ** Text *)

Definition newline : ascii := "010"%char.
Definition space : ascii := " "%char.

(** The lines of a text. *)
Fixpoint lines (s : string) : list string :=
  match s with
  | EmptyString => []
  | String c r =>
      if Ascii.eqb c newline then EmptyString :: lines r
      else match lines r with
           | [] => [String c EmptyString]
           | l :: ls => String c l :: ls
           end
  end.

(** What follows [p] in [s], if [s] starts with [p]. *)
Fixpoint after (p s : string) : option string :=
  match p, s with
  | EmptyString, _ => Some s
  | String a p', String b s' => if Ascii.eqb a b then after p' s' else None
  | String _ _, EmptyString => None
  end.

(** Without the spaces in front. *)
Fixpoint trim (s : string) : string :=
  match s with
  | String c r => if Ascii.eqb c space then trim r else s
  | EmptyString => s
  end.

(** The line is "<kind> <name>: <rest>". *)
Definition entry (kind name line : string) : option string :=
  match after kind line with
  | Some r => after (name ++ ": ") (trim r)
  | None => None
  end.

(** What the lines of this kind say about [name], in order. *)
Definition entries (kind name text : string) : list string :=
  flat_map (fun l => match entry kind name l with Some r => [r] | None => [] end) (lines text).

Definition lines_with (kinds : list string) (text : string) : list string :=
  filter (fun l => existsb (fun k => is_some (after k l)) kinds) (lines text).

Definition one_line (s : string) : Prop := ~ In newline (chars s).
Definition plain_word (s : string) : Prop := ~ In newline (chars s) /\ ~ In space (chars s).

(** Two hexadecimal digits for each byte. *)
Definition hex_text (b : list Z) (s : string) : Prop := hexdump b s /\ String.length s = (2 * length b)%nat.

(** A frame is shown by its name if it has one, else by its bytes. *)
Inductive shown : option string * list Z -> string -> Prop :=
| by_its_name : forall n b, shown (Some n, b) ("name " ++ n)
| by_its_bytes : forall b s, hex_text b s -> shown (None, b) s.

(** ** Events *)

(** The frames accepted, transmitted and missed on [ifn], each with the name used in the
    command. *)
Definition accepted (ifn : string) (ev : list event) : list (option string * list Z) :=
  flat_map (fun x => match x with EvRxOk i b n _ => if String.eqb i ifn then [(n, b)] else [] | _ => [] end) ev.
Definition transmitted (ifn : string) (ev : list event) : list (option string * list Z) :=
  flat_map (fun x => match x with EvTx i b n => if String.eqb i ifn then [(n, b)] else [] | _ => [] end) ev.
Definition missed (ifn : string) (ev : list event) : list (option string * list Z) :=
  flat_map (fun x => match x with EvNoRx i b n _ => if String.eqb i ifn then [(n, b)] else [] | _ => [] end) ev.

(** What is to be seen of the events on stdout and stderr: all but the contents of a
    frame that has a name. *)
Definition on_stdout (ev : list event) : list event :=
  flat_map (fun x => match x with
                     | EvName _ _ _ | EvHex _ _ | EvRxOk _ _ None _ | EvTx _ _ None => [x]
                     | EvRxOk i _ (Some n) _ => [EvRxOk i [] (Some n) None]
                     | EvTx i _ (Some n) => [EvTx i [] (Some n)]
                     | _ => []
                     end) ev.
Definition on_stderr (ev : list event) : list event :=
  flat_map (fun x => match x with
                     | EvNoName _ | EvRxErr _ _ | EvNoRx _ _ None _ => [x]
                     | EvNoRx i _ (Some n) _ => [EvNoRx i [] (Some n) None]
                     | _ => []
                     end) ev.

(** Names of interfaces are words, names of frames do not contain a newline. *)
Definition printable (cs : list cmd) : Prop := forall c, In c cs ->
  (traffic c = true -> plain_word (interface_of c)) /\ (forall n, c_name c = Some n -> one_line n).

(** Names of frames are words as well. *)
Definition printable_words (cs : list cmd) : Prop := forall c, In c cs ->
  (traffic c = true -> plain_word (interface_of c)) /\ (forall n, c_name c = Some n -> plain_word n).

(** What is received consists of bytes. *)
Definition of_bytes (rds : list round) : Prop := forall rd i m, In rd rds -> rd_rx rd i = Some m -> Forall is_byte (rx_data m).

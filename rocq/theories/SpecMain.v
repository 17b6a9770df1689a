(** Vocabulary for the properties of the whole program: time, captures, options. *)

From Verif Require Import Main.
From Verif Require Export SpecExec.

(** ** Time *)

Definition microseconds (tv : timeval) : Z := tv_sec tv * 1000000 + tv_usec tv.
Definition normal (tv : timeval) : Prop := 0 <= tv_usec tv < 1000000.

(** The times read in the receive loop, the first one before it. *)
Definition times_read (begin : timeval) (rds : list tround) : list timeval := begin :: map tr_now rds.

(** ** Captures *)

(** The words for element number [i] of a request, if it is there and not empty. *)
Definition option_words (flag : string) (es : list string) (i : nat) : list string :=
  match nth i es EmptyString with
  | EmptyString => []
  | a => [flag; a]
  end.

Definition capture_file (es : list string) : string :=
  match nth 3 es EmptyString with
  | EmptyString => (nth 0 es EmptyString ++ ".pcap")%string
  | f => f
  end.

Definition capture_words (es : list string) : list string :=
  ["tcpdump"; "-i"; nth 0 es EmptyString]%string ++ option_words "-s" es 1 ++ option_words "-j" es 2 ++
  ["-w"%string; capture_file es] ++ option_words "-c" es 4.

(** [es] are the elements of the request [s]. *)
Definition elements (s : string) (es : list string) : Prop :=
  es <> [] /\ Forall (fun e => ~ contains "," e) es /\ s = joined "," es.

(** The processes [pids] that have not ended in [evs]. *)
Definition alive (evs : list (Z * wstatus)) (pids : list Z) : list Z :=
  filter (fun p => negb (existsb (Z.eqb p) (map fst evs))) pids.

(** ** Options *)

(** A part of the command line: an option with its argument, in the next word or in the
    same one, or an operand. *)
Inductive part :=
| Time (n : string)
| Time1 (n : string)
| Capture (r : string)
| Capture1 (r : string)
| Operand (w : string).

Definition part_words (p : part) : list string :=
  match p with
  | Time n => ["-t"%string; n]
  | Time1 n => [("-t" ++ n)%string]
  | Capture r => ["-c"%string; r]
  | Capture1 r => [("-c" ++ r)%string]
  | Operand w => [w]
  end.

(** Arguments in the same word are not empty; operands do not begin with a dash, except a dash alone. *)
Definition part_ok (p : part) : Prop :=
  match p with
  | Time1 n => n <> EmptyString
  | Capture1 r => r <> EmptyString
  | Operand w => forall c s, w = String "-" (String c s) -> False
  | _ => True
  end.

Definition time_of (p : part) : list Z := match p with Time n | Time1 n => [atoi n] | _ => [] end.
Definition capture_of (p : part) : list string := match p with Capture r | Capture1 r => [r] | _ => [] end.
Definition operand_of (p : part) : list string := match p with Operand w => [w] | _ => [] end.

(** What follows the parts, and what it means given the time-out, the requests and the
    operands of the parts before it. *)
Inductive ending : list string -> (Z -> list string -> list string -> opts) -> Prop :=
| End_none : ending [] (fun t caps ops => ORun t caps ops)
| End_dashes : forall ws, ending ("--"%string :: ws) (fun t caps ops => ORun t caps (ops ++ ws))
| End_version : forall x ws, ending (("-v" ++ x)%string :: ws) (fun _ caps _ => OVersion caps)
| End_help : forall c x ws, c <> "v"%char -> c <> "t"%char -> c <> "c"%char -> String "-" (String c x) <> "--"%string ->
    ending (String "-" (String c x) :: ws) (fun _ caps _ => OUsage caps)
| End_missing : forall w, w = "-t"%string \/ w = "-c"%string -> ending [w] (fun _ caps _ => OUsage caps).

(** ** Files and output *)

Definition written (ev : list event) : list (string * list Z) :=
  flat_map (fun x => match x with EvPcap f b => [(f, b)] | _ => [] end) ev.
Definition printed (ev : list event) : list (list Z) :=
  flat_map (fun x => match x with EvHex b _ => [b] | _ => [] end) ev.
Definition is_pcap (c : cmd) : bool := cmd_type_eqb (c_type c) CT_pcap.
Definition is_hex (c : cmd) : bool := cmd_type_eqb (c_type c) CT_hex.
Definition file_of (c : cmd) : string := match c_arg0 c with Some a => a | None => "" end.

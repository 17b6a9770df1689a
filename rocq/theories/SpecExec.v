(** Vocabulary for running command lines, in terms of the commands (the records of
    Cmd.v) and of the events of a run (Exec.v), which are what a run prints, sends and
    receives. *)

From Verif Require Import Exec.
From Verif Require Export SpecText SpecBits SpecFrame.

(** ** Commands *)

Definition is_rx (c : cmd) : bool := cmd_type_eqb (c_type c) CT_rx.
Definition is_tx (c : cmd) : bool := cmd_type_eqb (c_type c) CT_tx.
Definition is_name (c : cmd) : bool := cmd_type_eqb (c_type c) CT_name.
Definition traffic (c : cmd) : bool := is_rx c || is_tx c.

(** The command is on interface [ifn]. *)
Definition on_if (ifn : string) (c : cmd) : bool :=
  match c_arg0 c with Some a => String.eqb a ifn | None => false end.

(** Alone, the words [seg] are the command [c]. *)
Definition command_words (seg : list string) (c : cmd) : Prop := argc_cmd seg = Ret (COk (length seg) c).

(** "name [n]" is used instead of a frame. *)
Definition refers_to (c : cmd) (n : string) : Prop := is_name c = false /\ c_buf c = None /\ c_name c = Some n.

(** [d] defines the frame [n], and no command in front of it does. *)
Definition defines (d : cmd) (n : string) : Prop := is_name d = true /\ c_name d = Some n /\ c_buf d <> None.
Definition first_definition (cs : list cmd) (n : string) (d : cmd) : Prop :=
  exists l r, cs = l ++ d :: r /\ defines d n /\ forall x, In x l -> ~ defines x n.

(** [c] with the frame of [d]. *)
Definition with_frame_of (d c : cmd) : cmd :=
  MkCmd (c_type c) (c_name c) (c_arg0 c) (c_frame d) (c_buf d) (c_mask d) (c_done c) (c_repeat c).

(** [c'] is the command [c] of [cs] with the named frame filled in. *)
Definition filled_in (cs : list cmd) (c c' : cmd) : Prop :=
  (forall n, refers_to c n -> exists d, first_definition cs n d /\ c' = with_frame_of d c) /\
  ((forall n, ~ refers_to c n) -> c' = c).

(** The interfaces in the order in which they are first used: socket number i is
    that of the i-th of them. *)
Fixpoint distinct (l : list string) : list string :=
  match l with
  | [] => []
  | x :: r => x :: filter (fun y => negb (String.eqb x y)) (distinct r)
  end.

Definition interface_of (c : cmd) : string := match c_arg0 c with Some a => a | None => "" end.
Definition interfaces (cs : list cmd) : list string := distinct (map interface_of (filter traffic cs)).

Definition commands_on (ifn : string) (cs : list cmd) : list cmd := filter (fun c => traffic c && on_if ifn c) cs.
Definition expectations (ifn : string) (cs : list cmd) : list cmd :=
  filter (fun c => is_rx c && is_some (c_buf c)) (commands_on ifn cs).
Definition transmissions (ifn : string) (cs : list cmd) : list cmd := filter is_tx (commands_on ifn cs).

Definition frame_of (c : cmd) : list Z := match c_buf c with Some b => b | None => [] end.

(** [b] matches the frame of [c]: it has the same length and the same bits where the
    mask (if any, continued by ones) is set.  Frames with "padding" match nothing (C20). *)
Definition accepts (c : cmd) (b : list Z) : Prop :=
  (exists f, c_frame c = Some f /\ fr_padding f = 0) /\
  exists x, c_buf c = Some x /\ length b = length x /\
    match c_mask c with
    | None => b = x
    | Some m => forall i, (i < length x)%nat -> Z.land (nth i b 0) (nth i m 255) = Z.land (nth i x 0) (nth i m 255)
    end.

(** An expectation of one particular frame. *)
Definition exact (c : cmd) : Prop := c_mask c = None /\ exists f, c_frame c = Some f /\ fr_padding f = 0.

(** ** Runs *)

(** The command line [ws] is understood, all names are defined, and all sockets can be
    opened; [cs] are its commands with the named frames filled in, [r] is the result
    and [ev] what happens. *)
Definition runs (ws : list string) (e : env) (cs : list cmd) (r : Z) (ev : list event) : Prop :=
  (exists cs0, parse_cmds ws = Ret (Some cs0) /\ Forall2 (filled_in cs0) cs0 cs) /\
  (forall ifn, In ifn (interfaces cs) -> e_open e ifn = true) /\
  argc_cmds ws e = Ret (r, ev).

(** What happened on interface [ifn]: the frames received, with the verdict; the
    frames given to send, with the outcome; the transmissions reported; the frames
    reported as missing. *)
Definition receptions (ifn : string) (ev : list event) : list (bool * list Z) :=
  flat_map (fun x => match x with
                     | EvRxOk i b _ _ => if String.eqb i ifn then [(true, b)] else []
                     | EvRxErr i b => if String.eqb i ifn then [(false, b)] else []
                     | _ => []
                     end) ev.
Definition sends (ifn : string) (ev : list event) : list (list Z * bool) :=
  flat_map (fun x => match x with EvSend i b ok => if String.eqb i ifn then [(b, ok)] else [] | _ => [] end) ev.
Definition reported_tx (ifn : string) (ev : list event) : list (list Z) :=
  flat_map (fun x => match x with EvTx i b _ => if String.eqb i ifn then [b] else [] | _ => [] end) ev.
Definition reported_missing (ifn : string) (ev : list event) : list (list Z) :=
  flat_map (fun x => match x with EvNoRx i b _ _ => if String.eqb i ifn then [b] else [] | _ => [] end) ev.

Definition received (ifn : string) (ev : list event) : list (list Z) := map snd (receptions ifn ev).
Definition unexpected (ifn : string) (ev : list event) : list (list Z) :=
  map snd (filter (fun p => negb (fst p)) (receptions ifn ev)).

(** The lines that report an error. *)
Definition is_error (x : event) : bool :=
  match x with EvNoName _ | EvRxErr _ _ | EvNoRx _ _ _ _ => true | _ => false end.

(** No frame received on [ifn] matches a frame to be transmitted there. *)
Definition no_echo (ifn : string) (cs : list cmd) (ev : list event) : Prop :=
  forall b c, In b (received ifn ev) -> In c (transmissions ifn cs) -> ~ accepts c b.

(** ** The environment *)

(** The message read, as it is compared: with the VLAN tag the kernel took out. *)
Definition put_tag (m : rxmsg) : list Z :=
  match rx_vlan m with
  | Some (tpid, tci) =>
      firstn 12 (rx_data m) ++ [tpid / 256 mod 256; tpid mod 256; tci / 256 mod 256; tci mod 256] ++ skipn 12 (rx_data m)
  | None => rx_data m
  end.

(** A message that leaves room for a tag in the receive buffer, of at least 12 bytes if
    there was a tag. *)
Definition ordinary (m : rxmsg) : Prop :=
  0 < Z.of_nat (length (rx_data m)) < 32764 /\ (rx_vlan m <> None -> (12 <= length (rx_data m))%nat).

(** The messages that can be read from socket [i] in the rounds [rds]. *)
Definition delivered (i : nat) (rds : list round) : list rxmsg :=
  flat_map (fun rd => match rd_rx rd i with Some m => [m] | None => [] end) rds.

(** All sends succeed. *)
Definition all_sent (rds : list round) : Prop := forall rd k, In rd rds -> rd_send rd k = true.

(** The number of rounds in which socket [i] is writable. *)
Definition writable (i : nat) (rds : list round) : nat := length (filter (fun rd => rd_wr rd i) rds).

(** ** Command lines *)

(** The words end after the interface of a tx command, or after its "rep". *)
Definition cut_short (ws : list string) : Prop :=
  exists A i, ws = A ++ ["tx"; i]%string \/ exists rep, (rep = "rep" \/ rep = "repeat")%string /\ ws = A ++ ["tx"; i; rep]%string.

(** ** References *)

(** The name used instead of a frame, if any. *)
Definition reference (c : cmd) : option string :=
  if is_name c then None else match c_buf c with None => c_name c | Some _ => None end.

Definition definedb (cs : list cmd) (n : string) : bool :=
  existsb (fun d => is_name d && is_some (c_buf d) &&
                    match c_name d with Some m => String.eqb m n | None => false end) cs.

(** The names that are used and not defined, once for each use. *)
Definition undefined_refs (cs : list cmd) : list string :=
  flat_map (fun c => match reference c with
                     | Some n => if definedb cs n then [] else [n]
                     | None => []
                     end) cs.

Definition is_inventory (x : event) : Prop := match x with EvName _ _ _ => True | _ => False end.

(** The interface of a line, if it is about one. *)
Definition event_if (x : event) : option string :=
  match x with
  | EvRxOk i _ _ _ | EvRxErr i _ | EvSend i _ _ | EvTx i _ _ | EvNoRx i _ _ _ => Some i
  | _ => None
  end.

(** The rounds in which the sockets are served: up to the first one in which select
    reports nothing, fails, or returns after the time-out. *)
Fixpoint served (rds : list round) : list round :=
  match rds with
  | rd :: rest => if rd_late rd || (rd_select rd <=? 0) then [] else rd :: served rest
  | [] => []
  end.

(** ** Accounting for received frames *)

(** [a] gives for every received frame the expectation (by number) it satisfies, if any.
    Exactly the frames that satisfy none are reported as errors; a frame matches the
    expectation it satisfies; no expectation is satisfied twice; a frame that satisfies
    none matches only expectations that were satisfied before. *)
Definition accounts (exps : list cmd) (rcs : list (bool * list Z)) (a : list (option nat)) : Prop :=
  length a = length rcs /\
  (forall k ok b, nth_error rcs k = Some (ok, b) -> exists o, nth_error a k = Some o /\ ok = is_some o) /\
  (forall k ok b j, nth_error rcs k = Some (ok, b) -> nth_error a k = Some (Some j) ->
     exists c, nth_error exps j = Some c /\ accepts c b) /\
  (forall k k' j, nth_error a k = Some (Some j) -> nth_error a k' = Some (Some j) -> k = k') /\
  (forall k b j c, nth_error rcs k = Some (false, b) -> nth_error exps j = Some c -> accepts c b ->
     exists k', (k' < k)%nat /\ nth_error a k' = Some (Some j)).

Definition taken (a : list (option nat)) (j : nat) : bool :=
  existsb (fun o => match o with Some i => Nat.eqb i j | None => false end) a.

(** The expectations that were not satisfied, in order. *)
Definition unsatisfied (exps : list cmd) (a : list (option nat)) : list cmd :=
  map snd (filter (fun p => negb (taken a (fst p))) (combine (seq 0 (length exps)) exps)).

(** No frame matches one of two expectations if it matches the other, or they match
    the same frames. *)
Definition separated (exps : list cmd) : Prop :=
  forall c d b b', In c exps -> In d exps -> accepts c b -> accepts d b -> accepts c b' -> accepts d b'.

(** How often [b] occurs in [l]. *)
Definition occurrences (b : list Z) (l : list (list Z)) : nat := count_occ (list_eq_dec Z.eq_dec) l b.

Definition sum (l : list nat) : nat := fold_right plus 0%nat l.

(** ** Transmissions *)

(** How often the frame of a tx command is to be sent.  The 32 bit counter is
    decremented before it is compared with 0. *)
Definition times (c : cmd) : Z := if c_repeat c =? 0 then 2 ^ 32 else c_repeat c.

Definition is_transmit (x : event) : bool := match x with EvSend _ _ _ | EvTx _ _ _ => true | _ => false end.

(** Rounds that differ at most in what is received. *)
Definition same_but_received (a b : round) : Prop :=
  rd_select a = rd_select b /\ rd_late a = rd_late b /\ rd_wr a = rd_wr b /\ rd_send a = rd_send b.

(** A tag was taken out of at least 12 bytes. *)
Definition tag_fits (m : rxmsg) : Prop := rx_vlan m <> None -> (12 <= length (rx_data m))%nat.

(** The messages of a round leave room for their tags. *)
Definition messages_fit (rd : round) : Prop := forall i m, rd_rx rd i = Some m -> tag_fits m.

(** No frame has a "padding" header. *)
Definition no_padding (cs : list cmd) : Prop := forall c f, In c cs -> c_frame c = Some f -> fr_padding f = 0.

(** The transmit queue of an interface, whatever the outcome of the sends: only the
    first command is tried; when a try succeeds it may be reported and the next one
    takes its place. *)
Inductive queue : list cmd -> list (list Z * bool) -> list (list Z) -> Prop :=
| queue_stop : forall q, queue q [] []
| queue_try : forall c q ok s r, queue (c :: q) s r -> queue (c :: q) ((frame_of c, ok) :: s) r
| queue_done : forall c q s r, queue q s r -> queue (c :: q) ((frame_of c, true) :: s) (frame_of c :: r).

(** ** The text of commands *)

(** The words [F] describe a frame with the bytes [b] and, if a field is ignored, the
    mask [m]; [f] are its headers with the automatic fields filled in. *)
Definition a_frame (F : list string) (f : frame) (b : list Z) (m : option (list Z)) : Prop :=
  F <> [] /\ exists f0, argc_frame F = Ret (Some (length F, f0)) /\ frame_to_buf f0 = Ret (f, b) /\
  if fr_has_mask f then exists x, frame_mask_to_buf f = Ret x /\ m = Some x else m = None.

(** The words after a command: a frame, or "name" and the name of one. *)
Inductive contents : list string -> option string -> option frame -> option (list Z) -> option (list Z) -> Prop :=
| by_frame : forall F f b m, a_frame F f b m -> contents F None (Some f) (Some b) m
| by_name : forall n, contents ["name"; n]%string (Some n) None None None.

(** The commands and their words.  A tx command sends its frame once unless "rep" or
    "repeat" is given; an rx command without a frame expects nothing. *)
Inductive command_text : list string -> cmd -> Prop :=
| text_name : forall n F f b m, a_frame F f b m ->
    command_text ("name" :: n :: F) (MkCmd CT_name (Some n) None (Some f) (Some b) m false 0)
| text_hex : forall F n f b m, contents F n f b m ->
    command_text ("hex" :: F) (MkCmd CT_hex n None f b m false 0)
| text_pcap : forall file F n f b m, contents F n f b m ->
    command_text ("pcap" :: file :: F) (MkCmd CT_pcap n (Some file) f b m false 0)
| text_rx : forall ifn F n f b m, contents F n f b m ->
    command_text ("rx" :: ifn :: F) (MkCmd CT_rx n (Some ifn) f b m false 0)
| text_rx_nothing : forall ifn, command_text ["rx"; ifn]%string (MkCmd CT_rx None (Some ifn) None None None false 0)
| text_tx : forall ifn F n f b m, contents F n f b m ->
    command_text ("tx" :: ifn :: F) (MkCmd CT_tx n (Some ifn) f b m false 1)
| text_tx_rep : forall ifn rep k F n f b m, In rep ["rep"; "repeat"]%string -> contents F n f b m ->
    command_text ("tx" :: ifn :: rep :: k :: F) (MkCmd CT_tx n (Some ifn) f b m false (atoi_u32 k)).

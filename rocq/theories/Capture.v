(** Model of src/ef-capture.c. *)

From Verif Require Export Base.

(** strchr (s, ','): the text before the first comma and the text after it. *)
Fixpoint cut_comma (s : string) : string * option string :=
  match s with
  | EmptyString => (EmptyString, None)
  | String c r =>
      if code c =? 44 then (EmptyString, Some r)
      else let '(a, b) := cut_comma r in (String c a, b)
  end.

(** src/ef-capture.c:59-68: at most [n] elements. *)
Fixpoint split_elems (n : nat) (s : option string) : list string :=
  match n, s with
  | S k, Some t => let '(a, r) := cut_comma t in a :: split_elems k r
  | _, _ => []
  end.

(** "s_elements[i] && *s_elements[i]" *)
Definition elem (es : list string) (i : nat) : option string :=
  match nth_error es i with
  | Some EmptyString => None
  | o => o
  end.

Definition opt_arg (flag : string) (o : option string) : string :=
  match o with
  | Some a => (" " ++ flag ++ " " ++ a)%string
  | None => ""
  end.

(** src/ef-capture.c:51-136: the command line (bprintf concatenates) and the
    file that is removed first (line 103). *)
Definition capture_add (s : string) : string * string :=
  let es := split_elems 5 (Some s) in
  let ifn := nth 0 es EmptyString in
  let file := match elem es 3 with
              | Some f => f
              | None => (ifn ++ ".pcap")%string
              end in
  (("tcpdump -i " ++ ifn ++ opt_arg "-s" (elem es 1) ++ opt_arg "-j" (elem es 2)
     ++ " -w " ++ file ++ opt_arg "-c" (elem es 4))%string, file).

(** ** The captures as child processes *)

(** src/ef.h:305-312 *)
Record capture := MkCap { cap_cmd : string; cap_pid : Z; cap_running : bool; cap_success : bool }.

(** Wait status: exited with a code, or killed by a signal. *)
Inductive wstatus := WExit (code : Z) | WSignal (sig : Z).

(** src/ef-capture.c:181-198: [pid] is what fork returned (0 only in the child). *)
Definition capture_start (pid : Z) (c : capture) : capture :=
  if 0 <? pid then MkCap (cap_cmd c) pid true (cap_success c) else c.

(** src/ef-capture.c:200-215; [pids] are the results of the forks. *)
Fixpoint capture_all_start (pids : list Z) (cs : list capture) : list capture :=
  match cs, pids with
  | c :: r, p :: ps => capture_start p c :: capture_all_start ps r
  | _, _ => cs
  end.

(** src/ef-capture.c:147-172: one child that waitpid reports; the first capture
    with that pid is updated ([res] is never set, so line 162 is always true). *)
Fixpoint child_exit (pid : Z) (st : wstatus) (cs : list capture) : list capture :=
  match cs with
  | [] => []
  | c :: r =>
      if cap_pid c =? pid then
        match st with
        | WExit _ => MkCap (cap_cmd c) (cap_pid c) false true :: r
        | WSignal _ => MkCap (cap_cmd c) (cap_pid c) false (cap_success c) :: r
        end
      else c :: child_exit pid st r
  end.

Definition reap (evs : list (Z * wstatus)) (cs : list capture) : list capture :=
  fold_left (fun cs e => child_exit (fst e) (snd e) cs) evs cs.

Definition SIGINT : Z := 2.
Definition SIGTERM : Z := 15.

Definition signal_running (sig : Z) (cs : list capture) : list (Z * Z) :=
  map (fun c => (cap_pid c, sig)) (filter cap_running cs).

(** src/ef-capture.c:238-287: the signals sent, given the children that end
    before the first signals, while waiting after SIGINT, and after SIGTERM. *)
Definition capture_all_stop (before after_int after_term : list (Z * wstatus))
  (cs : list capture) : list capture * list (Z * Z) :=
  let c1 := reap before cs in
  let s1 := signal_running SIGINT c1 in
  let c2 := reap after_int c1 in
  let s2 := signal_running SIGTERM c2 in
  (reap after_term c2, s1 ++ s2).

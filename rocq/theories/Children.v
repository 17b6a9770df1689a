(** Model of the captures as processes of their own, which end whenever they like, and of
    the program they interrupt: src/ef-capture.c:144-285, src/ef-args.c:300-319 and the
    receive loop, src/ef-exec.c:480-497, one step at a time.  Capture.v has the same code
    as if starting a capture and stopping it were one step each. *)

From Verif Require Export Main.

(** What the program sleeps for: tcpdump to be ready (src/ef-capture.c:211), the rest of
    the time-out, seconds and microseconds (src/ef-args.c:315-316), the last frames to
    reach the file (src/ef-capture.c:252). *)
Inductive nap := Ready | RestSeconds | RestMicroseconds | Flush.

(** What SIGCHLD does: nothing, [signal_child] or [signal_empty]. *)
Inductive disposition := Default | Reaping | Nothing.

(** Steps of the program; captures are known by their position in the list. *)
Inductive instr :=
| Install (d : disposition)      (* src/ef-capture.c:183, 255 *)
| Fork (i : nat)                 (* src/ef-capture.c:185 *)
| SetPid (i : nat) (pid : Z)     (* src/ef-capture.c:192 *)
| SetRunning (i : nat)           (* src/ef-capture.c:193 *)
| Nap (n : nap)
| Select (k n : nat)             (* src/ef-exec.c:480-497: [k] rounds are over, [n] may follow *)
| Count                          (* src/ef-capture.c:243-253 *)
| Stop (i : nat) (sig : Z)       (* src/ef-capture.c:259-261, 268-271 *)
| Poll (n : nat)                 (* src/ef-capture.c:221-235: [n] turns are left *)
| Note (b : bool).               (* no code: before the first and the second signals *)

(** What can be seen, in order. *)
Inductive happening :=
| Forked (i : nat) (pid : Z)
| NoFork (i : nat)
| Recorded (i : nat)
| Slept (n : nap)
| Woken (n : nap)
| Round (k : nat)
| Interrupted (k : nat)
| Stopping
| Killing
| Sent (pid sig : Z)
| Polled
| Ended (i : nat) (pid : Z) (st : wstatus)
| Reaped (i : nat) (pid : Z).

(** The program and its children: those that live, and those that have ended but have not
    been waited for; pids of both are in use. *)
Record machine := MkM {
  m_code : list instr;
  m_caps : list capture;
  m_live : list (nat * Z);
  m_dead : list (nat * Z * wstatus);
  m_pending : bool;
  m_sig : disposition }.

Definition in_use (m : machine) : list Z :=
  map snd (m_live m) ++ map (fun d => snd (fst d)) (m_dead m).

(** What happens next: the program goes on ([pid]: the result of fork, if it forks); live
    child number [k] ends with [st], and waitpid will report it after [at] others; SIGCHLD
    is delivered, while the program waits in a call or between two steps. *)
Inductive choice :=
| Go (pid : Z)
| End (k : nat) (st : wstatus) (pos : nat)
| Deliver (inside : bool).

Fixpoint update {A} (i : nat) (f : A -> A) (l : list A) : list A :=
  match l, i with
  | [], _ => []
  | x :: r, O => f x :: r
  | x :: r, S k => x :: update k f r
  end.

Fixpoint remove_at {A} (k : nat) (l : list A) : list A :=
  match l, k with
  | [], _ => []
  | _ :: r, O => r
  | x :: r, S j => x :: remove_at j r
  end.

(** src/ef-capture.c:147-172: all children that have ended are waited for. *)
Definition signal_child (m : machine) : list capture * list happening :=
  (reap (map (fun d => (snd (fst d), snd d)) (m_dead m)) (m_caps m),
   map (fun d => Reaped (fst (fst d)) (snd (fst d))) (m_dead m)).

Definition with_code (m : machine) (c : list instr) : machine :=
  MkM c (m_caps m) (m_live m) (m_dead m) (m_pending m) (m_sig m).

Definition with_caps (m : machine) (c : list instr) (cs : list capture) : machine :=
  MkM c cs (m_live m) (m_dead m) (m_pending m) (m_sig m).

(** One step of the program, [rest] is what it does afterwards. *)
Definition go (pid : Z) (m : machine) (x : instr) (rest : list instr) : option (machine * list happening) :=
  match x with
  | Install d => Some (MkM rest (m_caps m) (m_live m) (m_dead m) (m_pending m) d, [])
  | Fork i =>
      if 0 <? pid then
        if existsb (Z.eqb pid) (in_use m) then None
        else Some (MkM (SetPid i pid :: SetRunning i :: rest) (m_caps m) (m_live m ++ [(i, pid)])
                       (m_dead m) (m_pending m) (m_sig m), [Forked i pid])
      else Some (with_code m rest, [NoFork i])
  | SetPid i p =>
      Some (with_caps m rest (update i (fun c => MkCap (cap_cmd c) p (cap_running c) (cap_success c)) (m_caps m)), [])
  | SetRunning i =>
      Some (with_caps m rest (update i (fun c => MkCap (cap_cmd c) (cap_pid c) true (cap_success c)) (m_caps m)), [Recorded i])
  | Nap n => Some (with_code m rest, [Slept n])
  | Select k n =>
      match n with
      | O => Some (with_code m rest, [])
      | S j => Some (with_code m (Select (S k) j :: rest), [Round k])
      end
  | Count =>
      Some (with_code m (if existsb cap_running (m_caps m) then Nap Flush :: rest else rest), [])
  | Stop i sig =>
      Some (with_code m rest,
            match nth_error (m_caps m) i with
            | Some c => if cap_running c then [Sent (cap_pid c) sig] else []
            | None => []
            end)
  | Poll n =>
      match n with
      | O => Some (with_code m rest, [])
      | S j =>
          let '(cs, ev) := signal_child m in
          Some (MkM (if existsb cap_running cs then Poll j :: rest else rest) cs (m_live m) [] (m_pending m) (m_sig m),
                Polled :: ev)
      end
  | Note b => Some (with_code m rest, [if b then Stopping else Killing])
  end.

(** sleep, usleep and select return when a signal arrives (signal sets SA_RESTART, which
    does not apply to them); the receive loop ends when select fails
    (src/ef-exec.c:491-493). *)
Definition interrupt (code : list instr) : option (list instr * list happening) :=
  match code with
  | Nap n :: rest => Some (rest, [Woken n])
  | Select k _ :: rest => Some (rest, [Interrupted k])
  | _ => None
  end.

Definition step (ch : choice) (m : machine) : option (machine * list happening) :=
  match ch with
  | Go pid =>
      match m_code m with
      | [] => None
      | x :: rest => go pid m x rest
      end
  | End k st pos =>
      match nth_error (m_live m) k with
      | Some (i, p) =>
          Some (MkM (m_code m) (m_caps m) (remove_at k (m_live m))
                    (firstn pos (m_dead m) ++ (i, p, st) :: skipn pos (m_dead m))
                    (match m_sig m with Default => m_pending m | _ => true end) (m_sig m),
                [Ended i p st])
      | None => None
      end
  | Deliver inside =>
      if m_pending m then
        match (if inside then interrupt (m_code m) else Some (m_code m, [])) with
        | None => None
        | Some (code, ev1) =>
            match m_sig m with
            | Reaping =>
                let '(cs, ev2) := signal_child m in
                Some (MkM code cs (m_live m) [] false Reaping, ev2 ++ ev1)
            | d => Some (MkM code (m_caps m) (m_live m) (m_dead m) false d, ev1)
            end
        end
      else None
  end.

Fixpoint run (sch : list choice) (m : machine) : option (machine * list happening) :=
  match sch with
  | [] => Some (m, [])
  | ch :: r =>
      match step ch m with
      | None => None
      | Some (m1, ev1) =>
          match run r m1 with
          | None => None
          | Some (m2, ev2) => Some (m2, ev1 ++ ev2)
          end
      end
  end.

(** src/ef-capture.c:200-215; src/ef-args.c:307, with at most [n] rounds; src/ef-args.c:313-317
    (there may be nothing left to sleep: the model sleeps nonetheless);
    src/ef-capture.c:238-274. *)
Definition turns : nat := Z.to_nat 10000.

Definition code_for (caps n : nat) : list instr :=
  flat_map (fun i => [Install Reaping; Fork i]) (seq 0 caps)
  ++ (if (0 <? caps)%nat then [Nap Ready] else [])
  ++ [Select 0 n]
  ++ (if (0 <? caps)%nat then [Nap RestSeconds; Nap RestMicroseconds] else [])
  ++ [Count; Install Nothing; Note true]
  ++ map (fun i => Stop i SIGINT) (seq 0 caps)
  ++ [Poll turns; Note false]
  ++ map (fun i => Stop i SIGTERM) (seq 0 caps)
  ++ [Poll turns].

(** When the command line has been read: no captures have been started. *)
Definition begin (cmds : list string) (n : nat) : machine :=
  MkM (code_for (length cmds) n) (map (fun c => MkCap c 0 false false) cmds) [] [] false Default.

(** The rounds of the receive loop that took place. *)
Definition rounds_done (tr : list happening) : nat :=
  length (filter (fun h => match h with Round _ => true | _ => false end) tr).

(** The program with its children: [session] (Main.v), with [sch] instead of the pids and
    the children that end.  [None]: [sch] does not lead to the end, or nothing is started
    (src/ef-args.c:330-361). *)
Definition concurrent (args : list string) (s : surroundings) (sch : list choice) : out (option (Z * list event * list happening)) :=
  match getopt args with
  | ORun t caps ws =>
      o <- parse_cmds ws;;
      match o with
      | None => Ret None
      | Some cs =>
          match run sch (begin (map (fun c => fst (capture_add c)) caps) (length (s_rounds s))) with
          | Some (MkM [] _ _ _ _ _, tr) =>
              '(r, ev) <- exec_cmds cs (MkEnv (s_open s) (firstn (rounds_done tr) (e_rounds (env_of t s))));;
              Ret (Some (exit_status r, ev, tr))
          | _ => Ret None
          end
      end
  | _ => Ret None
  end.

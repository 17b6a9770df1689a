(** Model of the sockets: how they are opened, emptied, read and closed
    (src/ef-exec.c:22-81, 463-506), one system call at a time, while frames arrive at the
    interfaces whenever they like.  In Exec.v opening a socket is one step that succeeds
    or fails, and what is read from the sockets is given. *)

From Verif Require Export Exec.

(** A frame as it arrives: the interface, by its index, and the frame. *)
Definition arrival : Type := Z * rxmsg.

(** A packet socket (AF_PACKET, SOCK_RAW, ETH_P_ALL), not code of the project: [k_no] says
    for which resource it was made and is not used by the kernel; [k_if] is the interface
    it is bound to, 0: all of them; [k_aux]: PACKET_AUXDATA; the queue holds what has
    arrived and has not been read.  It does not overflow. *)
Record sock := MkSock { k_fd : Z; k_no : nat; k_if : Z; k_aux : bool; k_queue : list arrival }.

Inductive instr :=
| Socket (i : nat)                     (* src/ef-exec.c:30; [i]: the resource, 465-466 *)
| Lookup (i : nat) (fd : Z)            (* 36 *)
| Lookup2 (i : nat) (fd x : Z)         (* 39; [x] is ifidx *)
| Bind (i : nat) (fd x y : Z)          (* 42; [y] is sll_ifindex *)
| Promisc (i : nat) (fd x : Z)         (* 51 *)
| Auxdata (i : nat) (fd : Z)           (* 59 *)
| Drain (i : nat) (fd : Z) (n : nat)   (* 73-78; [n] turns are left *)
| Shut (i : nat) (fd : Z)              (* 45, 54: close; -1 is returned, 468-469 *)
| Loop                                 (* 480-494 *)
| Recv (i : nat)                       (* 198 *)
| Serve (sel : Z) (wr send : nat -> bool)   (* 200-314 *)
| Close (i : nat).                     (* 500-505 *)

(** What can be seen, in order. *)
Inductive happening :=
| Arrived (ix : Z) (m : rxmsg)
| Opened (i : nat) (fd : Z)
| NotOpened (i : nat)
| Index (i : nat) (again : bool) (ix : Z)   (* if_nametoindex *)
| Bound (i : nat) (ix : Z)
| Refused (i : nat)
| Untagged (i : nat)                   (* PACKET_AUXDATA could not be set *)
| Dropped (i : nat) (a : arrival)
| Failed (i : nat)                     (* recvmsg failed although there is something to read *)
| Usable (i : nat) (fd : Z)            (* raw_socket has returned *)
| Turn
| Taken (i : nat) (a : arrival)
| Closed (i : nat) (fd : Z).

Record machine := MkM {
  m_code : list instr;
  m_fds : list Z;                      (* the [fd]s of the resources that have one *)
  m_rs : list resource;
  m_socks : list sock;
  m_got : list (nat * rxmsg);          (* what was read in this turn of the loop *)
  m_rounds : list round;               (* the turns that are over *)
  m_ev : list event;
  m_failed : bool }.                   (* raw_socket returned -1 *)

(** What happens next: a frame arrives; the program goes on, [r] is the result of the
    system call; select returns [sel], and the clock and the sets of sockets are as
    given. *)
Inductive choice :=
| Arrive (ix : Z) (m : rxmsg)
| Go (r : Z)
| Wake (sel : Z) (late : bool) (ready wr send : nat -> bool).

Definition with_code (m : machine) (c : list instr) : machine :=
  MkM c (m_fds m) (m_rs m) (m_socks m) (m_got m) (m_rounds m) (m_ev m) (m_failed m).
Definition with_socks (m : machine) (c : list instr) (ss : list sock) : machine :=
  MkM c (m_fds m) (m_rs m) ss (m_got m) (m_rounds m) (m_ev m) (m_failed m).

(** The kernel: the socket behind a file descriptor, and changes of it. *)
Definition sock_of (fd : Z) (m : machine) : option sock := find (fun k => k_fd k =? fd) (m_socks m).
Definition on_sock (fd : Z) (f : sock -> sock) (m : machine) : list sock :=
  map (fun k => if k_fd k =? fd then f k else k) (m_socks m).
Definition set_if (y : Z) (k : sock) : sock := MkSock (k_fd k) (k_no k) y (k_aux k) (k_queue k).
Definition set_aux (k : sock) : sock := MkSock (k_fd k) (k_no k) (k_if k) true (k_queue k).
Definition set_queue (q : list arrival) (k : sock) : sock := MkSock (k_fd k) (k_no k) (k_if k) (k_aux k) q.
Definition enqueue (a : arrival) (k : sock) : sock :=
  if (k_if k =? 0) || (k_if k =? fst a) then set_queue (k_queue k ++ [a]) k else k.
Definition hears (fd : Z) (m : machine) : bool :=
  match sock_of fd m with Some k => match k_queue k with [] => false | _ => true end | None => false end.
Definition without (fd : Z) (m : machine) : list sock := filter (fun k => negb (k_fd k =? fd)) (m_socks m).

(** The tag the kernel has taken out of a frame is only reported with PACKET_AUXDATA. *)
Definition seen (k : sock) (m : rxmsg) : rxmsg := if k_aux k then m else MkRx (rx_data m) None.

Definition got (l : list (nat * rxmsg)) (i : nat) : option rxmsg :=
  match find (fun p => Nat.eqb (fst p) i) l with Some p => Some (snd p) | None => None end.

(** src/ef-exec.c:73 *)
Definition drain_turns : nat := Z.to_nat 10000.

(** One step of the program, [rest] is what it does afterwards.  A failing raw_socket ends
    exec_cmds (src/ef-exec.c:468-469). *)
Definition go (r : Z) (m : machine) (x : instr) (rest : list instr) : option (machine * list happening) :=
  match x with
  | Socket i =>
      if r <? 0 then Some (MkM [] (m_fds m) (m_rs m) (m_socks m) (m_got m) (m_rounds m) (m_ev m) true, [NotOpened i])
      else if existsb (fun k => k_fd k =? r) (m_socks m) then None
      else Some (with_socks m (Lookup i r :: rest) (m_socks m ++ [MkSock r i 0 false []]), [Opened i r])
  | Lookup i fd => if r <? 0 then None else Some (with_code m (Lookup2 i fd r :: rest), [Index i false r])
  | Lookup2 i fd x => if r <? 0 then None else Some (with_code m (Bind i fd x r :: rest), [Index i true r])
  | Bind i fd x y =>
      if r <? 0 then Some (with_code m [Shut i fd], [Refused i])
      else Some (with_socks m (Promisc i fd x :: rest) (on_sock fd (set_if y) m), [Bound i y])
  | Promisc i fd x =>
      (* the kernel knows no interface 0 *)
      if (r <? 0) || (x =? 0) then Some (with_code m [Shut i fd], [Refused i])
      else Some (with_code m (Auxdata i fd :: rest), [])
  | Auxdata i fd =>
      (* the result is not looked at: [res] is that of the call before *)
      if r <? 0 then Some (with_code m (Drain i fd drain_turns :: rest), [Untagged i])
      else Some (with_socks m (Drain i fd drain_turns :: rest) (on_sock fd set_aux m), [])
  | Drain i fd n =>
      let ready := MkM rest (m_fds m ++ [fd]) (m_rs m) (m_socks m) (m_got m) (m_rounds m) (m_ev m) (m_failed m) in
      match n with
      | O => Some (ready, [Usable i fd])
      | S j =>
          match sock_of fd m with
          | None => None
          | Some k =>
              match k_queue k with
              | [] => Some (ready, [Usable i fd])
              | a :: q => if r <? 0 then Some (ready, [Failed i; Usable i fd])
                          else Some (with_socks m (Drain i fd j :: rest) (on_sock fd (set_queue q) m), [Dropped i a])
              end
          end
      end
  | Shut i fd => Some (MkM [] (m_fds m) (m_rs m) (without fd m) (m_got m) (m_rounds m) (m_ev m) true, [Closed i fd])
  | Loop =>
      (* src/ef-exec.c:481-484: nothing to wait for *)
      if existsb (fun r => has_rx r || has_tx r) (m_rs m) then None else Some (with_code m rest, [])
  | Recv i =>
      match nth_error (m_fds m) i with
      | None => None
      | Some fd =>
          match sock_of fd m with
          | None => None
          | Some k =>
              if r <? 0 then Some (with_code m rest, [Failed i])
              else
                match k_queue k with
                | [] => None   (* it would wait *)
                | a :: q => Some (MkM rest (m_fds m) (m_rs m) (on_sock fd (set_queue q) m) (m_got m ++ [(i, seen k (snd a))])
                                      (m_rounds m) (m_ev m) (m_failed m), [Taken i a])
                end
          end
      end
  | Serve sel wr send =>
      (* matching (200-272) comes after all reads of the turn, not after its own; it does not
         use the sockets.  Undefined behaviour (C57): no step *)
      let rd := MkRound sel false (got (m_got m)) wr send in
      match process rd (m_rs m) with
      | Ret (rs, ev) => Some (MkM rest (m_fds m) rs (m_socks m) [] (m_rounds m ++ [rd]) (m_ev m ++ ev) (m_failed m), [])
      | Crash _ => None
      end
  | Close i =>
      match nth_error (m_fds m) i with
      | Some fd => Some (with_socks m rest (without fd m), [Closed i fd])
      | None => None
      end
  end.

(** src/ef-exec.c:486-499: select reports as readable only sockets in the set that have
    something to read. *)
Definition wake (sel : Z) (late : bool) (ready wr send : nat -> bool) (m : machine) (rest : list instr) : option (machine * list happening) :=
  let all := seq 0 (length (m_rs m)) in
  if existsb (fun r => has_rx r || has_tx r) (m_rs m) then
    if late || (sel <=? 0) then
      Some (MkM rest (m_fds m) (m_rs m) (m_socks m) (m_got m) (m_rounds m ++ [MkRound sel late (fun _ => None) wr send]) (m_ev m) (m_failed m), [Turn])
    else if forallb (fun i => negb (ready i) || (match nth_error (m_rs m) i with Some r => has_rx r | None => false end
                                                && match nth_error (m_fds m) i with Some fd => hears fd m | None => false end)) all then
      Some (with_code m (map Recv (filter ready all) ++ Serve sel wr send :: Loop :: rest), [Turn])
    else None
  else None.

Definition step (ch : choice) (m : machine) : option (machine * list happening) :=
  match ch with
  | Arrive ix x =>
      if 0 <? ix then
        Some (with_socks m (m_code m) (map (enqueue (ix, x)) (m_socks m)), [Arrived ix x])
      else None
  | Go r =>
      match m_code m with
      | [] => None
      | x :: rest => go r m x rest
      end
  | Wake sel late ready wr send =>
      match m_code m with
      | Loop :: rest => wake sel late ready wr send m rest
      | _ => None
      end
  end.

Fixpoint run (sch : list choice) (m : machine) : option (machine * list happening) :=
  match sch with
  | [] => Some (m, [])
  | ch :: r =>
      match step ch m with
      | None => None
      | Some (m1, ev1) =>
          match run r m1 with
          | None => None
          | Some (m2, ev2) => Some (m2, ev1 ++ ev2)
          end
      end
  end.

(** src/ef-exec.c:463-506 for the resources [rs] *)
Definition begin (rs : list resource) : machine :=
  let all := seq 0 (length rs) in
  MkM (map Socket all ++ [Loop] ++ map Close all) [] rs [] [] [] [] false.

(** src/ef-exec.c:378-546, as [exec_cmds] (Exec.v), but with a schedule instead of the
    world.  [None]: [sch] does not lead to the end, or the sockets are not reached.  The
    last results are what the sockets met and the turns of the loop. *)
Definition exec_with (cs : list cmd) (sch : list choice) : out (option (Z * list event * list happening * list round)) :=
  let ev0 := name_events cs in
  let '(cs1, err, ev1) := pair_cmds cs in
  if negb (err =? 0) then Ret None
  else
    ev2 <- pcap_events cs1;;
    ev3 <- hex_events cs1;;
    rs <- add_all cs1 [];;
    match run sch (begin rs) with
    | Some (MkM [] _ rs1 _ _ rds ev4 failed, tr) =>
        if failed then Ret (Some (-1, ev0 ++ ev1 ++ ev2 ++ ev3, tr, rds))
        else
          let '(err2, ev5) := check_all rs1 in
          Ret (Some (err2, ev0 ++ ev1 ++ ev2 ++ ev3 ++ ev4 ++ ev5, tr, rds))
    | _ => Ret None
    end.

(** Model of the program with its captures and its sockets at once: Children.v, whose
    [Select] stands for the whole of exec_cmds (src/ef-args.c:307), and Sockets.v, which is
    what exec_cmds does (src/ef-exec.c:463-506).  Frames arrive, captures end and signals are
    delivered whenever they like. *)

From Verif Require Export Main.
From Verif Require Children Sockets.

(** What happens next: a step of Children.v or of Sockets.v; or SIGCHLD is delivered while
    the program waits in select, which then returns -1 (src/ef-exec.c:488; signal sets
    SA_RESTART, which does not apply to select).  recvmsg and send are restarted. *)
Inductive act :=
| Child (c : Children.choice)
| Net (c : Sockets.choice)
| Break.

Inductive sight :=
| OfChild (h : Children.happening)
| OfNet (h : Sockets.happening)
| Broken.

Record state := MkS { t_child : Children.machine; t_net : Sockets.machine }.

(** The program is in exec_cmds, src/ef-args.c:307. *)
Definition testing (s : state) : bool :=
  match Children.m_code (t_child s) with Children.Select _ _ :: _ => true | _ => false end.

(** The sockets are closed, or one of them could not be set up. *)
Definition over (s : state) : bool := match Sockets.m_code (t_net s) with [] => true | _ => false end.

Definition child_step (c : Children.choice) (s : state) : option (state * list sight) :=
  match Children.step c (t_child s) with
  | Some (m, ev) => Some (MkS m (t_net s), map OfChild ev)
  | None => None
  end.

Definition net_step (c : Sockets.choice) (s : state) : option (state * list sight) :=
  match Sockets.step c (t_net s) with
  | Some (m, ev) => Some (MkS (t_child s) m, map OfNet ev)
  | None => None
  end.

(** select fails. *)
Definition eintr : Sockets.choice := Sockets.Wake (-1) false (fun _ => false) (fun _ => false) (fun _ => true).

Definition step (a : act) (s : state) : option (state * list sight) :=
  match a with
  | Child (Children.Go p) => if testing s && negb (over s) then None else child_step (Children.Go p) s
  | Child (Children.Deliver true) => if testing s then None else child_step (Children.Deliver true) s
  | Child c => child_step c s
  | Net (Sockets.Arrive ix m) => net_step (Sockets.Arrive ix m) s
  | Net c => if testing s then net_step c s else None
  | Break =>
      if testing s then
        match child_step (Children.Deliver false) s with
        | Some (s1, ev1) =>
            match net_step eintr s1 with
            | Some (s2, ev2) => Some (s2, ev1 ++ Broken :: ev2)
            | None => None
            end
        | None => None
        end
      else None
  end.

Fixpoint run (sch : list act) (s : state) : option (state * list sight) :=
  match sch with
  | [] => Some (s, [])
  | a :: r =>
      match step a s with
      | None => None
      | Some (s1, ev1) =>
          match run r s1 with
          | None => None
          | Some (s2, ev2) => Some (s2, ev1 ++ ev2)
          end
      end
  end.

(** When the command line has been read. *)
Definition begin (cmds : list string) (rs : list resource) : state := MkS (Children.begin cmds 0) (Sockets.begin rs).

(** src/ef-args.c:272-361: as [session] (Main.v), with [sch] instead of the surroundings;
    the clock is in the choices [Sockets.Wake].  [None]: [sch] does not lead to the end, or
    the sockets are not reached. *)
Definition program (args : list string) (sch : list act) : out (option (Z * list event * list sight)) :=
  match getopt args with
  | ORun _ caps ws =>
      o <- parse_cmds ws;;
      match o with
      | None => Ret None
      | Some cs =>
          let ev0 := name_events cs in
          let '(cs1, err, ev1) := pair_cmds cs in
          if negb (err =? 0) then Ret None
          else
            ev2 <- pcap_events cs1;;
            ev3 <- hex_events cs1;;
            rs <- add_all cs1 [];;
            match run sch (begin (map (fun c => fst (capture_add c)) caps) rs) with
            | Some (MkS c n, tr) =>
                match Children.m_code c, Sockets.m_code n with
                | [], [] =>
                    if Sockets.m_failed n then Ret (Some (exit_status (-1), ev0 ++ ev1 ++ ev2 ++ ev3, tr))
                    else
                      let '(err2, ev5) := check_all (Sockets.m_rs n) in
                      Ret (Some (exit_status err2, ev0 ++ ev1 ++ ev2 ++ ev3 ++ Sockets.m_ev n ++ ev5, tr))
                | _, _ => Ret None
                end
            | None => Ret None
            end
      end
  | _ => Ret None
  end.

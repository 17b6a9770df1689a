(** Model of the clock of the receive loop (src/ef-exec.c:470-497), and of the whole
    program: options, captures, execution (src/ef-args.c:272-361). *)

From Verif Require Export Exec Capture.

(** ** struct timeval.  time_t does not overflow (assumed). *)
Record timeval := MkTv { tv_sec : Z; tv_usec : Z }.

(** src/ef-exec.c:475-476, src/ef-args.c:302-303; [m] is TIME_OUT_MS. *)
Definition timeout_tv (m : Z) : timeval :=
  let s := Z.quot m 1000 in MkTv s ((m - s * 1000) * 1000).

(** timeradd, timersub and timercmp of <sys/time.h> *)
Definition timeradd (a b : timeval) : timeval :=
  let s := tv_sec a + tv_sec b in
  let u := tv_usec a + tv_usec b in
  if 1000000 <=? u then MkTv (s + 1) (u - 1000000) else MkTv s u.

Definition timersub (a b : timeval) : timeval :=
  let s := tv_sec a - tv_sec b in
  let u := tv_usec a - tv_usec b in
  if u <? 0 then MkTv (s - 1) (u + 1000000) else MkTv s u.

Definition timer_gt (a b : timeval) : bool :=
  if tv_sec a =? tv_sec b then tv_usec b <? tv_usec a else tv_sec b <? tv_sec a.

Definition timer_lt (a b : timeval) : bool :=
  if tv_sec a =? tv_sec b then tv_usec a <? tv_usec b else tv_sec a <? tv_sec b.

(** ** The receive loop with its clock *)

(** As [round] (Exec.v), but with the time of day instead of [rd_late]. *)
Record tround := MkTRound {
  tr_select : Z;
  tr_now : timeval;
  tr_rx : nat -> option rxmsg;
  tr_wr : nat -> bool;
  tr_send : nat -> bool }.

Definition timed (tv_end : timeval) (rd : tround) : round :=
  MkRound (tr_select rd) (timer_gt (tr_now rd) tv_end) (tr_rx rd) (tr_wr rd) (tr_send rd).

(** src/ef-exec.c:480-497; the last result are the time-outs passed to select. *)
Fixpoint timed_loop (tv_end left : timeval) (rds : list tround) (rs : list resource)
  : out (list resource * list event * list timeval) :=
  if existsb (fun r => has_rx r || has_tx r) rs then
    match rds with
    | [] => Ret (rs, [], [left])
    | rd :: rest =>
        if timer_gt (tr_now rd) tv_end then Ret (rs, [], [left])
        else
          let left1 := timersub tv_end (tr_now rd) in
          if tr_select rd <=? 0 then Ret (rs, [], [left])
          else
            '(rs1, ev1) <- process (timed tv_end rd) rs;;
            '(rs2, ev2, ls) <- timed_loop tv_end left1 rest rs1;;
            Ret (rs2, ev1 ++ ev2, left :: ls)
    end
  else Ret (rs, [], []).

(** ** The program *)

(** What the program meets: sockets that open, the results of the forks, the times of
    day read at src/ef-args.c:304, src/ef-exec.c:478 and src/ef-args.c:312, the rounds of
    the receive loop, and the children that end before the captures are stopped, after
    SIGINT and after SIGTERM. *)
Record surroundings := MkSur {
  s_open : string -> bool;
  s_pids : list Z;
  s_start : timeval;
  s_begin : timeval;
  s_rounds : list tround;
  s_done : timeval;
  s_before : list (Z * wstatus);
  s_int : list (Z * wstatus);
  s_term : list (Z * wstatus) }.

(** What it does: unlink (src/ef-capture.c:103), fork and exec of a capture
    (src/ef-capture.c:184-195), the events of the commands, sleep and usleep
    (src/ef-args.c:315-316), kill (src/ef-capture.c:260, 270). *)
Inductive action :=
| Remove (file : string)
| Start (cmd : string) (pid : Z)
| Happens (e : event)
| Sleep (tv : timeval)
| Kill (pid sig : Z).

Definition new_capture (s : string) : capture := MkCap (fst (capture_add s)) 0 false false.

Definition starts (cs : list capture) : list action :=
  flat_map (fun c => if cap_running c then [Start (cap_cmd c) (cap_pid c)] else []) cs.

(** The end of the time-out, as in src/ef-exec.c:475-479 and src/ef-args.c:302-305. *)
Definition end_of (m : Z) (begin : timeval) : timeval := timeradd begin (timeout_tv m).

Definition env_of (m : Z) (s : surroundings) : env :=
  MkEnv (s_open s) (map (timed (end_of m (s_begin s))) (s_rounds s)).

(** src/ef-args.c:330-361, 272-326.  execl is assumed to work: a child whose execl fails goes
    on with the rest of the program (Forest.v). *)
Definition session (args : list string) (s : surroundings) : out (Z * list action) :=
  let removes caps := map (fun c => Remove (snd (capture_add c))) caps in
  match getopt args with
  | OVersion caps => Ret (exit_status 0, removes caps)
  | OUsage caps => Ret (exit_status (-1), removes caps)
  | ORun m caps ws =>
      o <- parse_cmds ws;;
      match o with
      | None => Ret (exit_status (-1), removes caps)
      | Some cs =>
          let cps := capture_all_start (s_pids s) (map new_capture caps) in
          '(r, ev) <- exec_cmds cs (env_of m s);;
          let tv_end := end_of m (s_start s) in
          let sl := if (0 <? zlen caps) && timer_lt (s_done s) tv_end
                    then [Sleep (timersub tv_end (s_done s))] else [] in
          let '(_, sigs) := capture_all_stop (s_before s) (s_int s) (s_term s) cps in
          Ret (exit_status r,
               removes caps ++ starts cps ++ map Happens ev ++ sl
                 ++ map (fun k => Kill (fst k) (snd k)) sigs)
      end
  end.

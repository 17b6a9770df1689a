(** Model of the execution of commands: src/ef-buf.c (comparison) and
    src/ef-exec.c.  Sockets, select, the clock and send results are inputs. *)

From Verif Require Export Cmd.

(** ** Comparison of a received frame with an expected one *)

(** memcmp (a, b, n) == 0; reading [n] bytes must stay inside both objects. *)
Definition memcmp_eq (a b : buf) (n : Z) : out bool :=
  if (zlen a <? n) || (zlen b <? n) then Crash OOB_read
  else Ret (forallb (fun p => fst p =? snd p)
              (combine (firstn (Z.to_nat n) a) (firstn (Z.to_nat n) b))).

(** The loop src/ef-buf.c:74-88 from index [i] on; [a] are the bytes of the
    received frame from [i] on. *)
Fixpoint mask_loop (a : buf) (i : Z) (exp mask : buf) : out bool :=
  match a with
  | [] => Ret true
  | x :: r =>
      e <- bget exp i;;
      m <- (if zlen mask <=? i then Ret 255 else bget mask i);;
      if Z.land x m =? Z.land e m then mask_loop r (i + 1) exp mask else Ret false
  end.

(** src/ef-buf.c:55-91; both frames are non-NULL at the only call
    (src/ef-exec.c:244). *)
Definition bequal_mask (rx exp : buf) (mask : option buf) (padding : Z) : out bool :=
  if padding <? 0 then Ret false
  else if negb (zlen rx =? zlen exp + padding) then Ret false
  else
    match mask with
    | None => memcmp_eq rx exp (zlen rx)
    | Some m => mask_loop rx 0 exp m
    end.

(** ** The environment *)

(** A message delivered by recvmsg with its auxiliary data: the tag (TPID, TCI)
    when TP_STATUS_VLAN_VALID is set. *)
Record rxmsg := MkRx { rx_data : buf; rx_vlan : option (Z * Z) }.

(** What happens in one iteration of the loop src/ef-exec.c:476-496: select's
    return value, whether the clock is past the end afterwards, which message is
    read from socket i if it is reported readable, whether it is reported
    writable, and whether the k-th send of the iteration sends the whole frame. *)
Record round := MkRound {
  rd_select : Z;
  rd_late : bool;
  rd_rx : nat -> option rxmsg;
  rd_wr : nat -> bool;
  rd_send : nat -> bool }.

Record env := MkEnv {
  e_open : string -> bool;       (* raw_socket (name) succeeds *)
  e_rounds : list round }.       (* after these, select times out *)

(** ** Observable events *)
Inductive event :=
| EvName (name : string) (b : buf) (mask : option buf)   (* src/ef-exec.c:391-402 *)
| EvNoName (name : string)                               (* 417 *)
| EvPcap (file : string) (b : buf)                       (* 431 *)
| EvHex (b : buf) (mask : option buf)                    (* 440-450 *)
| EvRxOk (ifn : string) (b : buf) (name : option string) (mask : option buf)  (* 252-264 *)
| EvRxErr (ifn : string) (b : buf)                       (* 267 *)
| EvSend (ifn : string) (b : buf) (ok : bool)            (* 291, one call of send *)
| EvTx (ifn : string) (b : buf) (name : option string)   (* 300-306 *)
| EvNoRx (ifn : string) (b : buf) (name : option string) (mask : option buf).  (* 524-539 *)

(** Strings passed to printf or strcmp; NULL is printed as "(null)" by "%s" but
    crashes strcmp. *)
Definition str_of (o : option string) : string :=
  match o with Some s => s | None => "(null)" end.

(** ** Resources *)

(** src/ef.h:285-291; [fd], [has_rx], [has_tx] are functions of the rest. *)
Record resource := MkRes { r_cmds : list cmd; r_err : Z }.

Definition r_name (r : resource) : string :=
  match r_cmds r with
  | c :: _ => str_of (c_arg0 c)
  | [] => ""
  end.

(** src/ef-exec.c:98-112: append to the first resource with the same interface;
    [None] if there is none.  (rx and tx commands always have [arg0]; the heads
    of the resource lists are never NULL.) *)
Fixpoint add_to (c : cmd) (rs : list resource) : option (list resource) :=
  match rs with
  | [] => None
  | r :: rest =>
      if String.eqb (str_of (c_arg0 c)) (r_name r) then
        Some (MkRes (r_cmds r ++ [c]) (r_err r) :: rest)
      else
        match add_to c rest with
        | Some rest' => Some (r :: rest')
        | None => None
        end
  end.

(** src/ef-exec.c:83-120 and the loop 457-461 *)
Definition add_cmd_to_resource (c : cmd) (rs : list resource) : out (list resource) :=
  match c_type c with
  | CT_rx | CT_tx =>
      match add_to c rs with
      | Some rs' => Ret rs'
      | None => if zlen rs <? 100 then Ret (rs ++ [MkRes [c] 0]) else Crash Assert_fail
      end
  | _ => Ret rs
  end.

Fixpoint add_all (cs : list cmd) (rs : list resource) : out (list resource) :=
  match cs with
  | [] => Ret rs
  | c :: r => rs1 <- add_cmd_to_resource c rs;; add_all r rs1
  end.

(** src/ef-exec.c:134-149 *)
Definition has_rx (r : resource) : bool :=
  existsb (fun c => cmd_type_eqb (c_type c) CT_rx) (r_cmds r).
Definition has_tx (r : resource) : bool :=
  existsb (fun c => cmd_type_eqb (c_type c) CT_tx && negb (c_done c)) (r_cmds r).

Definition set_done (c : cmd) : cmd :=
  MkCmd (c_type c) (c_name c) (c_arg0 c) (c_frame c) (c_buf c) (c_mask c) true (c_repeat c).
Definition set_repeat (n : Z) (c : cmd) : cmd :=
  MkCmd (c_type c) (c_name c) (c_arg0 c) (c_frame c) (c_buf c) (c_mask c) (c_done c) n.

(** ** Receiving *)

Definition RX_BUF : Z := 32768.

Definition hi8 (x : Z) : Z := x / 256 mod 256.
Definition lo8 (x : Z) : Z := x mod 256.

(** src/ef-exec.c:196-233: the frame used for matching, [None] if recvmsg
    returned nothing.  A longer message is cut to the buffer.  Of the rest of
    the buffer only the four bytes that may be overwritten are represented. *)
Definition rx_frame (m : rxmsg) : out (option buf) :=
  let d := firstn (Z.to_nat RX_BUF) (rx_data m) in
  let res := zlen d in
  if res <=? 0 then Ret None
  else
    match rx_vlan m with
    | Some (tpid, tci) =>
        if res + 4 <? RX_BUF then
          b <- memmove_in (d ++ [0; 0; 0; 0]) 16 12 (res - 12);;
          b <- bput b 12 (hi8 tpid);; b <- bput b 13 (lo8 tpid);;
          b <- bput b 14 (hi8 tci);; b <- bput b 15 (lo8 tci);;
          Ret (Some b)
        else Ret (Some d)
    | None => Ret (Some d)
    end.

(** src/ef-exec.c:236-250: the first command, of any type, that has a frame, is
    not done and matches is marked done; the first result is that command. *)
Fixpoint match_cmds (b : buf) (cs : list cmd) : out (option cmd * list cmd) :=
  match cs with
  | [] => Ret (None, [])
  | c :: r =>
      let skip := '(m, r') <- match_cmds b r;; Ret (m, c :: r') in
      match c_buf c with
      | None => skip
      | Some e =>
          if c_done c then skip
          else
            match c_frame c with
            | None => Crash Null_deref
            | Some f =>
                eq <- bequal_mask b e (c_mask c) (fr_padding f);;
                if eq then Ret (Some c, set_done c :: r) else skip
            end
      end
  end.

(** src/ef-exec.c:179-275 for one resource that is reported readable. *)
Definition rx_one (m : rxmsg) (r : resource) : out (resource * list event) :=
  o <- rx_frame m;;
  match o with
  | None => Ret (r, [])
  | Some b =>
      '(hit, cs) <- match_cmds b (r_cmds r);;
      match hit with
      | Some c => Ret (MkRes cs (r_err r), [EvRxOk (str_of (c_arg0 c)) b (c_name c) (c_mask c)])
      | None => Ret (MkRes cs (r_err r + 1), [EvRxErr (r_name r) b])
      end
  end.

(** The loop over the resources; [i] is the index of the first. *)
Fixpoint rx_all (rd : round) (i : nat) (rs : list resource)
  : out (list resource * list event) :=
  match rs with
  | [] => Ret ([], [])
  | r :: rest =>
      '(r1, ev1) <- match (if has_rx r then rd_rx rd i else None) with
                    | Some m => rx_one m r
                    | None => Ret (r, [])
                    end;;
      '(rest1, ev2) <- rx_all rd (S i) rest;;
      Ret (r1 :: rest1, ev1 ++ ev2)
  end.

(** ** Transmitting *)

(** src/ef-exec.c:284-310: the first tx command that is not done: the changed
    list, whether its repeat counter is still positive, the event(s).  [ok] is
    the outcome of the send. *)
Fixpoint tx_one (ok : bool) (cs : list cmd) : out (option (list cmd * bool * list event)) :=
  match cs with
  | [] => Ret None
  | c :: r =>
      if cmd_type_eqb (c_type c) CT_tx && negb (c_done c) then
        match c_buf c with
        | None => Crash Null_deref
        | Some b =>
            let c1 := set_repeat (u32 (c_repeat c - 1)) c in
            let ifn := str_of (c_arg0 c) in
            let more := 0 <? c_repeat c1 in
            let fin := ok && (c_repeat c1 =? 0) in
            Ret (Some ((if fin then set_done c1 else c1) :: r, more,
                       EvSend ifn b ok :: (if fin then [EvTx ifn b (c_name c)] else [])))
        end
      else
        o <- tx_one ok r;;
        Ret (match o with
             | Some (r', more, ev) => Some (c :: r', more, ev)
             | None => None
             end)
  end.

(** One pass src/ef-exec.c:279-311 over the resources; [wr] is FD_ISSET (fd,
    wfds), [k] the number of sends so far; the boolean is "some counter is still
    positive" (tx_done = 0). *)
Fixpoint tx_pass (wr : nat -> bool) (send : nat -> bool) (i k : nat) (rs : list resource)
  : out (list resource * nat * bool * list event) :=
  match rs with
  | [] => Ret ([], k, false, [])
  | r :: rest =>
      if wr i then
        o <- tx_one (send k) (r_cmds r);;
        match o with
        | Some (cs, more, ev) =>
            '(rest1, k1, more1, ev1) <- tx_pass wr send (S i) (S k) rest;;
            Ret (MkRes cs (r_err r) :: rest1, k1, more || more1, ev ++ ev1)
        | None =>
            '(rest1, k1, more1, ev1) <- tx_pass wr send (S i) k rest;;
            Ret (r :: rest1, k1, more1, ev1)
        end
      else
        '(rest1, k1, more1, ev1) <- tx_pass wr send (S i) k rest;;
        Ret (r :: rest1, k1, more1, ev1)
  end.

(** State of the loop src/ef-exec.c:277-314. *)
Record tx_state := MkTx { tx_rs : list resource; tx_k : nat; tx_ev : list event }.

Definition tx_body (wr send : nat -> bool) (s : tx_state) : out (tx_state * bool) :=
  '(rs, k, more, ev) <- tx_pass wr send 0 (tx_k s) (tx_rs s);;
  Ret (MkTx rs k (tx_ev s ++ ev), more).

(** At most 2^n iterations of [body], stopping when it says "no more". *)
Fixpoint loop_pow {S : Type} (n : nat) (body : S -> out (S * bool)) (s : S) : out (S * bool) :=
  match n with
  | O => body s
  | Datatypes.S n =>
      '(s1, more) <- loop_pow n body s;;
      if more then loop_pow n body s1 else Ret (s1, false)
  end.

(** src/ef-exec.c:277-314.  A loop that has not ended after 2^64 iterations is
    reported as [Crash Fuel] (with sends failing in a suitable pattern the loop
    of the C code does not end). *)
Definition tx_loop (wr send : nat -> bool) (rs : list resource)
  : out (list resource * list event) :=
  '(s, more) <- loop_pow 64 (tx_body wr send) (MkTx rs 0 []);;
  if more then Crash Fuel else Ret (tx_rs s, tx_ev s).

(** src/ef-exec.c:170-317.  [wfds] was computed before receiving. *)
Definition process (rd : round) (rs : list resource) : out (list resource * list event) :=
  let w := map has_tx rs in
  let wr i := nth i w false && rd_wr rd i in
  '(rs1, ev1) <- rx_all rd 0 rs;;
  '(rs2, ev2) <- tx_loop wr (rd_send rd) rs1;;
  Ret (rs2, ev1 ++ ev2).

(** The loop src/ef-exec.c:476-496 *)
Fixpoint main_loop (rds : list round) (rs : list resource) : out (list resource * list event) :=
  if existsb (fun r => has_rx r || has_tx r) rs then
    match rds with
    | [] => Ret (rs, [])
    | rd :: rest =>
        if rd_late rd then Ret (rs, [])
        else if rd_select rd <=? 0 then Ret (rs, [])
        else
          '(rs1, ev1) <- process rd rs;;
          '(rs2, ev2) <- main_loop rest rs1;;
          Ret (rs2, ev1 ++ ev2)
    end
  else Ret (rs, []).

(** ** exec_cmds *)

(** src/ef-exec.c:319-339 *)
Fixpoint find_named (n : string) (cs : list cmd) : option cmd :=
  match cs with
  | [] => None
  | c :: r =>
      match c_type c, c_buf c, c_name c with
      | CT_name, Some _, Some m => if String.eqb m n then Some c else find_named n r
      | _, _, _ => find_named n r
      end
  end.

(** src/ef-exec.c:406-420 for one command. *)
Definition pair_one (all : list cmd) (c : cmd) : cmd * Z * list event :=
  match c_type c, c_name c, c_buf c with
  | CT_name, _, _ => (c, 0, [])
  | _, Some n, None =>
      match find_named n all with
      | Some d =>
          (MkCmd (c_type c) (c_name c) (c_arg0 c) (c_frame d) (c_buf d) (c_mask d)
                 (c_done c) (c_repeat c), 0, [])
      | None => (c, 1, [EvNoName n])
      end
  | _, _, _ => (c, 0, [])
  end.

Definition pair_cmds (cs : list cmd) : list cmd * Z * list event :=
  fold_right (fun c '(r, e, ev) =>
                let '(c1, e1, ev1) := pair_one cs c in (c1 :: r, e1 + e, ev1 ++ ev))
             ([], 0, []) cs.

(** src/ef-exec.c:386-403 *)
Definition name_events (cs : list cmd) : list event :=
  flat_map (fun c => match c_type c, c_buf c, c_name c with
                     | CT_name, Some b, Some n => [EvName n b (c_mask c)]
                     | _, _, _ => []
                     end) cs.

(** src/ef-exec.c:425-432, 342-375 (libpcap is an event) *)
Fixpoint pcap_events (cs : list cmd) : out (list event) :=
  match cs with
  | [] => Ret []
  | c :: r =>
      ev <- match c_type c with
            | CT_pcap => match c_buf c with
                         | Some b => Ret [EvPcap (str_of (c_arg0 c)) b]
                         | None => Crash Null_deref
                         end
            | _ => Ret []
            end;;
      ev2 <- pcap_events r;; Ret (ev ++ ev2)
  end.

(** src/ef-exec.c:435-451: the mask is printed with the length of the frame. *)
Fixpoint hex_events (cs : list cmd) : out (list event) :=
  match cs with
  | [] => Ret []
  | c :: r =>
      ev <- match c_type c, c_buf c with
            | CT_hex, Some b =>
                match c_mask c with
                | Some m => if zlen m <? zlen b then Crash OOB_read
                            else Ret [EvHex b (Some (firstn (length b) m))]
                | None => Ret [EvHex b None]
                end
            | _, _ => Ret []
            end;;
      ev2 <- hex_events r;; Ret (ev ++ ev2)
  end.

(** src/ef-exec.c:508-541 *)
Definition missing (c : cmd) : bool :=
  cmd_type_eqb (c_type c) CT_rx && is_some (c_buf c) && negb (c_done c).

Definition check_res (r : resource) : Z * list event :=
  let ms := filter missing (r_cmds r) in
  (r_err r + zlen ms,
   map (fun c => EvNoRx (str_of (c_arg0 c)) (match c_buf c with Some b => b | None => [] end)
                   (c_name c) (c_mask c)) ms).

Definition check_all (rs : list resource) : Z * list event :=
  fold_right (fun r '(e, ev) => let '(e1, ev1) := check_res r in (e1 + e, ev1 ++ ev)) (0, []) rs.

(** src/ef-exec.c:378-546: return value and events. *)
Definition exec_cmds (cs : list cmd) (e : env) : out (Z * list event) :=
  let ev0 := name_events cs in
  let '(cs1, err, ev1) := pair_cmds cs in
  if negb (err =? 0) then Ret (err, ev0 ++ ev1)
  else
    ev2 <- pcap_events cs1;;
    ev3 <- hex_events cs1;;
    rs <- add_all cs1 [];;
    if forallb (fun r => e_open e (r_name r)) rs then
      '(rs1, ev4) <- main_loop (e_rounds e) rs;;
      let '(err2, ev5) := check_all rs1 in
      Ret (err2, ev0 ++ ev1 ++ ev2 ++ ev3 ++ ev4 ++ ev5)
    else Ret (-1, ev0 ++ ev1 ++ ev2 ++ ev3).

(** src/ef-args.c:272-326 without capturing: [ws] are the operands. *)
Definition argc_cmds (ws : list string) (e : env) : out (Z * list event) :=
  o <- parse_cmds ws;;
  match o with
  | None => Ret (-1, [])
  | Some cs => exec_cmds cs e
  end.

(** src/ef-args.c:330-361 and src/main.c: the exit status of the process is the
    low byte of the result. *)
Definition exit_status (r : Z) : Z := r mod 256.

Definition ef_main (args : list string) (e : env) : out (Z * list event) :=
  match getopt args with
  | OVersion _ => Ret (exit_status 0, [])
  | OUsage _ => Ret (exit_status (-1), [])
  | ORun _ _ ws => '(r, ev) <- argc_cmds ws e;; Ret (exit_status r, ev)
  end.

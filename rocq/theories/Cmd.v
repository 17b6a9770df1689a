(** Model of command line parsing: src/ef-args.c. HAS_LIBPCAP is assumed. *)

From Verif Require Export Frame.

(** src/ef.h:262-271; CMD_TYPE_INVALID never leaves argc_cmd. *)
Inductive cmd_type := CT_name | CT_pcap | CT_hex | CT_rx | CT_tx.

Definition cmd_type_eqb (a b : cmd_type) : bool :=
  match a, b with
  | CT_name, CT_name | CT_pcap, CT_pcap | CT_hex, CT_hex | CT_rx, CT_rx | CT_tx, CT_tx => true
  | _, _ => false
  end.

(** src/ef.h:273-283; the linked list member [next] is replaced by the lists
    of src/ef-exec.c's resources (Exec.v). *)
Record cmd := MkCmd {
  c_type : cmd_type;
  c_name : option string;
  c_arg0 : option string;
  c_frame : option frame;
  c_buf : option buf;
  c_mask : option buf;
  c_done : bool;
  c_repeat : Z }.

(** Return value of argc_cmd: negative, 0, or the number of words consumed. *)
Inductive cres :=
| CErr
| CNone
| COk (n : nat) (c : cmd).

(** src/ef-args.c:177-195 *)
Definition cmd_word (w : string) : option cmd_type :=
  if String.eqb w "name" then Some CT_name
  else if String.eqb w "pcap" then Some CT_pcap
  else if String.eqb w "hex" then Some CT_hex
  else if String.eqb w "rx" then Some CT_rx
  else if String.eqb w "tx" then Some CT_tx
  else None.

(** src/ef-args.c:240-269: parse the frame, [i] words are consumed so far. *)
Definition finish_cmd (ct : cmd_type) (name arg0 : option string) (rep : Z)
  (i : nat) (ws : list string) : out cres :=
  o <- argc_frame ws;;
  match o with
  | None => Ret CErr
  | Some (O, _) =>
      match ct with
      | CT_rx => Ret (COk i (MkCmd ct name arg0 None None None false rep))
      | _ => Ret CNone
      end
  | Some (n, f) =>
      '(f1, b) <- frame_to_buf f;;
      m <- (if fr_has_mask f1 then m <- frame_mask_to_buf f1;; Ret (Some m) else Ret None);;
      Ret (COk (i + n) (MkCmd ct name arg0 (Some f1) (Some b) m false rep))
  end.

(** src/ef-args.c:232-238: "name <alias>" instead of a frame. *)
Definition cmd_frame (ct : cmd_type) (name arg0 : option string) (rep : Z)
  (i : nat) (ws : list string) : out cres :=
  match ws with
  | w :: a :: _ =>
      if String.eqb w "name" && negb (cmd_type_eqb ct CT_name) then
        Ret (COk (i + 2) (MkCmd ct (Some a) arg0 None None None false rep))
      else finish_cmd ct name arg0 rep i ws
  | _ => finish_cmd ct name arg0 rep i ws
  end.

(** src/ef-args.c:169-270.  argv[argc] is NULL: line 225 passes it to strcmp
    when nothing follows the interface of a tx command, and line 226 passes it to
    atoi when nothing follows "rep". *)
Definition argc_cmd (ws : list string) : out cres :=
  match ws with
  | [] => Ret CNone
  | w :: r =>
      match cmd_word w with
      | None => if String.eqb w "help" then Ret CErr else Ret CNone
      | Some ct =>
          match r with
          | [] => Ret CNone
          | a :: r2 =>
              match ct with
              | CT_name => cmd_frame ct (Some a) None 0 2 r2
              | CT_hex => cmd_frame ct None None 0 1 r
              | CT_pcap | CT_rx => cmd_frame ct None (Some a) 0 2 r2
              | CT_tx =>
                  match r2 with
                  | [] => Crash Null_deref
                  | x :: r3 =>
                      if String.eqb x "rep" || String.eqb x "repeat" then
                        match r3 with
                        | [] => Crash Null_deref
                        | n :: r4 => cmd_frame ct None (Some a) (atoi_u32 n) 4 r4
                        end
                      else cmd_frame ct None (Some a) 1 2 r2
                  end
              end
          end
      end
  end.

Definition CMD_MAX : nat := 100.

(** src/ef-args.c:278-297: the commands; [None] is the return of -1 at line 291
    or 297 (words left over). *)
Fixpoint argc_cmds_loop (slots : nat) (ws : list string) : out (option (list cmd)) :=
  match ws with
  | [] => Ret (Some [])
  | _ =>
      match slots with
      | O => Ret None
      | S k =>
          r <- argc_cmd ws;;
          match r with
          | CErr | CNone => Ret None
          | COk n c =>
              o <- argc_cmds_loop k (skipn n ws);;
              Ret (match o with Some cs => Some (c :: cs) | None => None end)
          end
      end
  end.

Definition parse_cmds (ws : list string) : out (option (list cmd)) :=
  argc_cmds_loop CMD_MAX ws.

(** ** Options: main_ (src/ef-args.c:330-361)

    glibc getopt with the option string "vht:c:", permuting: options may stand
    anywhere, "--" ends them, the operands keep their order.  [caps] are the
    arguments of -c, for which capture_add is called at once (Main.v). *)
Inductive opts :=
| OVersion (caps : list string)  (* -v: return 0 *)
| OUsage (caps : list string)    (* -h or an invalid option: return -1 *)
| ORun (timeout : Z) (caps : list string) (operands : list string).

(** The options of one word after the dash; [args] are the following words.
    -v and -h end the program, -t and -c take the rest of the word (or the next
    word) as their argument, so at most one option of a word is looked at. *)
Inductive cluster_res :=
| CLstop (o : opts)
| CLnext (timeout : Z) (caps : list string) (used_arg : bool).

Definition cluster (s : string) (args : list string) (t : Z) (caps : list string) : cluster_res :=
  match s with
  | EmptyString => CLnext t caps false
  | String c r =>
      let arg := match r with
                 | EmptyString => match args with
                                  | a :: _ => Some (a, true)
                                  | [] => None
                                  end
                 | _ => Some (r, false)
                 end in
      if code c =? 118 then CLstop (OVersion caps)
      else if code c =? 104 then CLstop (OUsage caps)
      else if code c =? 116 then
        match arg with
        | Some (a, u) => CLnext (atoi a) caps u
        | None => CLstop (OUsage caps)
        end
      else if code c =? 99 then
        match arg with
        | Some (a, u) => CLnext t (caps ++ [a]) u
        | None => CLstop (OUsage caps)
        end
      else CLstop (OUsage caps)
  end.

Fixpoint getopt_loop (fuel : nat) (ws : list string) (t : Z) (caps ops : list string) : opts :=
  match fuel with
  | O => OUsage caps
  | S fuel =>
      match ws with
      | [] => ORun t caps ops
      | w :: r =>
          match w with
          | String c1 (String c2 r2 as body) =>
              if code c1 =? 45 then
                if String.eqb w "--" then ORun t caps (ops ++ r)
                else
                  match cluster body r t caps with
                  | CLstop o => o
                  | CLnext t' caps' u =>
                      getopt_loop fuel (if u then tl r else r) t' caps' ops
                  end
              else getopt_loop fuel r t caps (ops ++ [w])
          | _ => getopt_loop fuel r t caps (ops ++ [w])
          end
      end
  end.

(** src/ef-args.c:328: TIME_OUT_MS = 100 *)
Definition getopt (ws : list string) : opts := getopt_loop (S (length ws)) ws 100 [] [].

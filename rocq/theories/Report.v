(** Model of what the program prints on stdout (po, src/ef-buf.c:177-184) and on
    stderr (pe, src/ef-buf.c:186-193): the report of a run (src/ef-exec.c), the help
    (src/ef.c, src/ef-args.c), hexdump (src/ef.c). *)

From Verif Require Export Exec HelpTexts.

(** ** Conversions of printf *)

Definition nl : string := String (chr 10) "".

Fixpoint spaces (n : nat) : string :=
  match n with
  | O => ""
  | S k => String (chr 32) (spaces k)
  end.

(** "%<n>s", "%-<n>s" and "%<n>d" *)
Definition pad_left (n : nat) (s : string) : string := (spaces (n - String.length s) ++ s)%string.
Definition pad_right (n : nat) (s : string) : string := (s ++ spaces (n - String.length s))%string.
Definition print_wd (n : nat) (x : Z) : string := pad_left n (print_d x).

(** "%08tx" of a difference [x >= 0]. *)
Fixpoint zero_digits (n : nat) : string :=
  match n with
  | O => ""
  | S k => String (chr 48) (zero_digits k)
  end.
Definition print_08x (x : Z) : string :=
  let s := print_base 16 x in (zero_digits (8 - String.length s) ++ s)%string.

(** ** The report of a run *)

(** src/ef-exec.c:253-256, 301-305, 525-529: the name if there is one, else the bytes. *)
Definition print_frame (name : option string) (b : buf) : string :=
  match name with
  | Some n => ("name " ++ n)%string
  | None => hex_str b
  end.

(** What an event prints on stdout. *)
Definition event_stdout (x : event) : string :=
  match x with
  | EvName n b m =>                                        (* src/ef-exec.c:392-401 *)
      ("NAME:  " ++ pad_left 16 n ++ ": " ++ hex_str b ++ nl ++
       match m with
       | Some k => "NAME MASK:               " ++ hex_str k ++ nl
       | None => ""
       end)%string
  | EvHex b None => (hex_str b ++ nl)%string               (* src/ef-exec.c:447-448 *)
  | EvHex b (Some m) =>                                    (* src/ef-exec.c:440-445 *)
      ("DATA: " ++ hex_str b ++ nl ++ "MASK: " ++ hex_str m ++ nl)%string
  | EvRxOk i b n m =>                                      (* src/ef-exec.c:252-264 *)
      ("RX-OK  " ++ pad_left 16 i ++ ": " ++ print_frame n b ++
       match n, m with
       | None, Some k => nl ++ "RX-OK MASK:              " ++ hex_str k ++ nl
       | _, _ => ""
       end ++ nl)%string
  | EvTx i b n =>                                          (* src/ef-exec.c:300-306 *)
      ("TX     " ++ pad_left 16 i ++ ": " ++ print_frame n b ++ nl)%string
  | _ => ""
  end.

(** What an event prints on stderr. *)
Definition event_stderr (x : event) : string :=
  match x with
  | EvNoName n => ("No frame in inventory called " ++ n ++ nl)%string   (* src/ef-exec.c:417 *)
  | EvRxErr i b =>                                         (* src/ef-exec.c:267-269 *)
      ("RX-ERR " ++ pad_left 16 i ++ ": " ++ hex_str b ++ nl)%string
  | EvNoRx i b n m =>                                      (* src/ef-exec.c:524-539 *)
      ("NO-RX  " ++ pad_left 16 i ++ ": " ++ print_frame n b ++
       match n with
       | Some _ => ""
       | None => nl ++ match m with
                       | Some k => "NO-RX MASK:              " ++ hex_str k ++ nl
                       | None => ""
                       end
       end ++ nl)%string
  | _ => ""
  end.

(** vdprintf writes at once; the texts follow one another in the order of the events. *)
Fixpoint texts (l : list string) : string :=
  match l with
  | [] => ""
  | s :: r => (s ++ texts r)%string
  end.

Definition stdout (ev : list event) : string := texts (map event_stdout ev).
Definition stderr (ev : list event) : string := texts (map event_stderr ev).

(** ** Help *)

(** The texts of the header with this name. *)
Definition help_of (n : string) : option string * list (option string) :=
  match find (fun p => String.eqb n (fst p)) help_texts with
  | Some p => snd p
  | None => (None, [])
  end.

(** The text of the first field called [w]. *)
Fixpoint text_at (ts : list (option string)) (fs : list field) (w : string) : option string :=
  match fs with
  | [] => None
  | f :: r => if String.eqb w (f_name f) then hd None ts else text_at (tl ts) r w
  end.
Definition help_text (h : hdr) (w : string) : option string :=
  text_at (snd (help_of (h_name h))) (h_fields h) w.

(** src/ef.c:524-541; [t] is the member help. *)
Definition field_help (t : option string) (f : field) (indent : nat) : string :=
  (spaces indent ++ pad_right 20 (f_name f) ++
   "+" ++ print_wd 3 (f_off f) ++ ":" ++ print_wd 3 (f_width f) ++ " " ++
   " " ++ match t with Some x => x | None => "MISSING FIELD HELP TEXT!" end ++ nl)%string.

(** The loop src/ef.c:574-576. *)
Fixpoint fields_help (ts : list (option string)) (fs : list field) (indent : nat) : string :=
  match fs with
  | [] => ""
  | f :: r => (field_help (hd None ts) f indent ++ fields_help (tl ts) r indent)%string
  end.

(** The body of the loop of src/ef.c:543-579. *)
Definition hdr_help1 (h : hdr) (indent : nat) (show_fields : bool) : string :=
  (spaces indent ++ pad_right 16 (h_name h) ++
   " " ++ match fst (help_of (h_name h)) with Some x => x | None => "MISSING HDR HELP TEXT!" end ++ nl ++
   if show_fields then
     nl ++ "Specify the " ++ h_name h ++ " header by using one or more of the following fields:" ++ nl ++
     spaces indent ++ "- Name ------------ offset:width --- Description --------------------------" ++ nl ++
     fields_help (snd (help_of (h_name h))) (h_fields h) (indent + 2)
   else "")%string.

(** src/ef.c:543-579 (all headers have names) *)
Definition hdr_help (hs : list hdr) (indent : nat) (show_fields : bool) : string :=
  texts (map (fun h => hdr_help1 h indent show_fields) hs).

(** src/ef-args.c:25-26 *)
Definition headers_help : string :=
  ("Specify a frame by using one or more of the following headers:" ++ nl ++ hdr_help hdr_tmpls 2 false)%string.

(** ** Diagnostics of values (src/ef-parse-bytes.c)

    What the parsers of values print; the values themselves are those of ParseBytes.v and
    FieldParsers.v.  A failing balloc is not modelled. *)

(** __FILE__: the path is that given to the compiler; here the one in the repository. *)
Definition at_line (n : Z) : string := ("src/ef-parse-bytes.c:" ++ print_d n ++ ": ERROR")%string.

Definition not_hex (s : string) : string := ("ERROR: Could not parse >" ++ s ++ "< as a hex string" ++ nl)%string.
Definition not_aligned : string :=
  ("ERROR: hex strings must be byte aligned, and if delimiters are then they must also be byte aligned." ++ nl)%string.

(** src/ef-parse-bytes.c:77-85 *)
Definition binary_says (s : string) : string :=
  let '(cnt, others) := bin_scan s 0 false in
  if others || (cnt =? 0) then not_hex s
  else if negb (cnt mod 8 =? 0) then not_aligned
  else "".

(** src/ef-parse-bytes.c:146-154 = 515-523 *)
Definition hex_says (s : string) : string :=
  let '(cnt, others, align) := nib_scan s 0 false false in
  if others || (cnt =? 0) then not_hex s
  else if align then not_aligned
  else "".

(** src/ef-parse-bytes.c:342-414: the line of the message of the iteration that returns 0;
    as [mac_step]. *)
Definition mac_step_line (c : ascii) (s : mac_st) : Z :=
  match hexval c with
  | Some _ => if 5 <? mc_idx s then 368 else 403
  | None =>
      if code c =? 58 then
        if 5 <? mc_idx s then 368
        else if mc_col_cnt s + 1 =? 2 then if 1 <? mc_split_cnt s + 1 then 383 else 388
        else 394
      else 359
  end.

(** src/ef-parse-bytes.c:342-429; [None]: no message *)
Fixpoint mac_line (s : string) (st : mac_st) : option Z :=
  match s with
  | EmptyString =>
      if 1 <? mc_split_cnt st then Some 417
      else if 6 <? mc_elem st then Some 422
      else if (6 <=? mc_elem st) && (0 <? mc_split_cnt st) then Some 427
      else None
  | String c r =>
      match mac_step c st with
      | Ret (Some st') => mac_line r st'
      | Ret None => Some (mac_step_line c st)
      | Crash _ => None
      end
  end.

(** src/ef-parse-bytes.c:194-482 *)
Definition bytes_says (s : string) (bytes : Z) : string :=
  let '(pfx, d) := split_prefix s in
  let f := flags_of d in
  let base := base_of pfx f in
  if negb (base =? 0) && (bytes <=? 8) then ""
  else if base =? 16 then hex_says d
  else if base =? 2 then binary_says d
  else
    match pfx with
    | Some _ => ""
    | None =>
        if (bytes =? 4) && negb (has_other f) && negb (has_colon f) && has_dot f then
          match inet_pton4 d with
          | Some _ => ""
          | None => (at_line 312 ++ ", could not parse input as an IPv4 address" ++ nl)%string
          end
        else if (bytes =? 6) && negb (has_other f) && negb (has_dot f) && has_colon f then
          match mac_line d mac_init with
          | None => ""
          | Some n => (at_line n ++ nl)%string
          end
        else if (bytes =? 16) && negb (has_other f) && has_colon f then
          match inet_pton6 d with
          | Some _ => ""
          | None => (at_line 475 ++ nl)%string
          end
        else ""
    end.

(** src/ef-parse-bytes.c:566-592 *)
Definition field_hex_says (s : string) (bytes : Z) : string :=
  match parse_var_bytes_hex s 0 with
  | Ret (Some b) => if bytes <? zlen b then (at_line 583 ++ ": Parsed field size is too large" ++ nl)%string else ""
  | _ => hex_says s
  end.

(** [f->parser], as [run_parser] *)
Definition value_says (p : field_parser) (s : string) (bytes : Z) : string :=
  match p with
  | FP_field_hex => field_hex_says s bytes
  | FP_coap_code => ""
  | FP_coap_token | FP_profinet => hex_says s
  | FP_opc16 => bytes_says s 2
  | _ => bytes_says s bytes
  end.

Definition data_help : string :=
  ("Supported sub-commands: hex <hex-str>, ascii <str>, ascii0 <str>, repeat <cnt> <val>, pattern (cnt|zero|ones) <cnt>" ++ nl)%string.

(** src/ef-parse-bytes.c:692-760, as [parse_var_bytes_] *)
Definition piece_says (ws : list string) : string :=
  match ws with
  | [] => ""
  | w :: r =>
      if String.eqb w "help" then data_help
      else if String.eqb w "hex" then match r with [] => "" | s :: _ => hex_says s end
      else if String.eqb w "repeat" then
        match r with
        | c :: v :: _ =>
            (bytes_says c 4 ++ match parse_uint32 c with Ret (Some _) => bytes_says v 1 | _ => "" end)%string
        | _ => ""
        end
      else if String.eqb w "pattern" then match r with _ :: l :: _ => bytes_says l 4 | _ => "" end
      else ""
  end.

(** src/ef-parse-bytes.c:767-800, as [pvb_loop] *)
Fixpoint pieces_say (fuel : nat) (ws : list string) : string :=
  match fuel with
  | O => ""
  | S fuel =>
      (piece_says ws ++
       match parse_var_bytes_ ws with
       | Ret (VSome n _) => pieces_say fuel (skipn n ws)
       | _ => ""
       end)%string
  end.
Definition var_bytes_say (ws : list string) : string := pieces_say (S (length ws)) ws.

(** ** Parsing, with what it prints

    The same functions as in Frame.v and Cmd.v, with the text they print.  What
    src/ef-mld.c:111-133 prints before exit() is left out. *)

Definition missing_argument (w : string) : string := ("ERROR: Missing argument to " ++ w ++ nl)%string.
Definition multi_error : string := ("ERROR: parser_multi consumed more words than available" ++ nl)%string.

(** src/ef.c:325-409, as [hpf_loop] *)
Fixpoint hpf_says (fuel : nat) (ws : list string) (i : nat) (h : hdr) (pad : Z)
  (mask : bool) : out (pres * string) :=
  match fuel with
  | O => Crash Fuel
  | S fuel =>
      match ws with
      | [] => Ret (POk i h pad mask, ""%string)
      | w :: r =>
          if String.eqb w "help" then Ret (PErr, hdr_help [h] 0 true)
          else if is_ign w && (i =? 0)%nat then
            hpf_says fuel r (i + 1) (set_fields (map (set_skip true) (h_fields h)) h) pad true
          else
            match find_field h w with
            | None => Ret (POk i h pad mask, ""%string)
            | Some f =>
                let h0 := fmod w (set_val None) h in
                match r with
                | [] => Ret (PErr, missing_argument w)
                | v :: r2 =>
                    if is_ign v then
                      hpf_says fuel r2 (i + 2) (fmod w (set_skip true) h0) pad true
                    else if String.eqb v "help" then
                      Ret (PErr, field_help (help_text h w) f 0)
                    else if is_multi (f_parser f) then
                      '(h1, cnt) <- run_multi (f_parser f) h0 w r;;
                      if (0 <? cnt) && (cnt <=? zlen r) then
                        '(p, s) <- hpf_says fuel (skipn (Z.to_nat cnt) r) (i + 1 + Z.to_nat cnt)
                          (fmod w (set_skip false) h1) pad mask;;
                        Ret (p, (var_bytes_say r ++ s)%string)
                      else Ret (PErr, (var_bytes_say r ++ multi_error)%string)
                    else
                      '(h1, o) <- run_parser (f_parser f) h0 v (BIT_TO_BYTE (f_width f));;
                      '(p, s) <- hpf_says fuel r2 (i + 2)
                        (fmod w (set_skip false) (fmod w (set_val o) h1)) pad mask;;
                      Ret (p, (value_says (f_parser f) v (BIT_TO_BYTE (f_width f)) ++ s)%string)
                end
            end
      end
  end.

Definition parse_fields_says (ws : list string) (h : hdr) (pad : Z) (mask : bool) : out (pres * string) :=
  hpf_says (S (length ws)) ws 0 h pad mask.

(** src/ef-args.c:53, as [parse_hdr] *)
Definition parse_hdr_says (ws : list string) (h : hdr) (pad : Z) (mask : bool) : out (pres * string) :=
  match h_parser h with
  | HP_fields => parse_fields_says ws h pad mask
  | HP_payload => p <- parse_hdr ws h pad mask;; Ret (p, var_bytes_say ws)
  | HP_padding => p <- parse_hdr ws h pad mask;; Ret (p, match ws with [] => ""%string | w :: _ => bytes_says w 4 end)
  | HP_none => Crash Null_deref
  end.

(** src/ef-args.c:21-63, as [argc_frame_loop] *)
Fixpoint argc_frame_loop_says (fuel : nat) (ws : list string) (i : nat) (f : frame)
  : out (option (nat * frame) * string) :=
  match fuel with
  | O => Crash Fuel
  | S fuel =>
      match ws with
      | [] => Ret (Some (i, f), ""%string)
      | w :: r =>
          if String.eqb w "help" then Ret (None, headers_help)
          else
            match find_tmpl w with
            | None => Ret (Some (i, f), ""%string)
            | Some t =>
                if FRAME_STACK_MAX <=? zlen (fr_stack f) then Crash OOB_write
                else
                  '(p, s) <- parse_hdr_says r t (fr_padding f) (fr_has_mask f);;
                  match p with
                  | PErr => Ret (None, s)
                  | POk n h pad mask =>
                      '(o, s2) <- argc_frame_loop_says fuel (skipn n r) (i + 1 + n)
                        (MkFrame (fr_stack f ++ [h]) pad mask);;
                      Ret (o, (s ++ s2)%string)
                  end
            end
      end
  end.

(** src/ef-args.c:8-64, as [argc_frame] *)
Definition argc_frame_says (ws : list string) : out (option (nat * frame) * string) :=
  if FRAME_STACK_MAX <? zlen ws then Ret (None, "ERROR: Frame stack size is too big"%string)
  else argc_frame_loop_says (S (length ws)) ws 0 empty_frame.

(** src/ef-args.c:240-269, as [finish_cmd] *)
Definition finish_cmd_says (ct : cmd_type) (name arg0 : option string) (rep : Z)
  (i : nat) (ws : list string) : out (cres * string) :=
  '(o, s) <- argc_frame_says ws;;
  match o with
  | None => Ret (CErr, s)
  | Some (O, _) =>
      match ct with
      | CT_rx => Ret (COk i (MkCmd ct name arg0 None None None false rep), s)
      | _ => Ret (CNone, s)
      end
  | Some (n, f) =>
      '(f1, b) <- frame_to_buf f;;
      m <- (if fr_has_mask f1 then m <- frame_mask_to_buf f1;; Ret (Some m) else Ret None);;
      Ret (COk (i + n) (MkCmd ct name arg0 (Some f1) (Some b) m false rep), s)
  end.

(** src/ef-args.c:232-238, as [cmd_frame] *)
Definition cmd_frame_says (ct : cmd_type) (name arg0 : option string) (rep : Z)
  (i : nat) (ws : list string) : out (cres * string) :=
  match ws with
  | w :: a :: _ =>
      if String.eqb w "name" && negb (cmd_type_eqb ct CT_name) then
        Ret (COk (i + 2) (MkCmd ct (Some a) arg0 None None None false rep), ""%string)
      else finish_cmd_says ct name arg0 rep i ws
  | _ => finish_cmd_says ct name arg0 rep i ws
  end.

(** src/ef-args.c:169-270, as [argc_cmd] *)
Definition argc_cmd_says (ws : list string) : out (cres * string) :=
  match ws with
  | [] => Ret (CNone, ""%string)
  | w :: r =>
      match cmd_word w with
      | None => if String.eqb w "help" then Ret (CErr, usage_text) else Ret (CNone, ""%string)
      | Some ct =>
          match r with
          | [] => Ret (CNone, ""%string)
          | a :: r2 =>
              match ct with
              | CT_name => cmd_frame_says ct (Some a) None 0 2 r2
              | CT_hex => cmd_frame_says ct None None 0 1 r
              | CT_pcap | CT_rx => cmd_frame_says ct None (Some a) 0 2 r2
              | CT_tx =>
                  match r2 with
                  | [] => Crash Null_deref
                  | x :: r3 =>
                      if String.eqb x "rep" || String.eqb x "repeat" then
                        match r3 with
                        | [] => Crash Null_deref
                        | n :: r4 => cmd_frame_says ct None (Some a) (atoi_u32 n) 4 r4
                        end
                      else cmd_frame_says ct None (Some a) 1 2 r2
                  end
              end
          end
      end
  end.

(** src/ef-args.c:296 *)
Definition parse_error (i argc cmds : nat) : string :=
  ("Parse error! arg# " ++ print_d (Z.of_nat i) ++ " out of " ++ print_d (Z.of_nat argc) ++
   ", cmd_idx = " ++ print_d (Z.of_nat cmds) ++ nl)%string.

(** src/ef-args.c:278-298, as [argc_cmds_loop]; [i] and [k] are the words and the commands
    so far, [n] is argc. *)
Fixpoint argc_cmds_says (slots : nat) (ws : list string) (i k n : nat) : out (option (list cmd) * string) :=
  match ws with
  | [] => Ret (Some [], ""%string)
  | _ =>
      match slots with
      | O => Ret (None, parse_error i n k)
      | S slots =>
          '(r, s) <- argc_cmd_says ws;;
          match r with
          | CErr => Ret (None, s)
          | CNone => Ret (None, (s ++ parse_error i n k)%string)
          | COk m c =>
              '(o, s2) <- argc_cmds_says slots (skipn m ws) (i + m) (S k) n;;
              Ret (match o with Some cs => Some (c :: cs) | None => None end, (s ++ s2)%string)
          end
      end
  end.

Definition parse_cmds_says (ws : list string) : out (option (list cmd) * string) :=
  argc_cmds_says CMD_MAX ws 0 0 (length ws).

(** src/ef-args.c:330-361: result, text on stdout, text on stderr.  getopt itself
    reports unknown options and missing arguments on stderr (left out); the lines of
    captures ("PID ...") depend on their children (left out); [version] is gGIT_VERSION. *)
Definition main_says (version : string) (args : list string) (e : env) : out (Z * string * string) :=
  match getopt args with
  | OVersion _ => Ret (0, "ef version: " ++ version ++ nl, "")%string
  | OUsage _ => Ret (-1, usage_text, ""%string)
  | ORun _ _ ws =>
      '(o, s) <- parse_cmds_says ws;;
      match o with
      | None => Ret (-1, s, ""%string)
      | Some cs =>
          '(r, ev) <- exec_cmds cs e;;
          Ret (r, (s ++ stdout ev)%string, stderr ev)
      end
  end.

(** ** hexdump (src/ef.c:9-20; no caller) *)
Fixpoint hex_row (n : nat) (b : buf) : string :=
  match n, b with
  | S k, x :: r => (print_02x x ++ " " ++ hex_row k r)%string
  | _, _ => ""
  end.

Fixpoint hexdump_loop (fuel : nat) (at_ : Z) (b : buf) : string :=
  match fuel, b with
  | S k, _ :: _ => (print_08x at_ ++ ": " ++ hex_row 16 b ++ nl ++ hexdump_loop k (at_ + 16) (skipn 16 b))%string
  | _, _ => ""
  end.
Definition hexdump_text (b : buf) : string := hexdump_loop (length b) 0 b.

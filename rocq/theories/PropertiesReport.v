(** Properties C72-C76: what is printed on stdout and stderr.
    Vocabulary: SpecReport.v, SpecHelp.v, SpecExec.v.  [stdout ev] and [stderr ev] are the
    texts that the events of a run put there; [main_says] is the whole program with the two
    texts. *)

From Verif Require Import PTextIp PTextNum Frame SpecParse PField Exec SpecExec PCmd PPair PExec PStatus PropertiesExec Report SpecReport SpecHelp PReport PReport2 PHelp SpecLayout SpecWhole PWhole.
Local Open Scope string_scope.

(** ** C72: the lines about the frames *)

(** On every interface the lines "RX-OK", "TX", "RX-ERR" and "NO-RX" show the frames that
    were accepted, transmitted, received without being expected, and missed, in this
    order, each by its name or by two digits for each byte. *)
Theorem C72_lines : forall ws e cs r ev ifn, runs ws e cs r ev -> of_bytes (e_rounds e) -> printable cs -> plain_word ifn ->
  Forall2 shown (accepted ifn ev) (entries "RX-OK  " ifn (stdout ev)) /\
  Forall2 shown (transmitted ifn ev) (entries "TX     " ifn (stdout ev)) /\
  Forall2 hex_text (unexpected ifn ev) (entries "RX-ERR " ifn (stderr ev)) /\
  Forall2 shown (missed ifn ev) (entries "NO-RX  " ifn (stderr ev)).
Proof. exact report_entries. Qed.
Print Assumptions C72_lines.

(** The name is that of a command on this interface which has or accepts this frame. *)
Theorem C72_names : forall ws e cs r ev ifn, runs ws e cs r ev -> of_bytes (e_rounds e) ->
  (map snd (accepted ifn ev) = map snd (filter fst (receptions ifn ev)) /\ forall n b, In (n, b) (accepted ifn ev) -> exists c, In c (commands_on ifn cs) /\ c_name c = n /\ accepts c b) /\
  (map snd (transmitted ifn ev) = reported_tx ifn ev /\ forall n b, In (n, b) (transmitted ifn ev) -> exists c, In c (transmissions ifn cs) /\ c_name c = n /\ c_buf c = Some b) /\
  (map snd (missed ifn ev) = reported_missing ifn ev /\ forall n b, In (n, b) (missed ifn ev) -> exists c, In c (expectations ifn cs) /\ c_name c = n /\ c_buf c = Some b).
Proof. exact report_commands. Qed.
Print Assumptions C72_names.

(** Two runs print the same exactly if the same is to be seen of their events, in the same
    order: nothing can be read in two ways. *)
Theorem C72_unambiguous : forall ws e cs r ev ws' e' cs' r' ev',
  runs ws e cs r ev -> of_bytes (e_rounds e) -> printable_words cs -> runs ws' e' cs' r' ev' -> of_bytes (e_rounds e') -> printable_words cs' ->
  (stdout ev = stdout ev' <-> on_stdout ev = on_stdout ev') /\ (stderr ev = stderr ev' <-> on_stderr ev = on_stderr ev').
Proof. exact report_unambiguous. Qed.
Print Assumptions C72_unambiguous.

(** "hex" prints one line, two digits for each byte of the frame. *)
Theorem C72_hex : forall hs ps e, Forall well_written hs -> Forall piece_ok ps -> text hs ps <> [] ->
  (Z.of_nat (length (text hs ps)) <= 100)%Z -> (Z.of_nat (length (payload ps)) <= 134000000)%Z ->
  exists b ev s, frame_is hs ps b /\ argc_cmds ("hex" :: text hs ps) e = Ret (0%Z, ev) /\ hex_text b s /\ stdout ev = s ++ String newline "" /\ stderr ev = "".
Proof. exact frame_printed. Qed.
Print Assumptions C72_hex.

(** Without the restriction to words two different reports look the same: the name of a
    frame may contain the newline. *)
Definition two_in_one : string := spaces 15 ++ "a: " ++ hex_str eth_all ++ String newline "NAME:                 b".
Theorem C72_newline_refuted : exists ws ws' e cs cs' ev ev', runs ws e cs 0 ev /\ runs ws' e cs' 0 ev' /\ stdout ev = stdout ev' /\ on_stdout ev <> on_stdout ev'.
Proof.
  exists ["name"; "a"; "eth"; "name"; "b"; "eth"], ["name"; two_in_one; "eth"], (world []). do 4 eexists. split; [run|]. split; [run|].
  split; vm_compute; [reflexivity|discriminate].
Qed.
Print Assumptions C72_newline_refuted.

(** A run with all four kinds of lines. *)
Definition busy : list string :=
  ["name"; "f"; "eth"; "dmac"; "::2"; "rx"; "eth0"; "name"; "f"; "tx"; "eth1"; "eth"; "dmac"; "::1"; "rx"; "eth1"; "eth"; "dmac"; "::9"].
Definition busy_world : env := world [puts; gets 0 (plain (eth_to 2)); gets 1 (plain (eth_to 3))].

Example C72_case : exists cs ev, runs busy busy_world cs 2 ev /\ of_bytes (e_rounds busy_world) /\ printable_words cs /\ plain_word "eth0" /\
  entries "RX-OK  " "eth0" (stdout ev) = ["name f"] /\
  entries "TX     " "eth1" (stdout ev) = ["000000000001000000000001aaaa" ++ zero_digits 92] /\
  entries "RX-ERR " "eth1" (stderr ev) = ["000000000003000000000001aaaa" ++ zero_digits 92] /\
  entries "NO-RX  " "eth1" (stderr ev) = ["000000000009000000000001aaaa" ++ zero_digits 92] /\
  length (lines (stdout ev)) = 3%nat /\ length (lines (stderr ev)) = 3%nat.
Proof.
  do 2 eexists. split; [run|]. split.
  { intros rd i m H1 H2. assert (HK : forall n, (0 <= n < 256)%Z -> Forall is_byte (eth_to n)) by (intros n Hn; unfold eth_to; repeat constructor; unfold is_byte; lia).
    destruct H1 as [<-|[<-|[<-|[]]]]; cbn in H2; [discriminate| |]; (destruct i as [|[|i]]; cbn in H2; try discriminate; apply some_inj in H2; subst m; apply HK; lia). }
  split; [|split; [split; cbn; intuition discriminate|vm_compute; repeat split; reflexivity]].
  intros c Hc. vm_compute in Hc. repeat (destruct Hc as [<-|Hc]; [split; [intros _; split; cbn; intuition discriminate|intros n Hn; vm_compute in Hn; try discriminate; apply some_inj in Hn; subst n; split; cbn; intuition discriminate]|]). destruct Hc.
Qed.

(** ** C73: errors *)

(** The status of a run is the number of lines "RX-ERR" and "NO-RX" on stderr, and stderr is
    empty exactly if it is 0. *)
Theorem C73_status_partial : forall ws e cs r ev, runs ws e cs r ev -> of_bytes (e_rounds e) -> printable cs ->
  r = Z.of_nat (length (lines_with ["RX-ERR "; "NO-RX  "] (stderr ev))) /\ (stderr ev = "" <-> r = 0%Z).
Proof. exact stderr_count. Qed.
Print Assumptions C73_status_partial.

(** If names are not defined, the status is their number and stderr names each. *)
Theorem C73_undefined : forall ws cs e, parse_cmds ws = Ret (Some cs) -> undefined_refs cs <> [] -> (forall n, In n (undefined_refs cs) -> one_line n) ->
  exists ev, argc_cmds ws e = Ret (Z.of_nat (length (undefined_refs cs)), ev) /\ lines (stderr ev) = map (fun n => "No frame in inventory called " ++ n) (undefined_refs cs).
Proof. exact undefined_lines. Qed.
Print Assumptions C73_undefined.

(** Full claim: stderr is empty exactly if the status is 0.  A refused line leaves it empty. *)
Theorem C73_refused_refuted : exists o, main_says "" ["tx"; "eth0"; "eth"; "bogus"] (world []) = Ret ((-1)%Z, o, "").
Proof. eexists. vm_compute. reflexivity. Qed.
Print Assumptions C73_refused_refuted.

Example C73_case :
  (exists cs ev, runs busy busy_world cs 2 ev /\ lines_with ["RX-ERR "; "NO-RX  "] (stderr ev) <> []) /\
  exists cs, parse_cmds ["tx"; "eth0"; "name"; "x"; "rx"; "eth1"; "name"; "y"] = Ret (Some cs) /\ undefined_refs cs = ["x"; "y"].
Proof. split; [do 2 eexists; split; [run|vm_compute; discriminate]|eexists; split; vm_compute; reflexivity]. Qed.

(** ** C74: the help *)

(** The text of the program is that of the parser and that of the run. *)
Theorem C74_program : forall version args e r o1 o2, main_says version args e = Ret (r, o1, o2) ->
  match getopt args with
  | OVersion _ => r = 0%Z /\ o1 = "ef version: " ++ version ++ String newline "" /\ o2 = ""
  | OUsage _ => r = (-1)%Z /\ o1 = usage_text /\ o2 = ""
  | ORun _ _ ws => exists ev s o, argc_cmds ws e = Ret (r, ev) /\ parse_cmds_says ws = Ret (o, s) /\ o1 = s ++ stdout ev /\ o2 = stderr ev
  end.
Proof. exact main_runs. Qed.
Print Assumptions C74_program.

(** What is said and what is done agree. *)
Theorem C74_same : forall ws, match parse_cmds_says ws with Ret (o, _) => parse_cmds ws = Ret o | Crash c => parse_cmds ws = Crash c end.
Proof. exact parse_same. Qed.
Print Assumptions C74_same.

(** The usage lists exactly the words that start a command, and shows the syntax of each. *)
Theorem C74_commands : (forall w, In w (listed_commands usage_text) <-> is_some (cmd_word w) = true) /\ syntax_lines (lines usage_text) = listed_commands usage_text.
Proof. exact (conj commands_listed syntax_listed). Qed.
Print Assumptions C74_commands.

(** The program accepts all examples of the usage without a word. *)
Theorem C74_examples : Forall (fun ws => exists cs, cs <> [] /\ parse_cmds_says ws = Ret (Some cs, "")) (examples usage_text).
Proof. exact examples_accepted. Qed.
Print Assumptions C74_examples.

Example C74_examples_case : In ["hex"; "eth"; "dmac"; "1::2"; "smac"; "3::4"; "ipv4"; "ign"; "sip"; "1.2.3.4"; "udp"] (examples usage_text) /\ length (examples usage_text) = 6%nat.
Proof. vm_compute. tauto. Qed.

(** "help" in place of a frame lists exactly the words that start a header. *)
Theorem C74_headers : argc_frame_says ["help"] = Ret (None, headers_help) /\
  forall w, In w (listed_headers headers_help) <-> w <> "help" /\ argc_frame [w] <> Ret (Some (0%nat, empty_frame)).
Proof. exact (conj eq_refl headers_listed). Qed.
Print Assumptions C74_headers.

(** "help" behind a header lists exactly the words that are names of its fields: those
    that demand a value.  (Restriction: the field called "ignore", which is taken for the
    keyword.) *)
Theorem C74_fields_partial : forall t w, In t hdr_tmpls -> h_parser t = HP_fields -> w <> "help" -> ~ ignore_word w ->
  exists s, argc_frame_says [h_name t; "help"] = Ret (None, s) /\
  ((exists o d, In (w, o, d) (listed_fields s)) <-> argc_frame_says [h_name t; w] = Ret (None, "ERROR: Missing argument to " ++ w ++ String newline "")).
Proof. exact fields_help_true. Qed.
Print Assumptions C74_fields_partial.

(** "help" behind a field prints the row of that field in the help of the header. *)
Theorem C74_field : forall t w, In t hdr_tmpls -> h_parser t = HP_fields -> w <> "help" -> ~ ignore_word w ->
  argc_frame_says [h_name t; w] = Ret (None, "ERROR: Missing argument to " ++ w ++ String newline "") ->
  exists s l p q, argc_frame_says [h_name t; "help"] = Ret (None, s) /\ argc_frame_says [h_name t; w; "help"] = Ret (None, l) /\
    s = p ++ "  " ++ l ++ q /\ find (fun r => String.eqb w (fst (fst r))) (listed_fields s) = Some (field_row l).
Proof. exact field_help_true. Qed.
Print Assumptions C74_field.

Example C74_field_case : exists l, argc_frame_says ["ctag"; "vid"; "help"] = Ret (None, l) /\ field_row l = ("vid", "4", "12") /\
  argc_frame_says ["ctag"; "vid"] = Ret (None, "ERROR: Missing argument to vid" ++ String newline "").
Proof. eexists. split; [vm_compute; reflexivity|]. split; vm_compute; reflexivity. Qed.

(** The offset and the width are those of the field in the format (by which C65 tells the
    bytes of the frame). *)
Theorem C74_places : forall n m fld off w, format_named n m -> fld <> "-" -> place m fld = Some (off, w) ->
  exists s, argc_frame_says [n; "help"] = Ret (None, s) /\
    find (fun r => String.eqb fld (fst (fst r))) (listed_fields s) = Some (fld, decimal off, decimal w).
Proof. exact places_help_true. Qed.
Print Assumptions C74_places.

(** The field "ignore" is listed, but is not a field to "profinet-rtc ignore". *)
Theorem C74_ignore_refuted : exists s o d f, argc_frame_says ["profinet-rtc"; "help"] = Ret (None, s) /\ In ("ignore", o, d) (listed_fields s) /\
  argc_frame_says ["profinet-rtc"; "ignore"] = Ret (Some (2%nat, f), "").
Proof.
  exists (match find_tmpl "profinet-rtc" with Some t => hdr_help [t] 0 true | None => "" end), "352", "1". eexists.
  split; [vm_compute; reflexivity|]. split; [vm_compute; tauto|vm_compute; reflexivity].
Qed.
Print Assumptions C74_ignore_refuted.

Example C74_case : exists s, argc_frame_says ["ctag"; "help"] = Ret (None, s) /\ listed_fields s = [("pcp", "0", "3"); ("dei", "3", "1"); ("vid", "4", "12"); ("et", "16", "16")] /\
  (exists m, format_named "ctag" m /\ place m "vid" = Some (4%Z, 12%Z)) /\ In "ctag" (listed_headers headers_help).
Proof.
  exists (match find_tmpl "ctag" with Some t => hdr_help [t] 0 true | None => "" end). split; [vm_compute; reflexivity|]. split; [vm_compute; reflexivity|].
  split; [|vm_compute; tauto]. eexists. split; [right; left; reflexivity|reflexivity].
Qed.

(** ** C75: values that cannot be read *)

(** A value that can be read causes no message. *)
Theorem C75_quiet : forall t j f v b, In t hdr_tmpls -> h_parser t = HP_fields ->
  nth_error (h_fields t) j = Some f -> ~ In (h_name t, j) unsettable -> v <> "help" -> ~ ignore_word v ->
  field_text (f_parser f) v (Z.max 1 ((f_width f + 7) / 8)) = Ret (Some b) ->
  exists fr, argc_frame_says [h_name t; f_name f; v] = Ret (Some (3%nat, fr), "").
Proof. exact readable_quiet. Qed.
Print Assumptions C75_quiet.

(** A value that looks like an address or a hexadecimal number of that size, but cannot be
    read, is reported. *)
Theorem C75_reported_partial : forall t j f v, In t hdr_tmpls -> h_parser t = HP_fields ->
  nth_error (h_fields t) j = Some f -> ~ In (h_name t, j) unsettable -> v <> "help" -> ~ ignore_word v -> f_parser f = FP_default ->
  looks_right (Z.max 1 ((f_width f + 7) / 8)) v -> ~ with_0b v -> parse_bytes v (Z.max 1 ((f_width f + 7) / 8)) = Ret None ->
  exists fr s, argc_frame_says [h_name t; f_name f; v] = Ret (Some (3%nat, fr), s) /\ s <> "".
Proof. exact unreadable_reported. Qed.
Print Assumptions C75_reported_partial.

(** Full claim: every value that cannot be read is reported.  "eth et 12z" is accepted without
    a word, and so is the MAC address 0b:0:0:0:0:1; the frame is that without the value. *)
Theorem C75_silent_refuted : exists o, main_says "" ["hex"; "eth"] (world []) = Ret (0%Z, o, "") /\
  main_says "" ["hex"; "eth"; "et"; "12z"] (world []) = Ret (0%Z, o, "") /\
  main_says "" ["hex"; "eth"; "dmac"; "0b:0:0:0:0:1"] (world []) = Ret (0%Z, o, "").
Proof. exists (hex_str eth_all ++ nl). split; [|split]; vm_compute; reflexivity. Qed.
Print Assumptions C75_silent_refuted.

Example C75_case : exists s fr, argc_frame_says ["eth"; "dmac"; "1:2:3:4:5:6:7"] = Ret (Some (3%nat, fr), s) /\ s = "src/ef-parse-bytes.c:368: ERROR" ++ nl /\
  looks_right 6 "1:2:3:4:5:6:7" /\ ~ with_0b "1:2:3:4:5:6:7" /\ parse_bytes "1:2:3:4:5:6:7" 6 = Ret None.
Proof.
  do 2 eexists. split; [vm_compute; reflexivity|]. split; [reflexivity|]. split; [|split; [intros [r H]; discriminate|vm_compute; reflexivity]].
  apply like_mac; [repeat (constructor; [vm_compute; tauto|]); constructor|vm_compute; tauto].
Qed.

(** ** C76: refused lines *)

(** A refused line prints why, unless it has a header "data" or "padding". *)
Theorem C76_said_partial : forall ws s, parse_cmds_says ws = Ret (None, s) -> ~ In "data" ws -> ~ In "padding" ws -> s <> "".
Proof. exact refused_said. Qed.
Print Assumptions C76_said_partial.

(** Full claim: every refused line prints something. *)
Theorem C76_silent_refuted : forall e,
  main_says "" ["hex"; "eth"; "padding"; "x"] e = Ret ((-1)%Z, "", "") /\ main_says "" ["hex"; "eth"; "data"; "hex"] e = Ret ((-1)%Z, "", "").
Proof. intros e. split; vm_compute; reflexivity. Qed.
Print Assumptions C76_silent_refuted.

Example C76_case : exists s, parse_cmds_says ["tx"; "eth0"; "eth"; "bogus"] = Ret (None, s) /\ s = "Parse error! arg# 3 out of 4, cmd_idx = 1" ++ nl.
Proof. eexists. split; vm_compute; reflexivity. Qed.

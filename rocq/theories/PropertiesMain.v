(** Properties C51, C52, C59-C62: captures, time, files and options of the whole program.
    Vocabulary: SpecMain.v. *)

From Verif Require Import PTextIp PTextNum Frame SpecParse Exec Main SpecExec SpecMain PMain.

(** For the examples: a quiet world, in which the captures get the process numbers [pids]
    and those of [ended] end before they are stopped, those of [stopped] after SIGINT. *)
Definition quiet (pids : list Z) (ended stopped : list (Z * wstatus)) : surroundings :=
  MkSur (fun _ => true) pids (MkTv 5 0) (MkTv 5 7) [] (MkTv 5 900000) ended stopped [].
(** A world in which select returns at the times [ts] and every socket can be written. *)
Definition ticking (ts : list timeval) : surroundings :=
  MkSur (fun _ => true) [] (MkTv 5 0) (MkTv 5 999999) (map (fun t => MkTRound 1 t (fun _ => None) (fun _ => true) (fun _ => true)) ts) (MkTv 9 0) [] [] [].

(** C51: every request has elements, and they determine the command and the file. *)
Theorem C51_capture_command : forall s es, elements s es -> capture_add s = (joined " " (capture_words es), capture_file es).
Proof. exact capture_spec. Qed.
Print Assumptions C51_capture_command.

Theorem C51_elements : forall s, exists es, elements s es.
Proof. exact elements_exist. Qed.
Print Assumptions C51_elements.

Example C51_case1 : elements "eth0,,adapter,out.pcap,7,junk" ["eth0"; ""; "adapter"; "out.pcap"; "7"; "junk"] /\
  joined " " (capture_words ["eth0"; ""; "adapter"; "out.pcap"; "7"; "junk"]) = "tcpdump -i eth0 -j adapter -w out.pcap -c 7"%string.
Proof. split; [|reflexivity]. split; [discriminate|]. split; [|reflexivity]. repeat constructor; intros H; cbn in H; repeat (destruct H as [H|H]; [discriminate H|]); auto. Qed.
Example C51_case2 : elements "eth0" ["eth0"] /\ joined " " (capture_words ["eth0"]) = "tcpdump -i eth0 -w eth0.pcap"%string.
Proof. split; [|reflexivity]. split; [discriminate|]. split; [|reflexivity]. repeat constructor; intros H; cbn in H; repeat (destruct H as [H|H]; [discriminate H|]); auto. Qed.

(** C52 *)
Theorem C52_timeout : forall m, 0 <= m -> normal (timeout_tv m) /\ 0 <= tv_sec (timeout_tv m) /\ microseconds (timeout_tv m) = 1000 * m.
Proof. exact timeout_exact. Qed.
Print Assumptions C52_timeout.

(** The time-outs given to select never go beyond the end of the time-out. *)
Theorem C52_select : forall m b, 0 <= m -> normal b -> forall rds rs rs' ev ls, Forall (fun rd => normal (tr_now rd)) rds ->
  timed_loop (end_of m b) (timeout_tv m) rds rs = Ret (rs', ev, ls) ->
  forall k l, nth_error ls k = Some l -> exists t, nth_error (times_read b rds) k = Some t /\ normal l /\ microseconds l = microseconds b + 1000 * m - microseconds t /\ 0 <= microseconds l.
Proof. exact select_never_beyond. Qed.
Print Assumptions C52_select.

(** What comes after the end of the time-out has no effect ... *)
Theorem C52_stops : forall ws m s rds1 rd rds2, 0 <= m -> normal (s_begin s) -> normal (tr_now rd) -> s_rounds s = rds1 ++ rd :: rds2 ->
  microseconds (s_begin s) + 1000 * m < microseconds (tr_now rd) ->
  argc_cmds ws (env_of m s) = argc_cmds ws (MkEnv (s_open s) (map (timed (end_of m (s_begin s))) rds1)).
Proof. exact timed_run. Qed.
Print Assumptions C52_stops.

(** ... and nothing else counts as late. *)
Theorem C52_not_before : forall m b rd, 0 <= m -> normal b -> normal (tr_now rd) ->
  rd_late (timed (end_of m b) rd) = true <-> microseconds b + 1000 * m < microseconds (tr_now rd).
Proof. exact late_exact. Qed.
Print Assumptions C52_not_before.

(** The loop with its clock is the one of the other properties. *)
Theorem C52_loop : forall e rds left rs rs' ev,
  (exists ls, timed_loop e left rds rs = Ret (rs', ev, ls)) <-> main_loop (map (timed e) rds) rs = Ret (rs', ev).
Proof. exact timed_loop_main. Qed.
Print Assumptions C52_loop.

(** With a negative time-out nothing is sent or received. *)
Theorem C52_negative : forall ws m s, m < 0 -> normal (s_begin s) -> Forall (fun rd => normal (tr_now rd) /\ microseconds (s_begin s) <= microseconds (tr_now rd)) (s_rounds s) ->
  argc_cmds ws (env_of m s) = argc_cmds ws (MkEnv (s_open s) []).
Proof. exact negative_run. Qed.
Print Assumptions C52_negative.

Example C52_case1 : microseconds (timeout_tv 1500) = 1500000 /\ end_of 1500 (MkTv 5 999999) = MkTv 7 499999.
Proof. split; reflexivity. Qed.
(** Two frames in time, the third one second late. *)
Example C52_case2 : exists s, session ["-t"; "1500"; "tx"; "eth0"; "eth"; "tx"; "eth0"; "eth"; "tx"; "eth0"; "eth"] (ticking [MkTv 6 0; MkTv 7 499999; MkTv 8 499999]) = Ret (0, s) /\
  length (filter (fun a => match a with Happens (EvSend _ _ _) => true | _ => false end) s) = 2%nat.
Proof. eexists. split; vm_compute; reflexivity. Qed.

(** C59: what becomes of the captures of an accepted command line. *)
Theorem C59_capture_life_cycle : forall args s st acts m caps ess ws cs, session args s = Ret (st, acts) -> getopt args = ORun m caps ws -> parse_cmds ws = Ret (Some cs) -> Forall2 elements caps ess ->
  length (s_pids s) = length caps -> Forall (fun p => 0 < p) (s_pids s) -> NoDup (s_pids s) -> 0 <= m -> normal (s_start s) -> normal (s_done s) ->
  exists r ev nap, argc_cmds ws (env_of m s) = Ret (r, ev) /\ st = exit_status r /\
  acts = map (fun es => Remove (capture_file es)) ess ++
         map (fun x => Start (joined " " (capture_words (fst x))) (snd x)) (combine ess (s_pids s)) ++
         map Happens ev ++ nap ++
         map (fun p => Kill p SIGINT) (alive (s_before s) (s_pids s)) ++
         map (fun p => Kill p SIGTERM) (alive (s_before s ++ s_int s) (s_pids s)) /\
  let rest := microseconds (s_start s) + 1000 * m - microseconds (s_done s) in
  (caps <> [] /\ 0 < rest /\ (exists tv, nap = [Sleep tv] /\ normal tv /\ microseconds tv = rest) \/ (caps = [] \/ rest <= 0) /\ nap = []).
Proof. exact life_cycle. Qed.
Print Assumptions C59_capture_life_cycle.

(** The commands are executed as without captures. *)
Theorem C59_same_run : forall args s st acts, session args s = Ret (st, acts) ->
  exists m, ef_main args (env_of m s) = Ret (st, flat_map (fun a => match a with Happens e => [e] | _ => [] end) acts).
Proof. exact session_main. Qed.
Print Assumptions C59_same_run.

Example C59_case : exists ev b, session ["-c"; "eth0"; "-t"; "2000"; "-ceth1,,,x"; "hex"; "eth"] (quiet [71; 72] [(71, WExit 0)] []) = Ret (0,
  [Remove "eth0.pcap"; Remove "x"; Start "tcpdump -i eth0 -w eth0.pcap" 71; Start "tcpdump -i eth1 -w x" 72; Happens ev; Sleep (MkTv 1 100000); Kill 72 SIGINT; Kill 72 SIGTERM]) /\ ev = EvHex b None.
Proof. do 2 eexists. split; vm_compute; reflexivity. Qed.

(** C60 *)
Theorem C60_files_and_output : forall ws e cs0 cs r ev, parse_cmds ws = Ret (Some cs0) -> Forall2 (filled_in cs0) cs0 cs -> argc_cmds ws e = Ret (r, ev) ->
  written ev = map (fun c => (file_of c, frame_of c)) (filter is_pcap cs) /\ printed ev = map frame_of (filter is_hex cs) /\
  exists ev1 ev2, ev = ev1 ++ ev2 /\ Forall (fun x => event_if x = None) ev1 /\ Forall (fun x => event_if x <> None) ev2.
Proof. exact files_and_output. Qed.
Print Assumptions C60_files_and_output.

Example C60_case : exists r ev b, argc_cmds ["pcap"; "a"; "name"; "f"; "hex"; "eth"; "ipv4"; "name"; "f"; "eth"; "tx"; "eth0"; "eth"; "pcap"; "b"; "name"; "f"] (MkEnv (fun _ => true) []) = Ret (r, ev) /\
  written ev = [("a"%string, b); ("b"%string, b)] /\ length (printed ev) = 1%nat.
Proof. do 3 eexists. split; [vm_compute; reflexivity|]. split; reflexivity. Qed.

(** C61 *)
Theorem C61_options : forall ps rest k, Forall part_ok ps -> ending rest k ->
  getopt (flat_map part_words ps ++ rest) = k (last (flat_map time_of ps) 100) (flat_map capture_of ps) (flat_map operand_of ps).
Proof. exact options. Qed.
Print Assumptions C61_options.

Theorem C61_every_line : forall args, exists ps rest k, Forall part_ok ps /\ ending rest k /\ args = flat_map part_words ps ++ rest.
Proof. exact every_line. Qed.
Print Assumptions C61_every_line.

Example C61_case : getopt ["tx"; "-t5"; "eth0"; "-c"; "eth1"; "eth"; "-t"; "70"; "--"; "-v"] = ORun 70 ["eth1"]%string ["tx"; "eth0"; "eth"; "-v"]%string /\
  getopt ["hex"; "-c"; "eth1"; "-x"] = OUsage ["eth1"]%string /\ getopt ["-vx"; "-c"; "eth1"] = OVersion [].
Proof. repeat split; vm_compute; reflexivity. Qed.

(** C62.  Full claim: nothing at all happens. *)
Theorem C62_no_effect_partial : forall args s st acts, session args s = Ret (st, acts) ->
  (exists m caps ws, getopt args = ORun m caps ws /\ (exists cs, parse_cmds ws = Ret (Some cs))) \/
  (st = 255 \/ st = 0 /\ exists caps, getopt args = OVersion caps) /\ (forall a, In a acts -> exists f, a = Remove f).
Proof. exact no_effect. Qed.
Print Assumptions C62_no_effect_partial.

(** The files of the captures are removed nevertheless. *)
Theorem C62_refuted : forall s, session ["-c"; "eth0,,,precious"; "hex"; "eht"] s = Ret (255, [Remove "precious"]) /\
  session ["-c"; "eth0,,,precious"; "-h"] s = Ret (255, [Remove "precious"]).
Proof. intros s. split; vm_compute; reflexivity. Qed.
Print Assumptions C62_refuted.

Example C62_case : forall s, session ["-t"; "5"; "hex"; "eht"] s = Ret (255, []) /\ session ["hex"; "eth"; "-x"] s = Ret (255, []) /\ session ["hex"; "-v"; "eth"] s = Ret (0, []) /\
  (forall m caps ws cs, getopt ["-t"; "5"; "hex"; "eht"]%string = ORun m caps ws -> parse_cmds ws <> Ret (Some cs)).
Proof. intros s. repeat split; [vm_compute; reflexivity..|]. intros m caps ws cs H X. vm_compute in H. injection H as <- <- <-. vm_compute in X. discriminate X. Qed.

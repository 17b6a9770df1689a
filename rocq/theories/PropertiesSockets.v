(** Properties C91 and C92: the frames that are judged are those of the interface, and the
    sockets are used as they must be (vocabulary: SpecSockets.v, SpecExec.v; model:
    Sockets.v). *)

From Verif Require Import BaseFacts SpecSockets PSockets PSockets5 PSockets6 PSockets7 PSockets8.

(** ** C91 *)

(** Executions with all their system calls are runs in the sense of C37-C50: what is proved
    for those holds for these. *)
Theorem C91_runs : forall ws sch cs r ev tr rds, executes ws sch cs r ev tr rds -> ~ trouble tr -> runs ws (MkEnv (fun _ => true) rds) cs r ev.
Proof. exact executes_runs. Qed.
Print Assumptions C91_runs.

Theorem C91_trouble : forall ws sch cs r ev tr rds, executes ws sch cs r ev tr rds ->
  exists b, argc_cmds ws (MkEnv (fun _ => b) rds) = Ret (r, ev) /\ (b = false <-> trouble tr) /\ (trouble tr -> r = -1).
Proof. exact executes_env. Qed.
Print Assumptions C91_trouble.

(** And conversely: every run in that sense is the outcome of such an execution, so what is
    refuted there can happen here.  In it every socket comes into use, and what arrives at
    the interfaces is what the run reads. *)
Theorem C91_every_run : forall ws e cs r ev, runs ws e cs r ev -> exists sch tr rds, executes ws sch cs r ev tr rds /\ ~ trouble tr /\
  forall i ifn, nth_error (interfaces cs) i = Some ifn -> exists ix since, listens i ix tr since /\ taken i tr = arrivals_at ix since /\
    ((exists c, In c (commands_on ifn cs) /\ is_rx c = true) -> map snd (arrivals_at ix since) = delivered i (served (e_rounds e))).
Proof. exact runs_executes. Qed.
Print Assumptions C91_every_run.

(** What is judged is what was taken from the sockets, in that order. *)
Theorem C91_judged : forall ws sch cs r ev tr rds i, executes ws sch cs r ev tr rds ->
  delivered i (served rds) = map (fun a => as_seen i tr (snd a)) (taken i tr).
Proof. exact executes_judged. Qed.
Print Assumptions C91_judged.

(** Full claim: everything taken arrived at the interface (after the socket was bound to
    it).  It holds if the interface did not disappear between the two times its index is
    looked up, no more than 10000 frames arrived before the socket was bound, and reading
    does not fail while they are thrown away. *)
Theorem C91_own_partial : forall ws sch cs r ev tr rds i fd ix t1 t2 t3 t4, executes ws sch cs r ev tr rds -> tr = comes_up i fd ix t1 t2 t3 t4 ->
  ix <> 0 -> ~ In (Failed i) t3 -> Z.of_nat (length (arrivals t2)) <= 10000 ->
  exists before after, arrivals_at ix (t3 ++ t4) = before ++ taken i tr ++ after.
Proof. exact executes_own. Qed.
Print Assumptions C91_own_partial.

(** Full claim: what is received and judged on the interface is exactly what arrives there
    from when the socket is usable, first to last.  It holds under the same conditions and
    if PACKET_AUXDATA could be set, and up to what arrives last. *)
Theorem C91_received_partial : forall ws sch cs r ev tr rds i ifn fd ix t1 t2 t3 t4, executes ws sch cs r ev tr rds -> ~ trouble tr ->
  nth_error (interfaces cs) i = Some ifn -> (exists c, In c (commands_on ifn cs) /\ is_rx c = true) ->
  tr = comes_up i fd ix t1 t2 t3 t4 -> ix <> 0 -> ~ In (Failed i) t3 -> Z.of_nat (length (dropped i tr)) < 10000 -> untagged i tr = false ->
  (forall a, In a (arrivals_at ix t4) -> ordinary (snd a)) ->
  exists after, map (fun a => put_tag (snd a)) (arrivals_at ix t4) = received ifn ev ++ after.
Proof. exact executes_received. Qed.
Print Assumptions C91_received_partial.

(** An interface that does not exist *)
Theorem C91_unknown : forall ws sch cs r ev tr rds i, executes ws sch cs r ev tr rds -> In (Index i false 0) tr -> r = -1.
Proof. exact executes_unknown. Qed.
Print Assumptions C91_unknown.

(** ** C92 *)

(** The calls for a socket come in order: nothing before it is made or after it is closed, it
    is not read by the program's loop before it is usable, and it is closed once. *)
Theorem C92_order : forall ws sch cs r ev tr rds i, executes ws sch cs r ev tr rds -> exists p, life i Fresh tr = Some p.
Proof. exact executes_life. Qed.
Print Assumptions C92_order.

(** Also of executions that are not over, or never end. *)
Theorem C92_always : forall rs sch m tr i, run sch (begin rs) = Some (m, tr) -> exists p, life i Fresh tr = Some p.
Proof. exact run_life. Qed.
Print Assumptions C92_always.

(** All sockets are usable before the loop begins; without trouble every interface gets one. *)
Theorem C92_all_first : forall ws sch cs r ev tr rds a b i, executes ws sch cs r ev tr rds -> tr = a ++ Turn :: b -> (i < length (interfaces cs))%nat ->
  exists fd, In (Usable i fd) a.
Proof. exact executes_all. Qed.
Print Assumptions C92_all_first.

Theorem C92_every : forall ws sch cs r ev tr rds i, executes ws sch cs r ev tr rds -> ~ trouble tr -> (i < length (interfaces cs))%nat ->
  exists fd ix t1 t2 t3 t4, tr = comes_up i fd ix t1 t2 t3 t4.
Proof. exact executes_up. Qed.
Print Assumptions C92_every.

(** recvmsg in the loop never waits. *)
Theorem C92_no_wait : forall rs sch m tr i rest, run sch (begin rs) = Some (m, tr) -> m_code m = Recv i :: rest ->
  exists m1 a, step (Go 0) m = Some (m1, [Taken i a]).
Proof. exact run_nowait. Qed.
Print Assumptions C92_no_wait.

(** Full claim: at the end all sockets are closed.  It holds if none failed; otherwise those
    before it stay open. *)
Theorem C92_closed_partial : forall ws sch cs r ev tr rds i, executes ws sch cs r ev tr rds -> ~ trouble tr ->
  (life i Fresh tr = Some Fresh \/ life i Fresh tr = Some Gone) /\ (forall fd, In (Opened i fd) tr -> In (Closed i fd) tr).
Proof. exact executes_closed. Qed.
Print Assumptions C92_closed_partial.

Theorem C92_left_open : forall ws sch cs r ev tr rds i j, executes ws sch cs r ev tr rds -> In (NotOpened j) tr \/ In (Refused j) tr -> (i < j)%nat ->
  exists fd ix, life i Fresh tr = Some (InUse fd ix).
Proof. exact executes_left. Qed.
Print Assumptions C92_left_open.

(** ** Examples *)
Definition yes (_ : nat) : bool := true.
Definition no (_ : nat) : bool := false.
Definition frame1 : rxmsg := MkRx ([0; 0; 0; 0; 0; 1; 0; 0; 0; 0; 0; 1; 170; 170] ++ zeros 46) None.
Definition frame2 : rxmsg := MkRx ([0; 0; 0; 0; 0; 2; 0; 0; 0; 0; 0; 1; 170; 170] ++ zeros 46) None.
Definition words1 : list string := ["rx"; "eth0"; "eth"; "dmac"; "::1"]%string.

Ltac execution := apply execute_ok; vm_compute; reflexivity.
Ltac quiet := intros [? [X|X]]; vm_compute in X; repeat (destruct X as [X|X]; [discriminate X|]); destruct X.

(** Frames arrive before the socket is made, before it is bound, before it is usable, and
    afterwards at two interfaces. *)
Definition schedule1 : list choice :=
  [Arrive 7 frame2; Go 3; Arrive 2 frame2; Go 7; Go 7; Go 0; Arrive 7 frame2; Arrive 2 frame2; Go 0; Go 0; Go 0; Go 0; Go 0;
   Arrive 2 frame2; Arrive 7 frame1; Wake 1 false yes no yes; Go 0; Arrive 7 frame1; Go 0; Wake 0 false yes no yes; Go 0].

Example C91_case : exists cs ev t4, let t1 := [Arrived 7 frame2] in let t2 := [Arrived 2 frame2; Index 0 false 7; Index 0 true 7] in
  let t3 := [Arrived 7 frame2; Arrived 2 frame2; Dropped 0 (2, frame2); Dropped 0 (7, frame2)] in
  (exists rds, executes words1 schedule1 cs 0 ev (comes_up 0 3 7 t1 t2 t3 t4) rds) /\ ~ trouble (comes_up 0 3 7 t1 t2 t3 t4) /\
  nth_error (interfaces cs) 0 = Some "eth0"%string /\ (exists c, In c (commands_on "eth0" cs) /\ is_rx c = true) /\
  ~ In (Failed 0) t3 /\ Z.of_nat (length (dropped 0 (comes_up 0 3 7 t1 t2 t3 t4))) = 2 /\ untagged 0 (comes_up 0 3 7 t1 t2 t3 t4) = false /\
  arrivals_at 7 t4 = [(7, frame1); (7, frame1)] /\ received "eth0" ev = [rx_data frame1].
Proof.
  do 3 eexists. cbv zeta. split; [eexists; execution|]. split; [quiet|]. split; [vm_compute; reflexivity|]. split; [eexists; split; [vm_compute; left; reflexivity|reflexivity]|].
  split; [intros X; vm_compute in X; repeat (destruct X as [X|X]; [discriminate X|]); destruct X|]. repeat (split; [vm_compute; reflexivity|]). vm_compute. reflexivity.
Qed.

(** The interface disappears between the two times its index is looked up: the socket is not
    bound to it, and a frame of another interface is the expected one. *)
Theorem C91_vanished_refuted : exists sch cs ev tr rds, executes words1 sch cs 0 ev tr rds /\ In (Index 0 false 7) tr /\ arrivals_at 7 tr = [] /\ taken 0 tr = [(2, frame1)] /\ received "eth0" ev = [rx_data frame1].
Proof.
  exists [Go 3; Go 7; Go 0; Go 0; Go 0; Go 0; Go 0; Arrive 2 frame1; Wake 1 false yes no yes; Go 0; Go 0; Wake 0 false yes no yes; Go 0]. do 4 eexists. split; [execution|]. split; [right; left; reflexivity|]. split; [reflexivity|]. split; reflexivity.
Qed.
Print Assumptions C91_vanished_refuted.

(** recvmsg fails (EINTR, say) while what came before the socket was bound is thrown away. *)
Theorem C91_kept_refuted : exists sch cs ev tr rds, executes words1 sch cs 0 ev tr rds /\ In (Bound 0 7) tr /\ arrivals_at 7 tr = [] /\ taken 0 tr = [(2, frame1)] /\ received "eth0" ev = [rx_data frame1].
Proof.
  exists [Go 3; Arrive 2 frame1; Go 7; Go 7; Go 0; Go 0; Go 0; Go (-1); Wake 1 false yes no yes; Go 0; Go 0; Wake 0 false yes no yes; Go 0]. do 4 eexists. split; [execution|]. split; [do 4 right; left; reflexivity|]. split; [reflexivity|]. split; reflexivity.
Qed.
Print Assumptions C91_kept_refuted.

(** PACKET_AUXDATA cannot be set: nobody notices, and the tag of the expected frame is lost. *)
Theorem C91_untagged_refuted : exists sch cs ev tr rds m, executes ["rx"; "eth0"; "eth"; "ctag"; "vid"; "5"] sch cs 2 ev tr rds /\ ~ trouble tr /\ arrivals_at 7 tr = [(7, m)] /\
  put_tag m = [255; 255; 255; 255; 255; 255; 0; 0; 0; 0; 0; 1; 129; 0; 0; 5] ++ zeros 44 /\ received "eth0" ev = [[255; 255; 255; 255; 255; 255; 0; 0; 0; 0; 0; 1] ++ zeros 44].
Proof.
  set (m := MkRx ([255; 255; 255; 255; 255; 255; 0; 0; 0; 0; 0; 1] ++ zeros 44) (Some (33024, 5))).
  exists [Go 3; Go 7; Go 7; Go 0; Go 0; Go (-1); Go 0; Arrive 7 m; Wake 1 false yes no yes; Go 0; Go 0; Wake 0 false yes no yes; Go 0]. do 4 eexists. exists m. split; [execution|]. split; [quiet|]. split; [reflexivity|]. split; reflexivity.
Qed.
Print Assumptions C91_untagged_refuted.

(** select returns when the time is over: the expected frame is there and is not read. *)
Theorem C91_late_refuted : exists sch cs ev rds fd t1 t2 t3 t4, let tr := comes_up 0 fd 7 t1 t2 t3 t4 in
  executes words1 sch cs 1 ev tr rds /\ ~ trouble tr /\ arrivals_at 7 t4 = [(7, frame1)] /\ received "eth0" ev = [].
Proof.
  exists [Go 3; Go 7; Go 7; Go 0; Go 0; Go 0; Go 0; Arrive 7 frame1; Wake 1 true yes no yes; Go 0]. do 3 eexists. exists 3, [], [Index 0 false 7; Index 0 true 7], []. eexists. cbv zeta. split; [execution|]. split; [quiet|]. split; reflexivity.
Qed.
Print Assumptions C91_late_refuted.

(** An interface that does not exist; the socket is closed, the one made before it is not. *)
Theorem C92_closed_refuted : exists ws sch cs ev tr rds fd, executes ws sch cs (-1) ev tr rds /\ In (Index 1 false 0) tr /\ In (Opened 0 fd) tr /\ ~ In (Closed 0 fd) tr.
Proof.
  exists ["rx"; "eth0"; "eth"; "rx"; "none"; "eth"]%string, [Go 3; Go 7; Go 7; Go 0; Go 0; Go 0; Go 0; Go 4; Go 0; Go 0; Go 0; Go 0; Go 0]. do 4 eexists. exists 3. split; [execution|]. split; [do 6 right; left; reflexivity|]. split; [left; reflexivity|]. intros X. repeat (destruct X as [X|X]; [discriminate X|]). destruct X.
Qed.
Print Assumptions C92_closed_refuted.

(** Two interfaces: both sockets are usable before the loop begins and are closed. *)
Example C92_case : exists cs ev tr rds a b, executes ["rx"; "eth0"; "eth"; "dmac"; "::1"; "tx"; "eth1"; "eth"] 
    [Go 3; Go 7; Go 7; Go 0; Go 0; Go 0; Go 0; Go 4; Go 2; Go 2; Go 0; Go 0; Go 0; Go 0; Wake 1 false no yes yes; Go 0; Arrive 7 frame1; Wake 1 false (Nat.eqb 0) no yes; Go 0; Go 0; Wake 0 false no no no; Go 0; Go 0] cs 0 ev tr rds /\
  tr = a ++ Turn :: b /\ In (Usable 0 3) a /\ In (Usable 1 4) a /\ In (Closed 0 3) b /\ In (Closed 1 4) b /\ length (interfaces cs) = 2%nat /\ length (sends "eth1" ev) = 1%nat.
Proof.
  do 3 eexists. eexists. exists [Opened 0 3; Index 0 false 7; Index 0 true 7; Bound 0 7; Usable 0 3; Opened 1 4; Index 1 false 2; Index 1 true 2; Bound 1 2; Usable 1 4]. eexists. split; [execution|]. split; [reflexivity|].
  split; [do 4 right; left; reflexivity|]. split; [do 9 right; left; reflexivity|]. split; [do 4 right; left; reflexivity|]. split; [do 5 right; left; reflexivity|]. split; reflexivity.
Qed.

(** More than 10000 frames arrive before the socket is bound: one of them is judged. *)
Definition crowd : list choice :=
  Go 3 :: repeat (Arrive 2 frame1) (Z.to_nat 10001) ++ [Go 7; Go 7; Go 0; Go 0; Go 0] ++ repeat (Go 0) (Z.to_nat 10001) ++ [Wake 1 false yes no yes; Go 0; Go 0; Wake 0 false yes no yes; Go 0].
Definition brief (o : option (list cmd * Z * list event * list happening * list round)) : option (Z * list (list Z) * list arrival * list arrival) :=
  match o with
  | Some (cs, r, ev, tr, rds) => Some (r, received "eth0" ev, taken 0 tr, arrivals_at 7 tr)
  | None => None
  end.
Lemma crowded_now : brief (execute words1 crowd) = Some (0, [rx_data frame1], [(2, frame1)], []).
Proof. vm_compute. reflexivity. Qed.
Theorem C91_crowded_refuted : exists sch cs ev tr rds, executes words1 sch cs 0 ev tr rds /\ arrivals_at 7 tr = [] /\ taken 0 tr = [(2, frame1)] /\ received "eth0" ev = [rx_data frame1].
Proof.
  exists crowd. pose proof crowded_now as H. destruct (execute words1 crowd) as [[[[[cs r] ev] tr] rds]|] eqn:E; [|discriminate H]. unfold brief in H. apply some_inj in H. apply pair_inj in H. destruct H as [H H3]. apply pair_inj in H. destruct H as [H H2]. apply pair_inj in H. destruct H as [-> H1]. exists cs, ev, tr, rds. split; [apply execute_ok; exact E|]. auto.
Qed.
Print Assumptions C91_crowded_refuted.

(** A state in which the loop is about to read *)
Example C92_no_wait_case : exists rs m tr rest, run [Go 3; Go 7; Go 7; Go 0; Go 0; Go 0; Go 0; Arrive 7 frame1; Wake 1 false yes no yes] (begin rs) = Some (m, tr) /\ m_code m = Recv 0 :: rest.
Proof.
  destruct (parse_cmds words1) as [[cs|]|] eqn:E; try (vm_compute in E; discriminate E). destruct (add_all cs []) as [rs|] eqn:E2.
  - exists rs. vm_compute in E. apply ret_inj, some_inj in E. subst cs. vm_compute in E2. apply ret_inj in E2. subst rs. do 3 eexists. split; [vm_compute; reflexivity|reflexivity].
  - vm_compute in E. apply ret_inj, some_inj in E. subst cs. vm_compute in E2. discriminate E2.
Qed.

(** Properties C85-C88: captures that end whenever they like, and the test that goes on
    meanwhile.  Model: Children.v.  Vocabulary: SpecChildren.v. *)

From Verif Require Import SpecChildren PMain PChildren PChildren4 PChildren5 PChildren6 PropertiesMain.

(** C85: no capture that still runs is forgotten.  One that has not ended when the
    program starts to stop them is sent SIGINT, one that has not ended when the program
    is to kill them is sent SIGTERM. *)
Theorem C85_stopped : forall cmds n tr i p t1 t2 t3, completes cmds n tr ->
  (tr = t1 ++ Forked i p :: t2 ++ Stopping :: t3 -> (forall st, ~ In (Ended i p st) t2) -> In (Sent p SIGINT) t3) /\
  (tr = t1 ++ Forked i p :: t2 ++ Killing :: t3 -> (forall st, ~ In (Ended i p st) t2) -> In (Sent p SIGTERM) t3).
Proof. exact stopped. Qed.
Print Assumptions C85_stopped.

(** None is killed before it has been polled for ten thousand times. *)
Theorem C85_patience : forall cmds n tr p a b, completes cmds n tr -> tr = a ++ Sent p SIGTERM :: b -> Z.of_nat (polls a) = 10000 /\ exists a1 a2, a = a1 ++ Stopping :: a2.
Proof. exact patience. Qed.
Print Assumptions C85_patience.

(** When the program ends, every capture has ended or has been sent both signals and
    been polled for twenty thousand times. *)
Theorem C85_end : forall cmds n tr i p, completes cmds n tr -> In (Forked i p) tr ->
  (exists st, In (Ended i p st) tr) \/ In (Sent p SIGINT) tr /\ In (Sent p SIGTERM) tr /\ Z.of_nat (polls tr) = 20000.
Proof. exact at_the_end. Qed.
Print Assumptions C85_end.

(** C86: no process but a capture that has not been waited for is sent a signal, if no
    capture ends before its start has been noted and no pid is used twice ... *)
Theorem C86_own_partial : forall cmds n tr a p sig b, happens cmds n tr -> noted tr -> distinct tr -> tr = a ++ Sent p sig :: b ->
  exists i, In (Forked i p) a /\ ~ In (Reaped i p) a.
Proof. intros cmds n tr a p sig b (sch & m & E) Hn Hd Ht. exact (own_only _ _ _ _ _ E Hn Hd a _ b Ht). Qed.
Print Assumptions C86_own_partial.

(** ... and each of them is sent it once. *)
Theorem C86_exact_partial : forall cmds n tr t1 t2 t3, completes cmds n tr -> noted tr -> distinct tr -> tr = t1 ++ Stopping :: t2 ++ Killing :: t3 ->
  (forall p, In p (sent SIGINT tr) <-> exists i, In (Forked i p) t1 /\ ~ In (Reaped i p) t1) /\
  (forall p, In p (sent SIGTERM tr) <-> exists i, In (Forked i p) t1 /\ ~ In (Reaped i p) (t1 ++ t2)) /\ NoDup (sent SIGINT tr) /\ NoDup (sent SIGTERM tr).
Proof. exact exact_signals. Qed.
Print Assumptions C86_exact_partial.

(** Waiting for a process that is not there any more, and what is seen of it. *)
Definition patient : list choice := repeat (Go 0) (Z.to_nat 10001).
Definition waiting : list happening := repeat Polled (Z.to_nat 10000).

(** Without "noted": a capture ends at once (tcpdump may not open the interface), before
    its start is noted.  The program goes on to believe it runs, waits twenty seconds for
    it and sends both signals to a pid that is no longer its child's. *)
Definition C86_early : list choice := [Go 0; Go 71; End 0 (WExit 1) 0; Deliver false] ++ repeat (Go 0) 11 ++ patient ++ [Go 0; Go 0] ++ patient.
Theorem C86_early_refuted : exists tr a b c, completes ["tcpdump -i eth0 -w eth0.pcap"]%string 0 tr /\ distinct tr /\
  tr = a ++ Reaped 0 71 :: b ++ Sent 71 SIGINT :: c /\ In (Sent 71 SIGTERM) c /\ Z.of_nat (polls tr) = 20000.
Proof.
  exists ([Forked 0 71; Ended 0 71 (WExit 1); Reaped 0 71; Recorded 0; Slept Ready; Slept RestSeconds; Slept RestMicroseconds; Slept Flush; Stopping; Sent 71 SIGINT] ++ waiting ++ [Killing; Sent 71 SIGTERM] ++ waiting),
    [Forked 0 71; Ended 0 71 (WExit 1)], [Recorded 0; Slept Ready; Slept RestSeconds; Slept RestMicroseconds; Slept Flush; Stopping], (waiting ++ [Killing; Sent 71 SIGTERM] ++ waiting).
  split; [exists C86_early; eexists; split; [vm_compute; reflexivity|reflexivity]|]. split; [vm_compute; constructor; [intros []|constructor]|]. split; [reflexivity|]. split; [|vm_compute; reflexivity].
  apply in_or_app. right. right. left. reflexivity.
Qed.
Print Assumptions C86_early_refuted.

(** Without "distinct": the first capture has been waited for, the second one is given
    its pid.  When the second one ends, the first one is taken to have ended: the second
    one is believed to run, and its pid is sent signals. *)
Definition C86_reuse : list choice := [Go 0; Go 71; Go 0; Go 0; End 0 (WExit 1) 0; Deliver false; Go 0; Go 71; Go 0; Go 0; Go 0; End 0 (WExit 0) 0; Deliver false] ++ repeat (Go 0) 9 ++ patient ++ repeat (Go 0) 3 ++ patient.
Theorem C86_reuse_refuted : exists tr a b c, completes ["tcpdump -i eth0 -w eth0.pcap"; "tcpdump -i eth1 -w eth1.pcap"]%string 0 tr /\ noted tr /\
  tr = a ++ Reaped 1 71 :: b ++ Sent 71 SIGINT :: c /\ In (Sent 71 SIGTERM) c /\ Z.of_nat (polls tr) = 20000.
Proof.
  exists ([Forked 0 71; Recorded 0; Ended 0 71 (WExit 1); Reaped 0 71; Forked 1 71; Recorded 1; Slept Ready; Ended 1 71 (WExit 0); Reaped 1 71; Slept RestSeconds; Slept RestMicroseconds; Slept Flush; Stopping; Sent 71 SIGINT] ++ waiting ++ [Killing; Sent 71 SIGTERM] ++ waiting),
    [Forked 0 71; Recorded 0; Ended 0 71 (WExit 1); Reaped 0 71; Forked 1 71; Recorded 1; Slept Ready; Ended 1 71 (WExit 0)], [Slept RestSeconds; Slept RestMicroseconds; Slept Flush; Stopping], (waiting ++ [Killing; Sent 71 SIGTERM] ++ waiting).
  split; [exists C86_reuse; eexists; split; [vm_compute; reflexivity|reflexivity]|]. split; [apply noted_check; vm_compute; reflexivity|]. split; [reflexivity|]. split; [|vm_compute; reflexivity].
  apply in_or_app. right. right. left. reflexivity.
Qed.
Print Assumptions C86_reuse_refuted.

(** C87: the program comes to an end, whatever its captures do: no schedule goes on for
    longer than this ... *)
Theorem C87_ends : forall cmds n sch m tr, run sch (begin cmds n) = Some (m, tr) -> Z.of_nat (length sch) <= Z.of_nat n + 8 * Z.of_nat (length cmds) + 20011.
Proof. exact always_ends. Qed.
Print Assumptions C87_ends.

(** ... and it needs nobody's help: wherever it is, it can go on to its end by itself. *)
Theorem C87_progress : forall cmds n sch m tr, run sch (begin cmds n) = Some (m, tr) ->
  (m_code m <> [] -> exists m' ev, step (Go (-1)) m = Some (m', ev)) /\
  exists k m' tr', run (repeat (Go (-1)) k) m = Some (m', tr') /\ m_code m' = [].
Proof. intros cmds n sch m tr E. split; [apply never_stuck|exact (finishes _ _ _ _ _ E)]. Qed.
Print Assumptions C87_progress.

(** *** A case for C85-C87: three captures.  The first ends of itself, the second when it
    is told to, the third never: it is sent SIGTERM, and is left. *)
Definition C85_caps : list string := ["tcpdump -i eth0 -w eth0.pcap -c 1"; "tcpdump -i eth1 -w eth1.pcap"; "tcpdump -i eth2 -w eth2.pcap"]%string.
Definition C85_schedule : list choice :=
  [Go 0; Go 71; Go 0; Go 0; Go 0; Go 72; Go 0; Go 0; Go 0; Go 73; Go 0; Go 0; Go 0; Go 0; End 0 (WExit 0) 0; Deliver true; Go 0; Go 0; Go 0; Go 0; Go 0; Go 0; Go 0; Go 0; Go 0; Go 0; End 0 (WSignal 2) 0; Deliver false] ++ patient ++ repeat (Go 0) 3 ++ patient.
Definition C85_before : list happening :=
  [Forked 0 71; Recorded 0; Forked 1 72; Recorded 1; Forked 2 73; Recorded 2; Slept Ready; Round 0; Ended 0 71 (WExit 0); Reaped 0 71; Interrupted 1; Slept RestSeconds; Slept RestMicroseconds; Slept Flush].
Definition C85_trace : list happening :=
  C85_before ++ Stopping :: ([Sent 72 SIGINT; Sent 73 SIGINT; Polled; Ended 1 72 (WSignal 2); Polled; Reaped 1 72] ++ repeat Polled (Z.to_nat 9998)) ++ Killing :: [Sent 73 SIGTERM] ++ waiting.
Example C85_case : completes C85_caps 5 C85_trace /\ noted C85_trace /\ distinct C85_trace.
Proof.
  split; [exists C85_schedule; eexists; split; [vm_compute; reflexivity|reflexivity]|]. split; [apply noted_check; vm_compute; reflexivity|].
  vm_compute. repeat constructor; cbn [In]; intros H; repeat (destruct H as [H|H]; [discriminate H|]); auto.
Qed.
Example C85_signals : sent SIGINT C85_trace = [72; 73] /\ sent SIGTERM C85_trace = [73] /\ Z.of_nat (polls C85_trace) = 20000.
Proof. vm_compute. auto. Qed.

(** C88: the test itself.  It is executed as if the frames had stopped coming at some
    time, and they only seem to stop when a capture has ended. *)
Theorem C88_cut_short : forall args s sch st ev tr, concurrent args s sch = Ret (Some (st, ev, tr)) ->
  exists t, (exists caps ws, getopt args = ORun t caps ws) /\ let e := env_of t s in
  exists k, (k <= length (s_rounds s))%nat /\ ef_main args (MkEnv (e_open e) (firstn k (e_rounds e))) = Ret (st, ev) /\
  (k = length (s_rounds s) \/ exists a b i p x, tr = a ++ Interrupted k :: b /\ In (Ended i p x) a).
Proof. exact cut_short. Qed.
Print Assumptions C88_cut_short.

(** So it is executed as if there were no captures if none ends while it listens ... *)
Theorem C88_undisturbed_partial : forall args s sch st ev tr, concurrent args s sch = Ret (Some (st, ev, tr)) ->
  (forall a k b i p x, tr = a ++ Interrupted k :: b -> ~ In (Ended i p x) a) ->
  exists t, (exists caps ws, getopt args = ORun t caps ws) /\ ef_main args (env_of t s) = Ret (st, ev).
Proof. exact undisturbed. Qed.
Print Assumptions C88_undisturbed_partial.

(** ... as is the case without captures. *)
Theorem C88_none : forall args s sch st ev tr t ws, concurrent args s sch = Ret (Some (st, ev, tr)) -> getopt args = ORun t [] ws -> ef_main args (env_of t s) = Ret (st, ev).
Proof. exact without_captures. Qed.
Print Assumptions C88_none.

(** The program sleeps as long as it means to unless a capture has ended. *)
Theorem C88_sleeps_partial : forall cmds n tr a w b, happens cmds n tr -> tr = a ++ Woken w :: b -> exists i p st, In (Ended i p st) a.
Proof. exact sleeps. Qed.
Print Assumptions C88_sleeps_partial.

(** Two rounds of listening: eth1 can be written, then eth0 has the frame. *)
Definition C88_frame : buf := [0; 0; 0; 0; 0; 1; 0; 0; 0; 0; 0; 1; 170; 170] ++ repeat 0 46.
Definition C88_world : surroundings :=
  MkSur (fun _ => true) [] (MkTv 5 0) (MkTv 5 0)
    [MkTRound 1 (MkTv 5 7) (fun _ => None) (fun j => Nat.eqb j 1) (fun _ => true); MkTRound 1 (MkTv 5 900) (fun j => if Nat.eqb j 0 then Some (MkRx C88_frame None) else None) (fun _ => false) (fun _ => true)]
    (MkTv 6 0) [] [] [].
Definition C88_args : list string := ["-c"; "eth1,,,,1"; "-t"; "1000"; "rx"; "eth0"; "eth"; "dmac"; "::1"; "tx"; "eth1"; "eth"; "dmac"; "::1"]%string.

(** The capture is to end after one frame.  If it ends later than the test, the test
    passes ... *)
Definition C88_late : list choice := repeat (Go 71) 12 ++ [End 0 (WExit 0) 0; Deliver false] ++ repeat (Go 0) 7.
Example C88_case : exists ev tr, concurrent C88_args C88_world C88_late = Ret (Some (0, ev, tr)) /\
  tr = [Forked 0 71; Recorded 0; Slept Ready; Round 0; Round 1; Slept RestSeconds; Slept RestMicroseconds; Slept Flush; Ended 0 71 (WExit 0); Reaped 0 71; Stopping; Polled; Killing; Polled].
Proof. do 2 eexists. split; vm_compute; reflexivity. Qed.
(** ... if it ends when the frame has been sent, the program stops listening, and the
    test fails.  Without the capture it passes. *)
Definition C88_early : list choice := repeat (Go 71) 6 ++ [End 0 (WExit 0) 0; Deliver true] ++ repeat (Go 0) 10.
Theorem C88_refuted : exists ev tr, concurrent C88_args C88_world C88_early = Ret (Some (1, ev, tr)) /\ In (EvNoRx "eth0" C88_frame None None) ev /\
  tr = [Forked 0 71; Recorded 0; Slept Ready; Round 0; Ended 0 71 (WExit 0); Reaped 0 71; Interrupted 1; Slept RestSeconds; Slept RestMicroseconds; Stopping; Polled; Killing; Polled] /\
  exists ev0, ef_main C88_args (env_of 1000 C88_world) = Ret (0, ev0).
Proof.
  do 2 eexists. split; [vm_compute; reflexivity|]. split; [|split; [reflexivity|]].
  - repeat (try (left; reflexivity); right).
  - eexists. vm_compute. reflexivity.
Qed.
Print Assumptions C88_refuted.

(** A capture that cannot be started is not reported: the same status, and no file. *)
Theorem C88_unstarted_refuted : exists ev tr, concurrent C88_args C88_world (repeat (Go (-1)) 16) = Ret (Some (0, ev, tr)) /\ In (NoFork 0) tr /\ forall i p, ~ In (Forked i p) tr.
Proof.
  do 2 eexists. split; [vm_compute; reflexivity|]. split; [left; reflexivity|]. intros i p H. repeat (destruct H as [H|H]; [discriminate H|]). exact H.
Qed.
Print Assumptions C88_unstarted_refuted.

(** Property C89: how often the test is executed when the shell for a capture is not there.
    Model: Forest.v.  Vocabulary: SpecForest.v. *)

From Verif Require Import SpecForest PForest2 PropertiesMain.

(** C89.  Full claim: the test is executed once.  It is if every shell that is meant to be
    executed can be: then there is one process, and it does what [session] says. *)
Theorem C89_single_partial : forall args fk sur l, crowd args fk sur = Ret l -> (forall i p, fk [] i <> Worked p false) ->
  (forall m caps ws i, getopt args = ORun m caps ws -> (i < length caps)%nat -> nth i (s_pids (sur [])) (-1) = match fk [] i with Worked p _ => Zpos p | Failed => -1 end) ->
  l = [([], session args (sur []))].
Proof. exact crowd_single. Qed.
Print Assumptions C89_single_partial.

(** Otherwise there is one more process for every shell that could not be executed ... *)
Theorem C89_processes : forall args fk sur l m caps ws cs, crowd args fk sur = Ret l -> getopt args = ORun m caps ws -> parse_cmds ws = Ret (Some cs) ->
  NoDup (map fst l) /\ forall who, In who (map fst l) <-> process fk (length caps) who.
Proof. exact crowd_processes. Qed.
Print Assumptions C89_processes.

(** ... so that their number doubles with every capture if there is no shell; ... *)
Theorem C89_doubled : forall args fk sur l m caps ws cs, crowd args fk sur = Ret l -> getopt args = ORun m caps ws -> parse_cmds ws = Ret (Some cs) ->
  (forall who i, exists p, fk who i = Worked p false) -> length l = (2 ^ length caps)%nat.
Proof. exact crowd_doubled. Qed.
Print Assumptions C89_doubled.

(** ... each of them executes all commands of the line; ... *)
Theorem C89_tests : forall args fk sur l m caps ws cs who o, crowd args fk sur = Ret l -> getopt args = ORun m caps ws -> parse_cmds ws = Ret (Some cs) -> In (who, o) l ->
  match exec_cmds cs (env_of m (sur who)) with
  | Ret (r, ev) => exists acts, o = Ret (exit_status r, acts) /\ happened acts = ev
  | Crash c => o = Crash c
  end.
Proof. exact crowd_tests. Qed.
Print Assumptions C89_tests.

(** ... and in the end sends SIGINT to what it believes to be its captures: those started
    by itself or by its parents before it came into being, be they captures or processes
    like itself, unless it has waited for a child of that number. *)
Theorem C89_signals : forall args fk sur l m caps ws cs who st acts p, crowd args fk sur = Ret l -> getopt args = ORun m caps ws -> parse_cmds ws = Ret (Some cs) -> In (who, Ret (st, acts)) l ->
  (In (Kill (Zpos p) SIGINT) acts -> exists j x, (j < length caps)%nat /\ ~ In j who /\ fk (back_then who j) j = Worked p x) /\
  (forall j x, (j < length caps)%nat -> ~ In j who -> fk (back_then who j) j = Worked p x -> ~ In (Zpos p) (map fst (s_before (sur who))) -> In (Kill (Zpos p) SIGINT) acts).
Proof. exact crowd_signals. Qed.
Print Assumptions C89_signals.

(** Three captures, the second of which cannot be executed; all processes find that eth0
    can be written. *)
Definition C89_args : list string := ["-c"; "eth1"; "-c"; "eth2"; "-c"; "eth3"; "tx"; "eth0"; "eth"; "dmac"; "::1"]%string.
Definition C89_world : surroundings :=
  MkSur (fun _ => true) [71; 72; 73] (MkTv 5 0) (MkTv 5 0) [MkTRound 1 (MkTv 5 7) (fun _ => None) (fun _ => true) (fun _ => true)] (MkTv 6 0) [] [] [].
Definition C89_one (who : list nat) (i : nat) : forking :=
  match who, i with
  | [], 0%nat => Worked 71 true
  | [], 1%nat => Worked 72 false
  | [], _ => Worked 73 true
  | _, _ => Worked 74 true
  end.
Definition C89_all (who : list nat) (i : nat) : forking := Worked 75 false.
Definition C89_good (who : list nat) (i : nat) : forking := Worked (Pos.of_nat (71 + i)) true.

Example C89_case : (exists l, crowd C89_args C89_good (fun _ => C89_world) = Ret l) /\ (forall i p, C89_good [] i <> Worked p false) /\
  (forall i, (i < 3)%nat -> nth i (s_pids C89_world) (-1) = match C89_good [] i with Worked p _ => Zpos p | Failed => -1 end) /\
  exists l, crowd C89_args C89_all (fun _ => C89_world) = Ret l /\ length l = 8%nat.
Proof.
  split; [eexists; vm_compute; reflexivity|]. split; [intros i p H; discriminate H|]. split.
  - intros i Hi. destruct i as [|[|[|i]]]; [reflexivity|reflexivity|reflexivity|lia].
  - eexists. split; vm_compute; reflexivity.
Qed.

(** The frame is sent twice.  The second process signals a capture it did not start; the
    first one signals the second process. *)
Theorem C89_refuted : exists a1 a2, crowd C89_args C89_one (fun _ => C89_world) = Ret [([], Ret (0, a1)); ([1%nat], Ret (0, a2))] /\
  (exists b, In (Happens (EvSend "eth0" b true)) a1 /\ In (Happens (EvSend "eth0" b true)) a2) /\
  In (Kill 71 SIGINT) a2 /\ (forall c, ~ In (Start c 71) a2) /\ In (Kill 72 SIGINT) a1.
Proof.
  do 2 eexists. split; [vm_compute; reflexivity|]. split; [|split; [|split]].
  - eexists. split; repeat (try (left; reflexivity); right).
  - repeat (try (left; reflexivity); right).
  - intros c H. repeat (destruct H as [H|H]; [discriminate H|]). exact H.
  - repeat (try (left; reflexivity); right).
Qed.
Print Assumptions C89_refuted.

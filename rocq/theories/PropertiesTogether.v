(** Property C95: the program with its captures and its sockets at once (vocabulary:
    SpecTogether.v, SpecWire.v, SpecSockets.v, SpecChildren.v; model: Together.v). *)

From Verif Require Import BaseFacts SpecTogether PTogether PTogether2 PropertiesWish PropertiesTest PropertiesWire.

(** Whatever happens, the program does what C91-C94 say of its sockets and what C85-C88 say
    of its captures; its status is the test's result, modulo 256. *)
Theorem C95_parts : forall args sch st ev tr, program args sch = Ret (Some (st, ev, tr)) ->
  exists t caps ws cs r rds, getopt args = ORun t caps ws /\ executes ws (flat_map net_of sch) cs r ev (net_seen tr) rds /\ st = r mod 256 /\
    SpecChildren.completes (map (fun c => fst (capture_add c)) caps) 0 (child_seen tr).
Proof. exact program_parts. Qed.
Print Assumptions C95_parts.

(** The captures cover the test: before the first socket is opened, or anything else is done
    for the test, each capture runs or could not be started, and they have been given time;
    none is started later; and until the test is over none is stopped. *)
Theorem C95_covered : forall args sch st ev tr t caps ws a x b, program args sch = Ret (Some (st, ev, tr)) -> getopt args = ORun t caps ws -> tr = a ++ x :: b -> of_test x = true ->
  (forall i, (i < length caps)%nat -> In (OfChild (Children.Recorded i)) a \/ In (OfChild (Children.NoFork i)) a) /\
  (caps <> [] -> In (OfChild (Children.Slept Children.Ready)) a \/ In (OfChild (Children.Woken Children.Ready)) a) /\
  (forall i p, ~ In (OfChild (Children.Forked i p)) b) /\ (forall h, In h [Children.Stopping; Children.Killing; Children.Polled] -> ~ In (OfChild h) a) /\ (forall p sig, ~ In (OfChild (Children.Sent p sig)) a).
Proof. exact program_covered. Qed.
Print Assumptions C95_covered.

(** Listening is interrupted at most once, only after a capture has ended, and no frame is
    read afterwards. *)
Theorem C95_broken : forall args sch st ev tr a b, program args sch = Ret (Some (st, ev, tr)) -> tr = a ++ Broken :: b ->
  (exists i p x, In (OfChild (Children.Ended i p x)) a) /\ (forall i m, ~ In (OfNet (Sockets.Taken i m)) b) /\ ~ In Broken a /\ ~ In Broken b.
Proof. exact program_broken. Qed.
Print Assumptions C95_broken.

(** Without captures it is not interrupted. *)
Theorem C95_alone : forall args sch st ev tr t ws, program args sch = Ret (Some (st, ev, tr)) -> getopt args = ORun t [] ws -> ~ In Broken tr.
Proof. exact program_alone. Qed.
Print Assumptions C95_alone.

(** Any execution of the test (C91) goes together with any life of the captures in which
    they do not end while the program listens. *)
Theorem C95_every : forall args t caps ws schN cs r ev trN rds trC, getopt args = ORun t caps ws -> executes ws schN cs r ev trN rds ->
  SpecChildren.completes (map (fun c => fst (capture_add c)) caps) 0 trC -> (forall k, ~ In (Children.Interrupted k) trC) ->
  exists sch tr, program args sch = Ret (Some (r mod 256, ev, tr)) /\ child_seen tr = trC /\ net_seen tr = trN /\ ~ In Broken tr /\ flat_map net_of sch = schN.
Proof. exact every_way. Qed.
Print Assumptions C95_every.

(** What the test does and says with captures, it may do and say without them. *)
Theorem C95_aside : forall args args' sch st ev tr t t' caps ws, program args sch = Ret (Some (st, ev, tr)) -> getopt args = ORun t caps ws -> getopt args' = ORun t' [] ws ->
  exists sch' tr', program args' sch' = Ret (Some (st, ev, tr')) /\ net_seen tr' = net_seen tr.
Proof. exact captures_aside. Qed.
Print Assumptions C95_aside.

(** Full claim: with options and captures anywhere among the words of a test, the exit status
    is 0 exactly if the frames that arrive at each interface that is listened to, until the
    time is up, pair off with the frames expected there.

    Status 0: as many frames as are expected were read from the interface, and they are the
    first that arrived there. *)
Theorem C95_passed_partial : forall ps T sch ev tr i ifn ix since, Forall part_ok ps -> flat_map operand_of ps = line T -> proper T -> Forall fair sch ->
  program (flat_map SpecMain.part_words ps) sch = Ret (Some (0, ev, tr)) -> few_read T (net_seen tr) -> nth_error (used T) i = Some ifn -> listening ifn T -> listens i ix (net_seen tr) since ->
  length (SpecSockets.taken i (net_seen tr)) = length (to_expect ifn T) /\ as_expected ifn T (firstn (length (to_expect ifn T)) (on_wire ix since)).
Proof. exact words_passed. Qed.
Print Assumptions C95_passed_partial.

(** When everything that arrives is read, the status is 0 exactly if it is what was
    expected. *)
Theorem C95_exactly_partial : forall ps T sch st ev tr, Forall part_ok ps -> flat_map operand_of ps = line T -> proper T -> distinguishable T -> Forall fair sch ->
  program (flat_map SpecMain.part_words ps) sch = Ret (Some (st, ev, tr)) -> few_read T (net_seen tr) -> ~ trouble (net_seen tr) -> all_read T (net_seen tr) -> (st = 0 <-> all_as_expected T (net_seen tr)).
Proof. exact words_exactly. Qed.
Print Assumptions C95_exactly_partial.

(** However many frames arrive and whenever captures end: besides the turns of the loop there
    are about 20000 steps, 10000 more for every interface and eight for every capture. *)
Theorem C95_steps : forall ps sch cs s tr, starts_with ps sch cs s tr -> let n := Z.of_nat (length (interfaces cs)) in
  number counts sch <= 8 * Z.of_nat (length (flat_map capture_of ps)) + 20011 + 10008 * n + 1 + (n + 2) * number wakes sch.
Proof. exact program_steps. Qed.
Print Assumptions C95_steps.

(** Full claim: whatever has happened, from any point on the program can come to its end by
    itself.  It holds for lines without "padding", if the frames are as long as their tags say
    and sending does not fail (C57). *)
Theorem C95_ends_partial : forall ps sch cs s tr, starts_with ps sch cs s tr -> no_padding cs -> Forall tame sch ->
  exists sch2 st ev tr2, program (flat_map SpecMain.part_words ps) (sch ++ sch2) = Ret (Some (st, ev, tr ++ tr2)) /\ Forall on_its_own sch2.
Proof. exact program_ends. Qed.
Print Assumptions C95_ends_partial.

(** ** A test with a capture: the frame arrives and is read, the capture is stopped *)
Definition C95_parts_of_line : list SpecMain.part := Capture "eth9"%string :: map Operand (line C94_small).
Definition going (n : nat) : list act := repeat (Child (Children.Go 100)) n.
Definition C95_late : list act := going 5 ++ map Net C94_small_schedule ++ going 8 ++ [Child (Children.End 0 (WSignal 2) 0)] ++ going 4.
(** The capture ends while the program waits in select; the frame arrives before the socket
    is closed. *)
Definition C95_early : list act :=
  going 5 ++ map Net [Sockets.Go 3; Sockets.Go 7; Sockets.Go 7; Sockets.Go 0; Sockets.Go 0; Sockets.Go 0; Sockets.Go 0] ++ [Child (Children.End 0 (WExit 1) 0); Break; Net (Sockets.Arrive 7 C94_one); Net (Sockets.Go 0)] ++ going 11.


Lemma C95_fair : Forall fair C95_late /\ Forall fair C95_early.
Proof.
  destruct C94_sized as [S1 _]. split; unfold C95_late, C95_early, going, C94_small_schedule; cbn [repeat map app]; repeat (constructor; [cbn [fair smooth]; auto|]); constructor.
Qed.
Lemma C95_parts_ok : Forall part_ok C95_parts_of_line.
Proof. unfold C95_parts_of_line. constructor; [exact I|]. apply Forall_forall. intros p Hp. vm_compute in Hp. repeat (destruct Hp as [<-|Hp]; [cbn [part_ok]; intros c x H; discriminate H|]). destruct Hp. Qed.

Definition status_of (o : out (option (Z * list event * list sight))) : option Z := match o with Ret (Some (st, _, _)) => Some st | _ => None end.
Definition trace_of (o : out (option (Z * list event * list sight))) : list sight := match o with Ret (Some (_, _, tr)) => tr | _ => [] end.
Definition said_of (o : out (option (Z * list event * list sight))) : list event := match o with Ret (Some (_, ev, _)) => ev | _ => [] end.
Lemma ran : forall o st, status_of o = Some st -> o = Ret (Some (st, said_of o, trace_of o)).
Proof. intros [[[[st0 ev] tr]|]|] st H; try discriminate H. injection H as <-. reflexivity. Qed.

Notation C95_run sch := (program (flat_map SpecMain.part_words C95_parts_of_line) sch).
Lemma C95_listens : forall sch, firstn 5 (net_seen (trace_of (C95_run sch))) = [Sockets.Opened 0 3; Sockets.Index 0 false 7; Sockets.Index 0 true 7; Sockets.Bound 0 7; Sockets.Usable 0 3] ->
  Z.of_nat (length (SpecSockets.dropped 0 (net_seen (trace_of (C95_run sch))))) < 10000 -> untagged 0 (net_seen (trace_of (C95_run sch))) = false ->
  listens 0 7 (net_seen (trace_of (C95_run sch))) (skipn 5 (net_seen (trace_of (C95_run sch)))).
Proof.
  intros sch H1 H2 H3. exists 3, [], [Sockets.Index 0 false 7; Sockets.Index 0 true 7], []. split; [|split; [lia|split; [intros []|auto]]]. rewrite <- (firstn_skipn 5 (net_seen (trace_of (C95_run sch)))) at 1. rewrite H1. reflexivity.
Qed.

Lemma untroubled : forall tr, forallb (fun h => match h with Sockets.NotOpened _ | Sockets.Refused _ => false | _ => true end) tr = true -> ~ trouble tr.
Proof. intros tr H [k [X|X]]; rewrite forallb_forall in H; apply H in X; discriminate X. Qed.

Definition C95_seen : list sight := trace_of (C95_run C95_late).
Lemma C95_ran : C95_run C95_late = Ret (Some (0, said_of (C95_run C95_late), C95_seen)).
Proof. apply ran. vm_compute. reflexivity. Qed.
Lemma C95_heard : listens 0 7 (net_seen C95_seen) (skipn 5 (net_seen C95_seen)).
Proof. apply C95_listens; vm_compute; reflexivity. Qed.
Lemma C95_few : few_read C94_small (net_seen C95_seen).
Proof. apply Nat.ltb_lt. vm_compute. reflexivity. Qed.
Lemma C95_untroubled : ~ trouble (net_seen C95_seen).
Proof. apply untroubled. vm_compute. reflexivity. Qed.
Lemma C95_wire : on_wire 7 (skipn 5 (net_seen C95_seen)) = [rx_data C94_one] /\ length (SpecSockets.taken 0 (net_seen C95_seen)) = 1%nat.
Proof. split; vm_compute; reflexivity. Qed.
Lemma C95_opened : C95_seen = firstn 3 C95_seen ++ OfNet (Sockets.Opened 0 3) :: skipn 4 C95_seen.
Proof. vm_compute. reflexivity. Qed.
Lemma C95_stopped : SpecChildren.sent SIGINT (child_seen C95_seen) = [100].
Proof. vm_compute. reflexivity. Qed.

Example C95_case : Forall part_ok C95_parts_of_line /\ flat_map operand_of C95_parts_of_line = line C94_small /\ flat_map capture_of C95_parts_of_line = ["eth9"%string] /\ proper C94_small /\ distinguishable C94_small /\ Forall fair C95_late /\
  exists ev tr since, program (flat_map SpecMain.part_words C95_parts_of_line) C95_late = Ret (Some (0, ev, tr)) /\ few_read C94_small (net_seen tr) /\ ~ trouble (net_seen tr) /\ all_read C94_small (net_seen tr) /\
    listens 0 7 (net_seen tr) since /\ on_wire 7 since = [rx_data C94_one] /\ SpecChildren.sent SIGINT (child_seen tr) = [100] /\ exists a b, tr = a ++ OfNet (Sockets.Opened 0 3) :: b.
Proof.
  destruct C94_passes_case as [PR [DI _]]. split; [apply C95_parts_ok|]. split; [reflexivity|]. split; [reflexivity|]. split; [exact PR|]. split; [exact DI|]. split; [apply C95_fair|].
  exists (said_of (C95_run C95_late)), C95_seen, (skipn 5 (net_seen C95_seen)). split; [exact C95_ran|]. split; [exact C95_few|]. split; [exact C95_untroubled|]. destruct C95_wire as [W1 W2]. split.
  { intros i ifn HI HL. destruct i as [|i]; [|destruct i; discriminate HI]. exists 7, (skipn 5 (net_seen C95_seen)). split; [exact C95_heard|]. rewrite W1, W2. reflexivity. }
  split; [exact C95_heard|]. split; [exact W1|]. split; [exact C95_stopped|]. eexists. eexists. exact C95_opened.
Qed.

Example C95_every_case : exists t caps ws cs r ev trN rds trC schN, getopt (flat_map SpecMain.part_words C95_parts_of_line) = ORun t caps ws /\ caps <> [] /\ executes ws schN cs r ev trN rds /\
  SpecChildren.completes (map (fun c => fst (capture_add c)) caps) 0 trC /\ (forall k, ~ In (Children.Interrupted k) trC) /\ trC = child_seen C95_seen.
Proof.
  destruct (C95_parts _ _ _ _ _ C95_ran) as [t [caps [ws [cs [r [rds [A [B [_ D]]]]]]]]]. exists t, caps, ws, cs, r, (said_of (C95_run C95_late)), (net_seen C95_seen), rds, (child_seen C95_seen), (flat_map net_of C95_late).
  split; [exact A|]. split; [intros ->; vm_compute in A; discriminate A|]. split; [exact B|]. split; [exact D|]. split; [|reflexivity].
  intros k X. assert (N : forallb (fun h => match h with Children.Interrupted _ => false | _ => true end) (child_seen C95_seen) = true) by (vm_compute; reflexivity). rewrite forallb_forall in N. apply N in X. discriminate X.
Qed.

(** The capture ends, and a test fails although all that is expected arrives while its
    interface is listened to. *)
Theorem C95_early_refuted : exists ps T sch ev tr since, Forall part_ok ps /\ flat_map operand_of ps = line T /\ proper T /\ distinguishable T /\ Forall fair sch /\
  program (flat_map SpecMain.part_words ps) sch = Ret (Some (1, ev, tr)) /\ few_read T (net_seen tr) /\ ~ trouble (net_seen tr) /\ used T = ["eth0"%string] /\ listens 0 7 (net_seen tr) since /\ as_expected "eth0" T (on_wire 7 since) /\ In Broken tr.
Proof.
  destruct C94_passes_case as [PR [DI _]]. exists C95_parts_of_line, C94_small, C95_early, (said_of (C95_run C95_early)), (trace_of (C95_run C95_early)), (skipn 5 (net_seen (trace_of (C95_run C95_early)))). split; [apply C95_parts_ok|]. split; [reflexivity|]. split; [exact PR|]. split; [exact DI|]. split; [apply C95_fair|].
  assert (S : status_of (C95_run C95_early) = Some 1) by (vm_compute; reflexivity). split; [exact (ran _ _ S)|]. split; [vm_compute; lia|]. split; [apply untroubled; vm_compute; reflexivity|]. split; [reflexivity|].
  split; [apply C95_listens; vm_compute; reflexivity|]. split; [|vm_compute; tauto].
  destruct C95_case as [A [B [_ [C [D [E [ev [tr [since [F [G [_ [_ [J [K _]]]]]]]]]]]]]]]. destruct (C95_passed_partial _ _ _ _ _ 0 "eth0"%string 7 since A B C E F G eq_refl (or_intror (ex_intro _ _ (or_introl eq_refl))) J) as [_ X]. rewrite K in X.
  replace (on_wire 7 (skipn 5 (net_seen (trace_of (C95_run C95_early))))) with [rx_data C94_one] by (vm_compute; reflexivity). exact X.
Qed.
Print Assumptions C95_early_refuted.

(** In the middle: the socket is in use, the capture runs, a frame has arrived. *)
Definition part_way (ps : list SpecMain.part) (sch : list act) : option (list cmd * state * list sight) :=
  match parse_cmds (flat_map operand_of ps) with
  | Ret (Some cs) =>
      if (length (undefined_refs cs) =? 0)%nat then
        match add_all (map (PPair.paired cs) cs) [] with
        | Ret rs => match run sch (begin (map (fun c => fst (capture_add c)) (flat_map capture_of ps)) rs) with Some (s, tr) => Some (map (PPair.paired cs) cs, s, tr) | None => None end
        | Crash _ => None
        end
      else None
  | _ => None
  end.
Lemma part_way_ok : forall ps sch cs s tr, part_way ps sch = Some (cs, s, tr) -> Forall part_ok ps -> starts_with ps sch cs s tr.
Proof.
  intros ps sch cs s tr H HP. unfold part_way in H. destruct (parse_cmds _) as [[cs0|]|] eqn:EP; try discriminate. destruct (_ =? _)%nat eqn:EU; [|discriminate]. destruct (add_all (map (PPair.paired cs0) cs0) []) as [rs|] eqn:EA; [|discriminate]. destruct (run sch _) as [[m0 tr0]|] eqn:ER; [|discriminate].
  apply some_inj in H. do 2 (apply pair_inj in H; destruct H as [H ?]). subst. split; [auto|]. exists cs0, rs. split; [auto|]. split; [|auto]. apply Nat.eqb_eq in EU. apply PPair.Forall2_map_filled. intros c Hc. apply PPair.undefined_nil; auto. destruct (undefined_refs cs0); [auto|discriminate].
Qed.

Definition C95_half : list act := firstn 13 C95_late.
Example C95_middle : exists cs s tr, starts_with C95_parts_of_line C95_half cs s tr /\ no_padding cs /\ Forall tame C95_half /\ testing s = true /\ over s = false /\ number counts C95_half = 12.
Proof.
  destruct (part_way C95_parts_of_line C95_half) as [[[cs s] tr]|] eqn:E; [|vm_compute in E; discriminate E]. pose proof (part_way_ok _ _ _ _ _ E C95_parts_ok) as U. vm_compute in E. apply some_inj in E. do 2 (apply pair_inj in E; destruct E as [E ?]). subst. do 3 eexists. split; [exact U|]. clear U.
  split; [intros c f [<-|[]] Hf; cbn [c_frame] in Hf; apply some_inj in Hf; subst f; reflexivity|]. split; [|auto]. unfold C95_half, C95_late, going, C94_small_schedule. cbn [repeat map app firstn]. repeat (constructor; [cbn [tame behaved smooth]; try exact I; try (intros X; destruct X; reflexivity); auto|]). constructor.
Qed.

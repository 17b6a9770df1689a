(** Property C90: the exit status of the program, run with captures and options on a test
    written in words, tells whether the frames on the wire were as the words say.
    Vocabulary: SpecProgram.v, SpecTest.v, SpecMain.v, SpecChildren.v. *)

From Coq Require Import Permutation.
From Verif Require Import SpecMain SpecChildren BaseFacts Frame SpecParse Exec SpecExec SpecForm SpecWish SpecTest SpecProgram PProgram PropertiesWish PropertiesTest PropertiesExec.

(** The words of the test, with options between them.  Whatever the captures do: the
    program listens for all the rounds, or for the first [k] of them if a capture has
    ended by then; in the frames of these rounds it judges the test.  (Full statement: for
    all the rounds, and any number of frames.) *)
Theorem C90_status_partial : forall ps T s sch st ev tr, Forall part_ok ps -> flat_map operand_of ps = line T ->
  let e := env_of (last (flat_map time_of ps) 100) s in proper T -> healthy T e -> few T e ->
  concurrent (flat_map SpecMain.part_words ps) s sch = Ret (Some (st, ev, tr)) ->
  exists k, (k = length (s_rounds s) \/ (k < length (s_rounds s))%nat /\ exists a b i p x, tr = a ++ Interrupted k :: b /\ In (Ended i p x) a) /\
    argc_cmds (line T) (cut k e) = Ret (st, ev) /\
    (st = 0 -> all_satisfied T (cut k e)) /\ (distinguishable T -> all_satisfied T (cut k e) -> st = 0).
Proof. exact program_status. Qed.
Print Assumptions C90_status_partial.

(** All the rounds, if no capture ends while the program listens. *)
Theorem C90_undisturbed_partial : forall ps T s sch st ev tr, Forall part_ok ps -> flat_map operand_of ps = line T ->
  let e := env_of (last (flat_map time_of ps) 100) s in proper T -> healthy T e -> few T e ->
  concurrent (flat_map SpecMain.part_words ps) s sch = Ret (Some (st, ev, tr)) ->
  (forall a k b i p x, tr = a ++ Interrupted k :: b -> ~ In (Ended i p x) a) ->
  argc_cmds (line T) e = Ret (st, ev) /\ (st = 0 -> all_satisfied T e) /\ (distinguishable T -> all_satisfied T e -> st = 0).
Proof. exact program_undisturbed. Qed.
Print Assumptions C90_undisturbed_partial.

(** Whatever has happened so far, the program can go on to its end and give a status. *)
Theorem C90_ends : forall ps T s, Forall part_ok ps -> flat_map operand_of ps = line T ->
  proper T -> healthy T (env_of (last (flat_map time_of ps) 100) s) ->
  forall sch m tr, run sch (begin (map (fun c => fst (capture_add c)) (flat_map capture_of ps)) (length (s_rounds s))) = Some (m, tr) ->
  exists sch' st ev tr', concurrent (flat_map SpecMain.part_words ps) s (sch ++ sch') = Ret (Some (st, ev, tr ++ tr')).
Proof. exact program_ends. Qed.
Print Assumptions C90_ends.

(** *** A case: the test of C84, with a time-out, a capture and an option in the middle *)
Definition C90_parts : list SpecMain.part :=
  Time1 "300" :: Capture "eth1" :: map Operand (firstn 6 (line C84_case)) ++ Time "1000" :: map Operand (skipn 6 (line C84_case)).
Definition C90_world : surroundings :=
  MkSur (fun _ => true) [] (MkTv 5 0) (MkTv 5 0)
    (map (fun rd => MkTRound 1 (MkTv 5 7) (rd_rx rd) (fun _ => true) (fun _ => true)) C84_rounds) (MkTv 6 0) [] [] [].

(** Both frames have arrived, and the capture is stopped at the end: status 0.  If the
    capture ends after the first frame, the other one is missing: status 1, and what
    arrived in the first round does not satisfy the test. *)
Definition C90_late : list choice := repeat (Go 71) 12 ++ [End 0 (WExit 0) 0; Deliver false] ++ repeat (Go 0) 7.
Definition C90_early : list choice := repeat (Go 71) 6 ++ [End 0 (WExit 0) 0; Deliver true] ++ repeat (Go 0) 10.

Example C90_case : Forall part_ok C90_parts /\ flat_map operand_of C90_parts = line C84_case /\ proper C84_case /\
  last (flat_map time_of C90_parts) 100 = 1000 /\ healthy C84_case (env_of 1000 C90_world) /\ few C84_case (env_of 1000 C90_world) /\
  exists ev tr ev' tr', concurrent (flat_map SpecMain.part_words C90_parts) C90_world C90_late = Ret (Some (0, ev, tr)) /\
    concurrent (flat_map SpecMain.part_words C90_parts) C90_world C90_early = Ret (Some (1, ev', tr')).
Proof.
  assert (E : env_of 1000 C90_world = MkEnv (fun _ => true) (e_rounds (env_of 1000 C90_world))) by reflexivity.
  split; [|split; [reflexivity|split; [apply C84_case_proper|split; [reflexivity|split; [|split]]]]].
  - apply Forall_forall. intros p Hp. unfold C90_parts in Hp. vm_compute in Hp. repeat (destruct Hp as [<-|Hp]; [cbn [part_ok]; try exact I; try (intros H; discriminate H); try (intros c x H; discriminate H)|]). destruct Hp.
  - destruct C84_case_run as [H _]. constructor; [reflexivity|intros rd k [<-|[<-|[]]]; reflexivity|].
    intros rd i m [<-|[<-|[]]] Hm; [apply (hl_rx _ _ H (nth 0 C84_rounds (MkRound 0 false (fun _ => None) (fun _ => true) (fun _ => true))) i m)|apply (hl_rx _ _ H (nth 1 C84_rounds (MkRound 0 false (fun _ => None) (fun _ => true) (fun _ => true))) i m)]; try exact Hm; [left; reflexivity|right; left; reflexivity].
  - vm_compute. lia.
  - do 4 eexists. split; vm_compute; reflexivity.
Qed.

(** All that is expected would have arrived, but the capture ended before: status 1. *)
Theorem C90_early_refuted : exists ps T s sch ev tr, Forall part_ok ps /\ flat_map operand_of ps = line T /\ proper T /\
  let e := env_of (last (flat_map time_of ps) 100) s in healthy T e /\ few T e /\ all_satisfied T e /\
  concurrent (flat_map SpecMain.part_words ps) s sch = Ret (Some (1, ev, tr)).
Proof.
  destruct C90_case as (A & B & C & D & E & F & ev & tr & ev' & tr' & G & H). exists C90_parts, C84_case, C90_world, C90_early, ev', tr'.
  split; [exact A|]. split; [exact B|]. split; [exact C|]. cbv zeta. rewrite D. split; [exact E|]. split; [exact F|]. split; [|exact H].
  assert (R : exists ev, argc_cmds (line C84_case) (env_of 1000 C90_world) = Ret (0, ev)) by (eexists; vm_compute; reflexivity).
  destruct R as [ev0 R]. eapply C84_verdict; eauto.
Qed.
Print Assumptions C90_early_refuted.

(** Nothing is expected, 256 frames arrive: status 0. *)
Theorem C90_many_refuted : exists ps T s sch ev tr, Forall part_ok ps /\ flat_map operand_of ps = line T /\ proper T /\
  let e := env_of (last (flat_map time_of ps) 100) s in healthy T e /\ flat_map capture_of ps = [] /\ ~ all_satisfied T e /\
  concurrent (flat_map SpecMain.part_words ps) s sch = Ret (Some (0, ev, tr)).
Proof.
  exists [Operand "rx"; Operand "eth0"]%string, [Nothing "eth0"]%string, (MkSur (fun _ => true) [] (MkTv 5 0) (MkTv 5 0)
    (repeat (MkTRound 1 (MkTv 5 7) (fun j => if Nat.eqb j 0 then Some (MkRx (repeat 0 60) None) else None) (fun _ => true) (fun _ => true)) 256) (MkTv 6 0) [] [] []), (repeat (Go (-1)) 263).
  do 2 eexists. split; [repeat (apply Forall_cons; [intros c x H; discriminate H|]); apply Forall_nil|]. split; [reflexivity|]. split; [|split; [|split; [reflexivity|split]]].
  - constructor.
    + intros x ws [<-|[]] [].
    + intros x n [<-|[]] [].
    + intros ifn w k n x [H|[]]; discriminate H.
    + intros A ifn n ws B H. destruct A as [|a [|a' A]]; discriminate H.
    + intros ifn [rep [x [H|[]]]]; discriminate H.
    + vm_compute. lia.
  - constructor; [reflexivity| |].
    + intros rd k H. unfold env_of in H. cbn [e_rounds s_rounds] in H. apply in_map_iff in H. destruct H as [x [<- H]]. apply repeat_spec in H. subst x. reflexivity.
    + intros rd i m H Hm. unfold env_of in H. cbn [e_rounds s_rounds] in H. apply in_map_iff in H. destruct H as [x [<- H]]. apply repeat_spec in H. subst x. cbn [timed rd_rx tr_rx] in Hm. destruct (Nat.eqb i 0); [|discriminate Hm]. apply some_inj in Hm. subst m. split; [split; [vm_compute; auto|intros K; destruct K; reflexivity]|].
      apply Forall_forall. intros x Hx. apply repeat_spec in Hx. subst x. unfold is_byte. lia.
  - intros H. destruct (H 0%nat "eth0"%string eq_refl (or_introl (or_introl eq_refl))) as [W [P Q]]. apply Permutation_nil in P. subst W. inversion Q.
  - vm_compute. reflexivity.
Qed.
Print Assumptions C90_many_refuted.

(** Property C94: a test in words and the frames that arrive at the interfaces (vocabulary:
    SpecWire.v, SpecTest.v, SpecSockets.v; model: Sockets.v). *)

From Coq Require Import Permutation.
From Verif Require Import BaseFacts SpecWire PSockets7 PWire PropertiesWish PropertiesTest.

(** Full claim: the result is 0 exactly if the frames that arrive at each interface that is
    listened to, from when it is listened to until the time is up, pair off with the frames
    expected there.

    Result 0: as many frames as are expected were read from the interface, and they are the
    first that arrived there. *)
Theorem C94_passed_partial : forall T sch cs ev tr rds i ifn ix since, proper T -> executes (line T) sch cs 0 ev tr rds -> Forall (smooth sized) sch ->
  nth_error (used T) i = Some ifn -> listening ifn T -> listens i ix tr since ->
  length (taken i tr) = length (to_expect ifn T) /\ as_expected ifn T (firstn (length (to_expect ifn T)) (on_wire ix since)).
Proof. exact wire_passed. Qed.
Print Assumptions C94_passed_partial.

(** The converse, if everything that arrives is read and the expectations of an interface
    accept the same frames or have none in common. *)
Theorem C94_passes_partial : forall T sch cs r ev tr rds, proper T -> distinguishable T -> executes (line T) sch cs r ev tr rds -> Forall (smooth sized) sch ->
  ~ trouble tr -> all_as_expected T tr -> r = 0.
Proof. exact wire_passes. Qed.
Print Assumptions C94_passes_partial.

(** Together: when everything that arrives is read, the result is 0 exactly if it is what
    was expected. *)
Theorem C94_exactly_partial : forall T sch cs r ev tr rds, proper T -> distinguishable T -> executes (line T) sch cs r ev tr rds -> Forall (smooth sized) sch ->
  ~ trouble tr -> all_read T tr -> (r = 0 <-> all_as_expected T tr).
Proof. exact wire_exactly. Qed.
Print Assumptions C94_exactly_partial.

(** Any frames may arrive and be read. *)
Theorem C94_can : forall T F, proper T -> (forall i m, In m (F i) -> sized m) ->
  exists sch cs r ev tr rds, executes (line T) sch cs r ev tr rds /\ Forall (smooth sized) sch /\ ~ trouble tr /\ exactly_arrived T F tr.
Proof. exact wire_can. Qed.
Print Assumptions C94_can.

(** Every such test can be passed: if there are frames as the words say, there is an
    execution in which they arrive and the result is 0. *)
Theorem C94_can_pass : forall T F, proper T -> distinguishable T -> (forall i m, In m (F i) -> sized m) ->
  (forall i ifn, nth_error (used T) i = Some ifn -> listening ifn T -> as_expected ifn T (map put_tag (F i))) ->
  exists sch cs ev tr rds, executes (line T) sch cs 0 ev tr rds /\ Forall (smooth sized) sch /\ ~ trouble tr /\ exactly_arrived T F tr.
Proof. exact wire_can_pass. Qed.
Print Assumptions C94_can_pass.

(** ** The test of C84: the expected frames arrive at the third interface, among others *)
Definition C94_one : rxmsg := MkRx ([0; 0; 0; 0; 0; 2; 0; 0; 0; 0; 0; 1; 170; 170] ++ zeros 46) None.
Definition C94_other : rxmsg := MkRx (zeros 60) None.
Definition third (i : nat) : bool := Nat.eqb i 2.
Definition always (_ : nat) : bool := true.
Definition C94_schedule : list choice :=
  [Go 3; Go 1; Go 1; Go 0; Go 0; Go 0; Go 0; Go 4; Arrive 3 C94_other; Go 2; Go 2; Go 0; Go 0; Go 0; Go 0; Go 0; Go 5; Arrive 1 C94_other; Go 3; Go 3; Go 0; Arrive 3 C94_other; Go 0; Go 0; Go 0; Go 0; Go 0;
   Arrive 3 C94_one; Arrive 3 (MkRx C84_frame None); Arrive 1 C94_other; Wake 1 false third always always; Go 0; Go 0; Wake 1 false third always always; Go 0; Go 0; Wake 0 false always always always; Go 0; Go 0; Go 0].

Ltac bytes := apply Forall_forall; let x := fresh in let H := fresh in intros x H; vm_compute in H; unfold is_byte; repeat (destruct H as [<-|H]; [lia|]); destruct H.
Lemma C94_sized : sized C94_one /\ sized C94_other /\ sized (MkRx C84_frame None).
Proof. split; [|split]; (split; [split; [vm_compute; auto|intros K; destruct K; reflexivity]|cbn [rx_data C94_one C94_other]; bytes]). Qed.

Example C94_case : proper C84_case /\ Forall (smooth sized) C94_schedule /\ nth_error (used C84_case) 2 = Some "eth1"%string /\ listening "eth1" C84_case /\
  exists cs ev tr rds since, executes (line C84_case) C94_schedule cs 0 ev tr rds /\ ~ trouble tr /\ listens 2 3 tr since /\ length (dropped 2 tr) = 2%nat /\
    on_wire 3 since = [rx_data C94_one; C84_frame] /\ to_expect "eth1" C84_case = [C83_case; C84_one].
Proof.
  destruct C94_sized as [S1 [S2 S3]]. split; [apply C84_case_proper|]. split.
  { unfold C94_schedule. repeat (constructor; [cbn [smooth]; auto|]). constructor. }
  split; [reflexivity|]. split; [right; eexists; do 3 right; left; reflexivity|].
  destruct (execute (line C84_case) C94_schedule) as [[[[[cs r] ev] tr] rds]|] eqn:E; [|vm_compute in E; discriminate E]. pose proof (execute_ok _ _ _ _ _ _ _ E) as X. vm_compute in E. apply some_inj in E. do 4 (apply pair_inj in E; destruct E as [E ?]). subst. do 5 eexists. split; [exact X|]. clear X.
  split; [intros [k [Y|Y]]; repeat (destruct Y as [Y|Y]; [discriminate Y|]); destruct Y|]. split.
  { match goal with |- listens 2 3 ?t _ => set (tr := t) end. exists 5.
    let l := eval unfold tr in tr in
    let rec find_u l acc k := match l with Usable 2 5 :: ?r => k acc r | ?x :: ?r => find_u r (x :: acc) k end in
    let rec find_b l acc k := match l with Bound 2 3 :: ?r => k acc r | ?x :: ?r => find_b r (x :: acc) k end in
    let rec find_o l acc k := match l with Opened 2 5 :: ?r => k acc r | ?x :: ?r => find_o r (x :: acc) k end in
    find_o l (@nil happening) ltac:(fun a r => find_b r (@nil happening) ltac:(fun b r2 => find_u r2 (@nil happening) ltac:(fun c r3 => exists (rev a), (rev b), (rev c)))).
    split; [unfold tr, comes_up; cbn [rev app]; reflexivity|]. split; [lia|]. split; [|split; [unfold tr; vm_compute; reflexivity|unfold tr; reflexivity]].
    intros Y. cbn [rev app] in Y. repeat (destruct Y as [Y|Y]; [discriminate Y|]). destruct Y. }
  split; [reflexivity|]. split; [vm_compute; reflexivity|]. reflexivity.
Qed.

(** A test whose expectation ignores nothing *)
Definition C94_small : list SpecTest.step := [Expect "eth0" (Words C84_one)]%string.
Definition C94_small_schedule : list choice :=
  [Go 3; Go 7; Go 7; Go 0; Go 0; Go 0; Go 0; Arrive 7 C94_one; Wake 1 false always always always; Go 0; Go 0; Wake 0 false always always always; Go 0].

Example C94_passes_case : proper C94_small /\ distinguishable C94_small /\ Forall (smooth sized) C94_small_schedule /\
  exists cs ev tr rds, executes (line C94_small) C94_small_schedule cs 0 ev tr rds /\ ~ trouble tr /\ all_as_expected C94_small tr.
Proof.
  destruct C94_sized as [S1 [S2 S3]]. destruct C84_case_proper as [PR _]. assert (SAY : sayable C84_one) by (apply (pr_frames _ PR (Expect "eth1"%string (Words C84_one))); [do 5 right; left; reflexivity|left; reflexivity]).
  assert (PS : proper C94_small).
  { constructor.
    - intros x ws [<-|[]] [<-|[]]. exact SAY.
    - intros x n [<-|[]] [].
    - intros ifn w k n s [H|[]]. discriminate H.
    - intros A ifn n ws B H. destruct A as [|? [|? A]]; discriminate H.
    - intros ifn [rep [s [H|[]]]]. discriminate H.
    - vm_compute. lia. }
  assert (SM : Forall (smooth sized) C94_small_schedule) by (unfold C94_small_schedule; repeat (constructor; [cbn [smooth]; auto|]); constructor).
  split; [exact PS|]. split; [|split; [exact SM|]].
  { apply (PTest3.strict_apart _ PS). intros ifn ws H. unfold C94_small, to_expect in H. cbn [flat_map resolved] in H. destruct (String.eqb _ _); [|destruct H]. destruct H as [<-|[]]. repeat constructor. }
  destruct (execute (line C94_small) C94_small_schedule) as [[[[[cs r] ev] tr] rds]|] eqn:E; [|vm_compute in E; discriminate E]. pose proof (execute_ok _ _ _ _ _ _ _ E) as X. vm_compute in E. apply some_inj in E. do 4 (apply pair_inj in E; destruct E as [E ?]). subst. do 4 eexists. split; [exact X|].
  split; [intros [k [Y|Y]]; repeat (destruct Y as [Y|Y]; [discriminate Y|]); destruct Y|]. intros i ifn HI HL. destruct i as [|i]; [|destruct i; discriminate HI]. assert (ifn = "eth0"%string) by (vm_compute in HI; congruence). subst ifn. exists 7. eexists. split.
  { exists 3, [], [Index 0 false 7; Index 0 true 7], []. split; [reflexivity|]. split; [lia|]. split; [intros []|]. split; [vm_compute; reflexivity|reflexivity]. }
  split; [reflexivity|]. eapply (C94_passed_partial C94_small _ _ _ _ _ 0 "eth0"%string 7) in X; auto.
  2: { exists 3, [], [Index 0 false 7; Index 0 true 7], []. split; [reflexivity|]. split; [lia|]. split; [intros []|]. split; [vm_compute; reflexivity|reflexivity]. }
  destruct X as [_ X]. exact X.
Qed.

(** A frame that nobody expects arrives while the interface is listened to, and the result is 0:
    it is reported by a select that comes back when the time is up, and not read. *)
Definition C94_late_schedule : list choice :=
  [Go 3; Go 7; Go 7; Go 0; Go 0; Go 0; Go 0; Arrive 7 C94_other; Wake 1 true always always always; Go 0].
Theorem C94_late_refuted : exists T sch cs ev tr rds since, proper T /\ Forall (smooth sized) sch /\ executes (line T) sch cs 0 ev tr rds /\ nth_error (used T) 0 = Some "eth0"%string /\ listening "eth0" T /\
  listens 0 7 tr since /\ to_expect "eth0" T = [] /\ on_wire 7 since = [rx_data C94_other].
Proof.
  destruct C94_sized as [S1 [S2 S3]]. exists [Nothing "eth0"%string], C94_late_schedule.
  destruct (execute (line [Nothing "eth0"%string]) C94_late_schedule) as [[[[[cs r] ev] tr] rds]|] eqn:E; [|vm_compute in E; discriminate E]. pose proof (execute_ok _ _ _ _ _ _ _ E) as X. vm_compute in E. apply some_inj in E. do 4 (apply pair_inj in E; destruct E as [E ?]). subst. do 5 eexists. split; [|split; [|split; [exact X|]]]; clear X.
  - constructor.
    + intros x ws [<-|[]] [].
    + intros x n [<-|[]] [].
    + intros ifn w k n s [H|[]]. discriminate H.
    + intros A ifn n ws B H. destruct A as [|? [|? A]]; discriminate H.
    + intros ifn [rep [s [H|[]]]]. discriminate H.
    + vm_compute. lia.
  - unfold C94_late_schedule. repeat (constructor; [cbn [smooth]; auto|]). constructor.
  - split; [reflexivity|]. split; [left; left; reflexivity|]. split.
    { exists 3, [], [Index 0 false 7; Index 0 true 7], []. split; [reflexivity|]. split; [lia|]. split; [intros []|]. split; [vm_compute; reflexivity|reflexivity]. }
    split; reflexivity.
Qed.
Print Assumptions C94_late_refuted.

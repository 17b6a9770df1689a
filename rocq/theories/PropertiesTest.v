(** Property C84: a test written in words passes exactly when the frames on the wire are
    as the words say.  Vocabulary: SpecTest.v. *)

From Coq Require Import Permutation.
From Verif Require Import Frame SpecParse SpecFrame Exec SpecExec SpecFill SpecLayout SpecWhole SpecExact SpecForm SpecWish SpecTest BaseFacts PTest3 PropertiesWhole PropertiesForm PropertiesWish.

(** The line is understood and run to its end. *)
Theorem C84_runs : forall T e, proper T -> healthy T e -> exists r ev, argc_cmds (line T) e = Ret (r, ev).
Proof. exact test_runs. Qed.
Print Assumptions C84_runs.

(** Result 0: on every listening interface, the frames that arrived and the expectations
    pair off, each frame being as the words of its expectation say. *)
Theorem C84_verdict : forall T e r ev, proper T -> healthy T e -> argc_cmds (line T) e = Ret (r, ev) -> r = 0 -> all_satisfied T e.
Proof. exact test_verdict. Qed.
Print Assumptions C84_verdict.

(** The converse, if the expectations of an interface accept the same frames or have none
    in common (otherwise it depends on the order: C43_refuted) ... *)
Theorem C84_passes : forall T e r ev, proper T -> healthy T e -> distinguishable T -> argc_cmds (line T) e = Ret (r, ev) -> all_satisfied T e -> r = 0.
Proof. exact test_passes. Qed.
Print Assumptions C84_passes.

(** ... so always if nothing is ignored. *)
Theorem C84_exact : forall T e r ev, proper T -> healthy T e -> (forall ifn ws, In ws (to_expect ifn T) -> strict ws) -> argc_cmds (line T) e = Ret (r, ev) ->
  (r = 0 <-> all_satisfied T e).
Proof. exact test_exact. Qed.
Print Assumptions C84_exact.

(** What is sent on an interface: the frames the words describe, in their order and as
    often as they say; all of them if the socket is writable often enough. *)
Theorem C84_sent : forall T e r ev i ifn, proper T -> healthy T e -> argc_cmds (line T) e = Ret (r, ev) -> nth_error (used T) i = Some ifn ->
  exists j bs, (j <= length (to_send ifn T))%nat /\ Forall2 (fun p b => spelled (map plain (fst p)) b) (firstn j (to_send ifn T)) bs /\
    sends ifn ev = flat_map (fun q => repeat (snd q, true) (Z.to_nat (snd (fst q)))) (combine (firstn j (to_send ifn T)) bs) /\ reported_tx ifn ev = bs /\
    ((length (to_send ifn T) <= writable i (served (e_rounds e)))%nat -> j = length (to_send ifn T)).
Proof. exact test_sent. Qed.
Print Assumptions C84_sent.

(** *** A case: a named frame with ignored fields (that of C83), sent on one interface
    after two copies of another frame, and both expected on a second interface. *)
Definition C84_one : list wish := [ (Header "eth" [("dmac", "::2")], C82_format "eth", None) ]%string.
Definition C84_case : list step :=
  [ Send "eth0" (Some ("rep", "2", 2)) (Words C84_one); Nothing "eth2"; Send "eth0" None (Named "f"); Expect "eth1" (Named "f"); Define "f" C83_case; Expect "eth1" (Words C84_one) ]%string.

Example C84_case_proper : proper C84_case /\ length (line C84_case) = 54%nat /\
  used C84_case = ["eth0"; "eth2"; "eth1"]%string /\ to_send "eth0" C84_case = [(C84_one, 2); (C83_case, 1)] /\ to_expect "eth1" C84_case = [C83_case; C84_one].
Proof.
  destruct C83_case_asked as [A1 [A2 _]].
  assert (DM : stands_for "eth" "dmac" 48 "::2" 2).
  { ordinary. apply (vt_mac_short 6 [] ["2"]%string [] [2]); [reflexivity|constructor|constructor; [group [2]|constructor]|cbn; lia|intros [r H]; discriminate]. }
  assert (S1 : sayable C84_one).
  { split.
    - split; [discriminate|]. split; [|split; [|split; [|split; [cbn; lia|vm_compute; discriminate]]]].
      + apply Forall_cons; [|apply Forall_nil]. split.
        * split; cbn [plain fst snd]; [table|]. intros fld s [H|[]]; injection H as <- <-. given 0 48 2. exact DM.
        * split; [intros w H; discriminate H|]. intros fld s [H|[]]; injection H as <- <-. wished 0 48. right. exists 2. exact DM.
      + intros k asg m H. destruct k as [|[|k]]; discriminate H.
      + intros k asg m ps m' H. destruct k as [|[|k]]; discriminate H.
    - right. repeat constructor. }
  assert (S2 : sayable C83_case) by (split; auto).
  split; [|split; [reflexivity|split; [reflexivity|split; reflexivity]]]. constructor.
  - intros x ws [<-|[<-|[<-|[<-|[<-|[<-|[]]]]]]] H; cbn [frames_in In] in H; destruct H as [<-|[]] || destruct H; auto.
  - intros x n [<-|[<-|[<-|[<-|[<-|[<-|[]]]]]]] H; cbn [names_in In] in H; destruct H as [<-|[]] || destruct H; discriminate.
  - intros ifn w k n s [H|[H|[H|[H|[H|[H|[]]]]]]]; try discriminate H. injection H as <- <- <- <- <-. split; [left; reflexivity|]. split; [exists [2]; split; [repeat constructor|reflexivity]|lia].
  - intros A ifn n ws B E. destruct A as [|a0 [|a1 [|a2 [|a3 [|a4 [|a5 [|a6 A]]]]]]]; cbn [app] in E; try discriminate E. 
  - intros ifn [rep [s HS]] HL. assert (ifn = "eth0"%string) by (destruct HS as [H|[H|[H|[H|[H|[H|[]]]]]]]; try discriminate H; congruence). subst ifn.
    destruct HL as [H|[s' H]]; destruct H as [H|[H|[H|[H|[H|[H|[]]]]]]]; discriminate H.
  - vm_compute. lia.
Qed.

(** The frame of C83 with another source and an identification; the sockets are writable
    twice, and the expected frames arrive in the other order. *)
Definition C84_frame : list Z :=
  [0; 0; 0; 0; 0; 2; 1; 2; 3; 4; 5; 6; 8; 0; 69; 0; 0; 48; 18; 52; 0; 0; 9; 17; 0; 0; 0; 0; 0; 0; 10; 0; 0; 1; 0; 9; 22; 51; 0; 28; 0; 0; 4] ++ zeros 19.
Definition C84_rounds : list round :=
  let gets b := MkRound 1 false (fun j => if Nat.eqb j 2 then Some (MkRx b None) else None) (fun _ => true) (fun _ => true) in
  [ gets ([0; 0; 0; 0; 0; 2; 0; 0; 0; 0; 0; 1; 170; 170] ++ zeros 46); gets C84_frame ].

Example C84_case_run : healthy C84_case (MkEnv (fun _ => true) C84_rounds) /\
  (exists ev, argc_cmds (line C84_case) (MkEnv (fun _ => true) C84_rounds) = Ret (0, ev) /\ length (sends "eth0" ev) = 3%nat) /\
  all_satisfied C84_case (MkEnv (fun _ => true) C84_rounds).
Proof.
  assert (H : healthy C84_case (MkEnv (fun _ => true) C84_rounds)).
  { constructor.
    - reflexivity.
    - intros rd k [<-|[<-|[]]]; reflexivity.
    - intros rd i m [<-|[<-|[]]] Hm; cbn [rd_rx] in Hm; (destruct (Nat.eqb i 2); [|discriminate Hm]); apply some_inj in Hm; subst m; split; try (split; [vm_compute; auto|intros K; destruct K; reflexivity]); cbn [rx_data]; unfold C84_frame; apply Forall_forall; intros x Hx; vm_compute in Hx; unfold is_byte; repeat (destruct Hx as [<-|Hx]; [lia|]); destruct Hx. }
  assert (R : exists ev, argc_cmds (line C84_case) (MkEnv (fun _ => true) C84_rounds) = Ret (0, ev) /\ length (sends "eth0" ev) = 3%nat) by (eexists; split; vm_compute; reflexivity).
  split; [exact H|]. split; [exact R|]. destruct R as [ev [R _]]. eapply C84_verdict; eauto. apply C84_case_proper.
Qed.

(** Property C97: the order of the commands of a test (vocabulary: SpecOrder.v, SpecTest.v,
    SpecWire.v; model: Together.v). *)

From Coq Require Import Permutation.
From Verif Require Import BaseFacts SpecOrder SpecDevice PTogether PTogether2 POrder PropertiesWish PropertiesTest PropertiesWire PropertiesTogether PropertiesDevice.
From Verif Require PTest3.

(** Full claim: two tests with the same commands in different orders pass or fail together if
    the same frames arrive.

    It holds if both are written properly (an "rx IF" directly before a definition is read as
    one command), no name is defined twice, the expectations of an interface accept the same
    frames or have none in common, and all that arrives is read.  The frames may arrive in
    different orders, and the options and captures may differ. *)
Theorem C97_order_partial : forall ps ps' T T' sch sch' st st' ev ev' tr tr', Forall part_ok ps -> Forall part_ok ps' -> flat_map operand_of ps = line T -> flat_map operand_of ps' = line T' -> proper T -> proper T' -> Permutation T T' -> NoDup (defined_names T) -> distinguishable T ->
  Forall fair sch -> Forall fair sch' -> program (flat_map SpecMain.part_words ps) sch = Ret (Some (st, ev, tr)) -> program (flat_map SpecMain.part_words ps') sch' = Ret (Some (st', ev', tr')) ->
  few_read T (net_seen tr) -> few_read T' (net_seen tr') -> ~ trouble (net_seen tr) -> ~ trouble (net_seen tr') -> all_read T (net_seen tr) -> all_read T' (net_seen tr') -> same_arrivals T T' (net_seen tr) (net_seen tr') -> (st = 0 <-> st' = 0).
Proof. exact order_free. Qed.
Print Assumptions C97_order_partial.

(** Names may be defined more than once if each keeps its meaning (its first definition). *)
Theorem C97_meanings_partial : forall ps ps' T T' sch sch' st st' ev ev' tr tr', Forall part_ok ps -> Forall part_ok ps' -> flat_map operand_of ps = line T -> flat_map operand_of ps' = line T' -> proper T -> proper T' -> Permutation T T' -> (forall n, meaning T n = meaning T' n) -> distinguishable T ->
  Forall fair sch -> Forall fair sch' -> program (flat_map SpecMain.part_words ps) sch = Ret (Some (st, ev, tr)) -> program (flat_map SpecMain.part_words ps') sch' = Ret (Some (st', ev', tr')) ->
  few_read T (net_seen tr) -> few_read T' (net_seen tr') -> ~ trouble (net_seen tr) -> ~ trouble (net_seen tr') -> all_read T (net_seen tr) -> all_read T' (net_seen tr') -> same_arrivals T T' (net_seen tr) (net_seen tr') -> (st = 0 <-> st' = 0).
Proof. exact meanings_free. Qed.
Print Assumptions C97_meanings_partial.

(** In particular two executions of one test have the same outcome if the same frames arrive:
    no interleaving, option or capture changes it. *)
Theorem C97_outcome_partial : forall ps ps' T sch sch' st st' ev ev' tr tr', Forall part_ok ps -> Forall part_ok ps' -> flat_map operand_of ps = line T -> flat_map operand_of ps' = line T -> proper T -> distinguishable T ->
  Forall fair sch -> Forall fair sch' -> program (flat_map SpecMain.part_words ps) sch = Ret (Some (st, ev, tr)) -> program (flat_map SpecMain.part_words ps') sch' = Ret (Some (st', ev', tr')) ->
  few_read T (net_seen tr) -> few_read T (net_seen tr') -> ~ trouble (net_seen tr) -> ~ trouble (net_seen tr') -> all_read T (net_seen tr) -> all_read T (net_seen tr') -> same_arrivals T T (net_seen tr) (net_seen tr') -> (st = 0 <-> st' = 0).
Proof. exact one_outcome. Qed.
Print Assumptions C97_outcome_partial.

(** ** The test of C96, with the command to send between the other two and no capture *)
Definition C97_test : list SpecTest.step := [Expect "eth1" (Words C84_one); Send "eth0" (Some ("rep", "2", 2)) (Words C84_one); Expect "eth1" (Words C84_one)]%string.
Definition C97_parts_of_line : list SpecMain.part := map Operand (line C97_test).
Definition first (i : nat) : bool := Nat.eqb i 0.
Definition C97_reads : list Sockets.choice := [Sockets.Wake 1 false first never always; Sockets.Go 0; Sockets.Go 0].
Definition C97_good : list act :=
  map Net (map Sockets.Go [3; 2; 2; 0; 0; 0; 0; 4; 1; 1; 0; 0; 0; 0] ++ [Sockets.Wake 1 false never always always; Sockets.Go 0] ++ C96_arrives ++ C97_reads ++ C97_reads ++ [Sockets.Wake 0 false never never always; Sockets.Go 0; Sockets.Go 0]) ++ going 7.

Lemma C97_proper : proper C97_test.
Proof.
  destruct C84_case_proper as [PR _]. assert (SAY : sayable C84_one) by (apply (pr_frames _ PR (Expect "eth1"%string (Words C84_one))); [do 5 right; left; reflexivity|left; reflexivity]).
  constructor.
  - intros x ws [<-|[<-|[<-|[]]]] [<-|[]]; exact SAY.
  - intros x n [<-|[<-|[<-|[]]]] [].
  - intros ifn w k n s [H|[H|[H|[]]]]; try discriminate H. injection H as <- <- <- <- <-. split; [left; reflexivity|]. split; [exists [2]; split; [repeat constructor|reflexivity]|lia].
  - intros A ifn n ws B H. destruct A as [|? [|? [|? [|? A]]]]; discriminate H.
  - intros ifn [rep [s HS]] HL. assert (ifn = "eth0"%string) by (destruct HS as [H|[H|[H|[]]]]; try discriminate H; congruence). subst ifn. destruct HL as [H|[s' H]]; destruct H as [H|[H|[H|[]]]]; discriminate H.
  - vm_compute. lia.
Qed.
Lemma C97_parts_ok : Forall part_ok C97_parts_of_line.
Proof. unfold C97_parts_of_line. apply Forall_forall. intros p Hp. vm_compute in Hp. repeat (destruct Hp as [<-|Hp]; [cbn [part_ok]; intros c x H; discriminate H|]). destruct Hp. Qed.
Lemma C97_fair : Forall fair C97_good.
Proof. destruct C94_sized as [S1 _]. unfold C97_good, C97_reads, C96_arrives, going. cbn [repeat map app]. repeat (constructor; [cbn [fair smooth]; auto|]). constructor. Qed.

Notation C97_run := (program (flat_map SpecMain.part_words C97_parts_of_line) C97_good).
Notation C97_tr := (net_seen (trace_of C97_run)).
Lemma C97_ran : C97_run = Ret (Some (0, said_of C97_run, trace_of C97_run)).
Proof. apply ran. vm_compute. reflexivity. Qed.
Lemma C97_listens : listens 0 2 C97_tr (skipn 5 C97_tr).
Proof.
  assert (H : forall tr, firstn 5 tr = [Sockets.Opened 0 3; Sockets.Index 0 false 2; Sockets.Index 0 true 2; Sockets.Bound 0 2; Sockets.Usable 0 3] -> Z.of_nat (length (SpecSockets.dropped 0 tr)) < 10000 -> untagged 0 tr = false -> listens 0 2 tr (skipn 5 tr)).
  { intros tr H1 H2 H3. exists 3, [], [Sockets.Index 0 false 2; Sockets.Index 0 true 2], []. split; [|split; [lia|split; [intros []|auto]]]. rewrite <- (firstn_skipn 5 tr) at 1. rewrite H1. reflexivity. }
  apply H; vm_compute; reflexivity.
Qed.
Lemma C97_few : few_read C97_test C97_tr.
Proof. apply Nat.ltb_lt. vm_compute. reflexivity. Qed.
Lemma C97_untroubled : ~ trouble C97_tr.
Proof. apply untroubled. vm_compute. reflexivity. Qed.
Lemma C97_wire : on_wire 2 (skipn 5 C97_tr) = [rx_data C94_one; rx_data C94_one] /\ length (SpecSockets.taken 0 C97_tr) = 2%nat.
Proof. split; vm_compute; reflexivity. Qed.

Example C97_case : Forall part_ok C97_parts_of_line /\ flat_map operand_of C97_parts_of_line = line C97_test /\ proper C97_test /\ Permutation C96_test C97_test /\ NoDup (defined_names C96_test) /\ distinguishable C96_test /\ Forall fair C97_good /\ used C96_test = ["eth0"; "eth1"]%string /\ used C97_test = ["eth1"; "eth0"]%string /\
  exists ev tr since, program (flat_map SpecMain.part_words C97_parts_of_line) C97_good = Ret (Some (0, ev, tr)) /\ few_read C97_test (net_seen tr) /\ ~ trouble (net_seen tr) /\ all_read C97_test (net_seen tr) /\
    listens 0 2 (net_seen tr) since /\ on_wire 2 since = [rx_data C94_one; rx_data C94_one].
Proof.
  split; [exact C97_parts_ok|]. split; [reflexivity|]. split; [exact C97_proper|]. split; [apply perm_swap|]. split; [constructor|]. split; [apply (PTest3.strict_apart _ C96_proper (eb_strict _ _ C96_expects))|]. split; [exact C97_fair|]. split; [reflexivity|]. split; [reflexivity|].
  exists (said_of C97_run), (trace_of C97_run), (skipn 5 C97_tr). split; [exact C97_ran|]. split; [exact C97_few|]. split; [exact C97_untroubled|]. destruct C97_wire as [W1 W2]. split; [|split; [exact C97_listens|exact W1]].
  intros i ifn HI HL. assert (ifn = "eth1"%string) by (destruct HL as [H|[s H]]; destruct H as [H|[H|[H|[]]]]; try discriminate H; congruence). subst ifn. destruct i as [|[|i]]; [|discriminate HI|destruct i; discriminate HI]. exists 2, (skipn 5 C97_tr). split; [exact C97_listens|]. rewrite W1. exact W2.
Qed.

(** The two executions meet the hypotheses together. *)
Definition usable_of (i : nat) (h : Sockets.happening) : bool := match h with Sockets.Usable j _ => Nat.eqb j i | _ => false end.
Definition bound_off (i : nat) (ix : Z) (h : Sockets.happening) : bool := match h with Sockets.Bound j x => Nat.eqb j i && negb (x =? ix) | _ => false end.
Lemma at_once : forall {X} (p : X -> bool) A a B A' a' B', A ++ a :: B = A' ++ a' :: B' -> p a = true -> p a' = true -> length (filter p (A ++ a :: B)) = 1%nat -> B = B'.
Proof.
  intros X p. induction A as [|x A IH]; intros a B A' a' B' E P P' L; destruct A' as [|y A']; cbn [app] in E; injection E as E1 E2.
  - exact E2.
  - subst. cbn [app filter] in L. rewrite P, filter_app in L. cbn [filter] in L. rewrite P' in L. cbn [length] in L. rewrite app_length in L. cbn [length] in L. lia.
  - subst. cbn [app filter] in L. rewrite P', filter_app in L. cbn [filter] in L. rewrite P in L. cbn [length] in L. rewrite app_length in L. cbn [length] in L. lia.
  - apply (IH a B A' a' B' E2 P P'). subst y. cbn [app filter] in L. destruct (p x); [|exact L]. rewrite filter_app in L. cbn [filter] in L. rewrite P in L. cbn [length] in L. rewrite app_length in L. cbn [length] in L. lia.
Qed.
Lemma listens_once : forall i ix tr ix' since since', length (filter (usable_of i) tr) = 1%nat -> existsb (bound_off i ix) tr = false -> listens i ix tr since -> listens i ix' tr since' -> ix' = ix /\ since' = since.
Proof.
  intros i ix tr ix' since since' U B [fd [t1 [t2 [t3 [E _]]]]] [fd' [t1' [t2' [t3' [E' _]]]]]. split.
  - destruct (Z.eqb_spec ix' ix) as [|N]; [assumption|exfalso]. assert (K : existsb (bound_off i ix) tr = true); [|rewrite K in B; discriminate B]. apply existsb_exists. exists (Sockets.Bound i ix'). split.
    + rewrite E'. unfold SpecSockets.comes_up. apply in_or_app. right. right. apply in_or_app. right. left. reflexivity.
    + cbn [bound_off]. rewrite Nat.eqb_refl. destruct (Z.eqb_spec ix' ix); [contradiction|reflexivity].
  - unfold SpecSockets.comes_up in E, E'. symmetry. apply (at_once (usable_of i) (t1 ++ Sockets.Opened i fd :: t2 ++ Sockets.Bound i ix :: t3) (Sockets.Usable i fd) since (t1' ++ Sockets.Opened i fd' :: t2' ++ Sockets.Bound i ix' :: t3') (Sockets.Usable i fd') since').
    + repeat (rewrite <- app_assoc; cbn [app]). repeat (rewrite <- app_assoc in *; cbn [app] in *). rewrite <- E. exact E'.
    + apply Nat.eqb_refl.
    + apply Nat.eqb_refl.
    + repeat (rewrite <- app_assoc; cbn [app]). rewrite <- E. exact U.
Qed.
Lemma C97_once_each : length (filter (usable_of 1) (C96_tr C96_good)) = 1%nat /\ existsb (bound_off 1 2) (C96_tr C96_good) = false /\ length (filter (usable_of 0) C97_tr) = 1%nat /\ existsb (bound_off 0 2) C97_tr = false.
Proof. repeat split; vm_compute; reflexivity. Qed.
Example C97_arrivals_case : same_arrivals C96_test C97_test (C96_tr C96_good) C97_tr.
Proof.
  destruct C97_once_each as [U1 [B1 [U2 B2]]]. destruct C96_good_wire as [W _]. destruct C97_wire as [W' _]. intros ifn i i' ix ix' since since' HL HI HI' L L'.
  assert (ifn = "eth1"%string) by (destruct HL as [H|[s H]]; destruct H as [H|[H|[H|[]]]]; try discriminate H; congruence). subst ifn.
  destruct i as [|[|i]]; [discriminate HI| |destruct i; discriminate HI]. destruct i' as [|[|i']]; [|discriminate HI'|destruct i'; discriminate HI'].
  destruct (listens_once _ _ _ _ _ _ U1 B1 C96_good_listens L) as [-> ->]. destruct (listens_once _ _ _ _ _ _ U2 B2 C97_listens L') as [-> ->]. rewrite W, W'. apply Permutation_refl.
Qed.

(** The test of C96 again, without captures; the first frame arrives and is read before any
    is sent. *)
Definition C97_bare_parts : list SpecMain.part := map Operand (line C96_test).
Definition C97_bare : list act :=
  map Net (C96_set_up ++ [Sockets.Arrive 2 C94_one] ++ C96_reads ++ [Sockets.Wake 1 false never always always; Sockets.Go 0; Sockets.Arrive 2 C94_one] ++ C96_reads ++ [Sockets.Wake 0 false never never always; Sockets.Go 0; Sockets.Go 0]) ++ going 7.
Notation C97_bare_run := (program (flat_map SpecMain.part_words C97_bare_parts) C97_bare).
Notation C97_bare_tr := (net_seen (trace_of C97_bare_run)).
Lemma C97_bare_ran : C97_bare_run = Ret (Some (0, said_of C97_bare_run, trace_of C97_bare_run)).
Proof. apply ran. vm_compute. reflexivity. Qed.
Lemma C97_bare_listens : listens 1 2 C97_bare_tr (skipn 10 C97_bare_tr).
Proof. apply C96_listens; vm_compute; reflexivity. Qed.
Lemma C97_bare_wire : on_wire 2 (skipn 10 C97_bare_tr) = [rx_data C94_one; rx_data C94_one] /\ length (SpecSockets.taken 1 C97_bare_tr) = 2%nat /\ length (filter (usable_of 1) C97_bare_tr) = 1%nat /\ existsb (bound_off 1 2) C97_bare_tr = false.
Proof. repeat split; vm_compute; reflexivity. Qed.
Lemma C97_bare_few : few_read C96_test C97_bare_tr.
Proof. apply Nat.ltb_lt. vm_compute. reflexivity. Qed.
Lemma C97_bare_untroubled : ~ trouble C97_bare_tr.
Proof. apply untroubled. vm_compute. reflexivity. Qed.
Lemma C97_bare_parts_ok : Forall part_ok C97_bare_parts.
Proof. unfold C97_bare_parts. apply Forall_forall. intros p Hp. vm_compute in Hp. repeat (destruct Hp as [<-|Hp]; [cbn [part_ok]; intros c x H; discriminate H|]). destruct Hp. Qed.
Lemma C97_bare_fair : Forall fair C97_bare.
Proof. destruct C94_sized as [S1 _]. unfold C97_bare, C96_set_up, C96_reads, going. cbn [repeat map app]. repeat (constructor; [cbn [fair smooth]; auto|]). constructor. Qed.
Example C97_outcome_case : Forall part_ok C97_bare_parts /\ flat_map operand_of C97_bare_parts = line C96_test /\ Forall fair C97_bare /\ few_read C96_test C97_bare_tr /\ ~ trouble C97_bare_tr /\ all_read C96_test C97_bare_tr /\ same_arrivals C96_test C96_test (C96_tr C96_good) C97_bare_tr.
Proof.
  split; [exact C97_bare_parts_ok|]. split; [reflexivity|]. split; [exact C97_bare_fair|]. split; [exact C97_bare_few|]. split; [exact C97_bare_untroubled|]. destruct C97_bare_wire as [W' [K [U2 B2]]]. split; [apply (C96_all_read _ _ C97_bare_listens); rewrite W'; exact K|].
  destruct C97_once_each as [U1 [B1 _]]. destruct C96_good_wire as [W _]. intros ifn i i' ix ix' since since' HL HI HI' L L'.
  assert (ifn = "eth1"%string) by (destruct HL as [H|[s H]]; destruct H as [H|[H|[H|[]]]]; try discriminate H; congruence). subst ifn.
  destruct i as [|[|i]]; [discriminate HI| |destruct i; discriminate HI]. destruct i' as [|[|i']]; [discriminate HI'| |destruct i'; discriminate HI'].
  destruct (listens_once _ _ _ _ _ _ U1 B1 C96_good_listens L) as [-> ->]. destruct (listens_once _ _ _ _ _ _ U2 B2 C97_bare_listens L') as [-> ->]. rewrite W, W'. apply Permutation_refl.
Qed.

(** With a name that is defined twice the order counts: the first definition is used. *)
Definition C97_twice : list SpecTest.step := [Define "f" C84_one; Define "f" C83_case; Expect "eth0" (Named "f")]%string.
Definition C97_twice' : list SpecTest.step := [Define "f" C83_case; Define "f" C84_one; Expect "eth0" (Named "f")]%string.
Definition C97_once : list act := map Net C94_small_schedule ++ going 7.
Lemma C97_twice_proper : proper C97_twice /\ proper C97_twice'.
Proof.
  destruct C84_case_proper as [PR _]. assert (S1 : sayable C84_one) by (apply (pr_frames _ PR (Expect "eth1"%string (Words C84_one))); [do 5 right; left; reflexivity|left; reflexivity]).
  assert (S2 : sayable C83_case) by (apply (pr_frames _ PR (Define "f"%string C83_case)); [do 4 right; left; reflexivity|left; reflexivity]).
  split; (constructor;
    [intros x ws [<-|[<-|[<-|[]]]] H; cbn [frames_in In] in H; destruct H as [<-|[]] || destruct H; auto
    |intros x n [<-|[<-|[<-|[]]]] H; cbn [names_in In] in H; destruct H as [<-|[]] || destruct H; discriminate
    |intros ifn w k n s [H|[H|[H|[]]]]; discriminate H
    |intros A ifn n ws B H; destruct A as [|? [|? [|? [|? A]]]]; discriminate H
    |intros ifn [rep [s [H|[H|[H|[]]]]]]; discriminate H
    |vm_compute; lia]).
Qed.
Theorem C97_twice_refuted : exists T T' sch st st' ev ev' tr tr', proper T /\ proper T' /\ Permutation T T' /\ Forall fair sch /\
  program (line T) sch = Ret (Some (st, ev, tr)) /\ program (line T') sch = Ret (Some (st', ev', tr')) /\ net_seen tr = net_seen tr' /\ st = 0 /\ st' <> 0.
Proof.
  destruct C97_twice_proper as [P1 P2]. exists C97_twice, C97_twice', C97_once, 0, 2, (said_of (program (line C97_twice) C97_once)), (said_of (program (line C97_twice') C97_once)), (trace_of (program (line C97_twice) C97_once)), (trace_of (program (line C97_twice') C97_once)).
  split; [exact P1|]. split; [exact P2|]. split; [apply perm_swap|]. split.
  { destruct C94_sized as [S1 _]. unfold C97_once, C94_small_schedule, going. cbn [repeat map app]. repeat (constructor; [cbn [fair smooth]; auto|]). constructor. }
  split; [apply ran; vm_compute; reflexivity|]. split; [apply ran; vm_compute; reflexivity|]. split; [vm_compute; reflexivity|]. split; [reflexivity|discriminate].
Qed.
Print Assumptions C97_twice_refuted.

(** A name that is defined twice keeps its meaning while its first definition stays first. *)
Example C97_meanings_case : let T' := [Define "f" C84_one; Expect "eth0" (Named "f"); Define "f" C83_case]%string in Permutation C97_twice T' /\ (forall n, meaning C97_twice n = meaning T' n) /\ ~ NoDup (defined_names C97_twice).
Proof.
  split; [apply perm_skip, perm_swap|]. split; [intros n; cbn [C97_twice meaning]; reflexivity|]. intros H. inversion H as [|x l N _]. apply N. left. reflexivity.
Qed.

(** "rx IF" directly before a definition is read as "rx IF name N", and the test is
    refused. *)
Theorem C97_apart_refuted : exists T T', Permutation T T' /\ proper T /\ (exists cs, parse_cmds (line T) = Ret (Some cs)) /\ parse_cmds (line T') = Ret None.
Proof.
  exists [Define "f" C84_one; Nothing "eth0"]%string, [Nothing "eth0"; Define "f" C84_one]%string. split; [apply perm_swap|].
  destruct C84_case_proper as [PR _]. assert (S1 : sayable C84_one) by (apply (pr_frames _ PR (Expect "eth1"%string (Words C84_one))); [do 5 right; left; reflexivity|left; reflexivity]). split; [|split; [eexists|]; vm_compute; reflexivity].
  constructor.
  - intros x ws [<-|[<-|[]]] H; cbn [frames_in In] in H; destruct H as [<-|[]] || destruct H; auto.
  - intros x n [<-|[<-|[]]] [].
  - intros ifn w k n s [H|[H|[]]]; discriminate H.
  - intros A ifn n ws B H. destruct A as [|? [|? [|? A]]]; discriminate H.
  - intros ifn [rep [s [H|[H|[]]]]]; discriminate H.
  - vm_compute. lia.
Qed.
Print Assumptions C97_apart_refuted.

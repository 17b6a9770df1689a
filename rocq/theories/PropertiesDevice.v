(** Property C96: the test of a device that passes frames on (vocabulary: SpecDevice.v,
    SpecTest.v, SpecWire.v; model: Together.v). *)

From Coq Require Import Permutation.
From Verif Require Import BaseFacts SpecDevice PTogether PTogether2 PDevice PropertiesWish PropertiesTest PropertiesWire PropertiesTogether.
From Verif Require PTest3 PProgram SpecChildren.

(** The frames sent are those the words describe, in their order and as often as they say. *)
Theorem C96_frames : forall ps T sch st ev tr a, Forall part_ok ps -> flat_map operand_of ps = line T -> proper T -> Forall fair sch ->
  program (flat_map SpecMain.part_words ps) sch = Ret (Some (st, ev, tr)) -> ~ trouble (net_seen tr) -> sending a T -> length (sends a ev) = length (each T a) ->
  Forall2 (fun ws b => spelled (map plain ws) b) (each T a) (frames_sent a ev).
Proof. exact device_frames. Qed.
Print Assumptions C96_frames.

(** Full claim: a test that expects back what it sends ends with status 0 exactly if the
    device passes on all that is sent, and nothing else, unchanged and in any order.

    It holds if the program could send all it was to send and has read all that arrived ... *)
Theorem C96_exactly_partial : forall src ps T sch st ev tr, Forall part_ok ps -> flat_map operand_of ps = line T -> proper T -> expects_back src T -> Forall fair sch ->
  program (flat_map SpecMain.part_words ps) sch = Ret (Some (st, ev, tr)) -> few_read T (net_seen tr) -> ~ trouble (net_seen tr) -> all_read T (net_seen tr) -> finished T ev ->
  (st = 0 <-> all_passed_on src T ev (net_seen tr)).
Proof. exact device_exactly. Qed.
Print Assumptions C96_exactly_partial.

(** ... and, even if not all was read: with status 0, the first frames that arrived are those
    sent, in some order. *)
Theorem C96_passed_partial : forall src ps T sch ev tr i b ix since, Forall part_ok ps -> flat_map operand_of ps = line T -> proper T -> expects_back src T -> Forall fair sch ->
  program (flat_map SpecMain.part_words ps) sch = Ret (Some (0, ev, tr)) -> few_read T (net_seen tr) -> finished T ev -> nth_error (used T) i = Some b -> listening b T -> listens i ix (net_seen tr) since ->
  length (SpecSockets.taken i (net_seen tr)) = length (to_expect b T) /\ passed_on src b ev (firstn (length (to_expect b T)) (on_wire ix since)).
Proof. exact device_passed. Qed.
Print Assumptions C96_passed_partial.

(** Every such test can be passed: there is an execution in which all is sent, arrives, is
    read, and the result is 0 ... *)
Theorem C96_can : forall src T, proper T -> expects_back src T -> fitting T ->
  exists sch cs ev tr rds, executes (line T) sch cs 0 ev tr rds /\ Forall (smooth sized) sch /\ ~ trouble tr /\ finished T ev /\ all_passed_on src T ev tr.
Proof. exact device_can. Qed.
Print Assumptions C96_can.

(** ... with any options and captures, whatever the captures do unless they end while the
    program listens. *)
Theorem C96_can_program : forall src ps T trC, Forall part_ok ps -> flat_map operand_of ps = line T -> proper T -> expects_back src T -> fitting T ->
  SpecChildren.completes (map (fun c => fst (capture_add c)) (flat_map capture_of ps)) 0 trC -> (forall k, ~ In (Children.Interrupted k) trC) ->
  exists sch ev tr, program (flat_map SpecMain.part_words ps) sch = Ret (Some (0, ev, tr)) /\ Forall fair sch /\ child_seen tr = trC /\ ~ trouble (net_seen tr) /\ finished T ev /\ all_passed_on src T ev (net_seen tr).
Proof. exact device_can_program. Qed.
Print Assumptions C96_can_program.

(** ** A cable between eth0 and eth1: a frame is sent twice and expected twice *)
Definition C96_test : list SpecTest.step := [Send "eth0" (Some ("rep", "2", 2)) (Words C84_one); Expect "eth1" (Words C84_one); Expect "eth1" (Words C84_one)]%string.
Definition C96_src (_ : string) : list string := ["eth0"]%string.
Definition C96_parts_of_line : list SpecMain.part := Capture "eth9"%string :: map Operand (line C96_test).
Definition second (i : nat) : bool := Nat.eqb i 1.
Definition never (_ : nat) : bool := false.
Definition C96_set_up : list Sockets.choice := map Sockets.Go [3; 1; 1; 0; 0; 0; 0; 4; 2; 2; 0; 0; 0; 0].
Definition C96_reads : list Sockets.choice := [Sockets.Wake 1 false second never always; Sockets.Go 0; Sockets.Go 0].
Definition C96_arrives : list Sockets.choice := [Sockets.Arrive 2 C94_one; Sockets.Arrive 2 C94_one].
Definition C96_around (sch : list Sockets.choice) : list act := going 5 ++ map Net (C96_set_up ++ sch) ++ going 8 ++ [Child (Children.End 0 (WSignal 2) 0)] ++ going 4.
(** Sent, both arrive and are read *)
Definition C96_good : list act :=
  C96_around ([Sockets.Wake 1 false never always always; Sockets.Go 0] ++ C96_arrives ++ C96_reads ++ C96_reads ++ [Sockets.Wake 0 false never never always; Sockets.Go 0; Sockets.Go 0]).
(** A third frame arrives and is not read in time *)
Definition C96_late : list act :=
  C96_around ([Sockets.Wake 1 false never always always; Sockets.Go 0] ++ C96_arrives ++ C96_reads ++ C96_reads ++ [Sockets.Arrive 2 C94_other; Sockets.Wake 1 true second never always; Sockets.Go 0; Sockets.Go 0]).
(** Nothing is sent, and the frames arrive *)
Definition C96_unsent : list act :=
  C96_around (C96_arrives ++ C96_reads ++ C96_reads ++ [Sockets.Wake 0 false never never always; Sockets.Go 0; Sockets.Go 0]).

Lemma C96_proper : proper C96_test.
Proof.
  destruct C84_case_proper as [PR _]. assert (SAY : sayable C84_one) by (apply (pr_frames _ PR (Expect "eth1"%string (Words C84_one))); [do 5 right; left; reflexivity|left; reflexivity]).
  constructor.
  - intros x ws [<-|[<-|[<-|[]]]] [<-|[]]; exact SAY.
  - intros x n [<-|[<-|[<-|[]]]] [].
  - intros ifn w k n s [H|[H|[H|[]]]]; try discriminate H. injection H as <- <- <- <- <-. split; [left; reflexivity|]. split; [exists [2]; split; [repeat constructor|reflexivity]|lia].
  - intros A ifn n ws B H. destruct A as [|? [|? [|? [|? A]]]]; discriminate H.
  - intros ifn [rep [s HS]] HL. assert (ifn = "eth0"%string) by (destruct HS as [H|[H|[H|[]]]]; try discriminate H; congruence). subst ifn. destruct HL as [H|[s' H]]; destruct H as [H|[H|[H|[]]]]; discriminate H.
  - vm_compute. lia.
Qed.
Lemma C96_expects : expects_back C96_src C96_test.
Proof.
  assert (L : forall b, listening b C96_test -> b = "eth1"%string) by (intros b [H|[s H]]; destruct H as [H|[H|[H|[]]]]; try discriminate H; congruence).
  constructor.
  - intros b HL. rewrite (L b HL). apply Permutation_refl.
  - intros b a HL [<-|[]]. do 2 eexists. left. reflexivity.
  - intros b ws H. unfold C96_test, to_expect in H. cbn [flat_map resolved] in H. destruct (String.eqb _ _); [|destruct H]. destruct H as [<-|[<-|[]]]; repeat constructor.
Qed.
Lemma C96_fits : fitting C96_test.
Proof. intros b ws H. unfold C96_test, to_expect in H. cbn [flat_map resolved] in H. destruct (String.eqb _ _); [|destruct H]. destruct H as [<-|[<-|[]]]; vm_compute; reflexivity. Qed.
Lemma C96_parts_ok : Forall part_ok C96_parts_of_line.
Proof. unfold C96_parts_of_line. constructor; [exact I|]. apply Forall_forall. intros p Hp. vm_compute in Hp. repeat (destruct Hp as [<-|Hp]; [cbn [part_ok]; intros c x H; discriminate H|]). destruct Hp. Qed.
Lemma C96_fair : Forall fair C96_good /\ Forall fair C96_late /\ Forall fair C96_unsent.
Proof.
  destruct C94_sized as [S1 [S2 _]]. unfold C96_good, C96_late, C96_unsent, C96_around, C96_set_up, C96_reads, C96_arrives, going. cbn [repeat map app]. split; [|split]; repeat (constructor; [cbn [fair smooth]; auto|]); constructor.
Qed.

Notation C96_run sch := (program (flat_map SpecMain.part_words C96_parts_of_line) sch).
Notation C96_tr sch := (net_seen (trace_of (C96_run sch))).
Notation C96_since sch := (skipn 10 (C96_tr sch)).
Lemma C96_listens : forall tr, firstn 10 tr = [Sockets.Opened 0 3; Sockets.Index 0 false 1; Sockets.Index 0 true 1; Sockets.Bound 0 1; Sockets.Usable 0 3; Sockets.Opened 1 4; Sockets.Index 1 false 2; Sockets.Index 1 true 2; Sockets.Bound 1 2; Sockets.Usable 1 4] ->
  Z.of_nat (length (SpecSockets.dropped 1 tr)) < 10000 -> untagged 1 tr = false -> listens 1 2 tr (skipn 10 tr).
Proof.
  intros tr H1 H2 H3. exists 4, [Sockets.Opened 0 3; Sockets.Index 0 false 1; Sockets.Index 0 true 1; Sockets.Bound 0 1; Sockets.Usable 0 3], [Sockets.Index 1 false 2; Sockets.Index 1 true 2], [].
  split; [|split; [lia|split; [intros []|auto]]]. rewrite <- (firstn_skipn 10 tr) at 1. rewrite H1. reflexivity.
Qed.

Notation sent_number sch := (length (sends "eth0" (said_of (C96_run sch)))).
Lemma C96_finished : forall ev, length (sends "eth0" ev) = 2%nat -> finished C96_test ev.
Proof. intros ev H a [rep [s [K|[K|[K|[]]]]]]; try discriminate K. injection K as <- _ _. rewrite H. reflexivity. Qed.
Lemma C96_all_read : forall tr since, listens 1 2 tr since -> length (SpecSockets.taken 1 tr) = length (on_wire 2 since) -> all_read C96_test tr.
Proof.
  intros tr since H1 H2 i ifn HI HL. assert (ifn = "eth1"%string) by (destruct HL as [H|[s H]]; destruct H as [H|[H|[H|[]]]]; try discriminate H; congruence). subst ifn. destruct i as [|[|i]]; [discriminate HI| |destruct i; discriminate HI]. exists 2, since. auto.
Qed.

Lemma C96_good_ran : C96_run C96_good = Ret (Some (0, said_of (C96_run C96_good), trace_of (C96_run C96_good))).
Proof. apply ran. vm_compute. reflexivity. Qed.
Lemma C96_good_listens : listens 1 2 (C96_tr C96_good) (C96_since C96_good).
Proof. apply C96_listens; vm_compute; reflexivity. Qed.
Lemma C96_good_few : few_read C96_test (C96_tr C96_good).
Proof. apply Nat.ltb_lt. vm_compute. reflexivity. Qed.
Lemma C96_good_untroubled : ~ trouble (C96_tr C96_good).
Proof. apply untroubled. vm_compute. reflexivity. Qed.
Lemma C96_good_sent : sent_number C96_good = 2%nat.
Proof. vm_compute. reflexivity. Qed.
Lemma C96_good_wire : on_wire 2 (C96_since C96_good) = [rx_data C94_one; rx_data C94_one] /\ length (SpecSockets.taken 1 (C96_tr C96_good)) = 2%nat.
Proof. split; vm_compute; reflexivity. Qed.

Example C96_case : Forall part_ok C96_parts_of_line /\ flat_map operand_of C96_parts_of_line = line C96_test /\ proper C96_test /\ expects_back C96_src C96_test /\ fitting C96_test /\ Forall fair C96_good /\ sending "eth0" C96_test /\ listening "eth1" C96_test /\
  exists ev tr since, program (flat_map SpecMain.part_words C96_parts_of_line) C96_good = Ret (Some (0, ev, tr)) /\ few_read C96_test (net_seen tr) /\ ~ trouble (net_seen tr) /\ all_read C96_test (net_seen tr) /\ finished C96_test ev /\
    listens 1 2 (net_seen tr) since /\ on_wire 2 since = [rx_data C94_one; rx_data C94_one].
Proof.
  split; [exact C96_parts_ok|]. split; [reflexivity|]. split; [exact C96_proper|]. split; [exact C96_expects|]. split; [exact C96_fits|]. split; [apply C96_fair|]. split; [do 2 eexists; left; reflexivity|]. split; [right; eexists; right; left; reflexivity|].
  exists (said_of (C96_run C96_good)), (trace_of (C96_run C96_good)), (C96_since C96_good). split; [exact C96_good_ran|]. split; [exact C96_good_few|]. split; [exact C96_good_untroubled|]. destruct C96_good_wire as [W1 W2].
  split; [apply (C96_all_read _ _ C96_good_listens); rewrite W1; exact W2|]. split; [apply C96_finished; exact C96_good_sent|]. split; [exact C96_good_listens|exact W1].
Qed.

Example C96_captures_case : exists trC, SpecChildren.completes (map (fun c => fst (capture_add c)) (flat_map capture_of C96_parts_of_line)) 0 trC /\ (forall k, ~ In (Children.Interrupted k) trC) /\ SpecChildren.sent SIGINT trC = [100].
Proof.
  destruct (C95_parts _ _ _ _ _ C96_good_ran) as [t [caps [ws [cs [r [rds [A [_ [_ D]]]]]]]]]. rewrite (PProgram.options_run _ C96_test C96_parts_ok eq_refl) in A. injection A as _ <- _. eexists. split; [exact D|]. split; [|vm_compute; reflexivity].
  intros k X. assert (N : forallb (fun h => match h with Children.Interrupted _ => false | _ => true end) (child_seen (trace_of (C96_run C96_good))) = true) by (vm_compute; reflexivity). rewrite forallb_forall in N. apply N in X. discriminate X.
Qed.

(** The device adds a frame, and the status is 0: the frame is not read in time. *)
Lemma C96_late_ran : C96_run C96_late = Ret (Some (0, said_of (C96_run C96_late), trace_of (C96_run C96_late))).
Proof. apply ran. vm_compute. reflexivity. Qed.
Lemma C96_late_facts : (length (flat_map (fun a => frames_sent a (said_of (C96_run C96_late))) (C96_src "eth1")) =? 2)%nat && (length (on_wire 2 (C96_since C96_late)) =? 3)%nat && (sent_number C96_late =? 2)%nat = true.
Proof. vm_compute. reflexivity. Qed.
Theorem C96_late_refuted : exists src ps T sch ev tr since, Forall part_ok ps /\ flat_map operand_of ps = line T /\ proper T /\ expects_back src T /\ Forall fair sch /\
  program (flat_map SpecMain.part_words ps) sch = Ret (Some (0, ev, tr)) /\ few_read T (net_seen tr) /\ ~ trouble (net_seen tr) /\ finished T ev /\
  nth_error (used T) 1 = Some "eth1"%string /\ listening "eth1" T /\ listens 1 2 (net_seen tr) since /\ ~ passed_on src "eth1" ev (on_wire 2 since).
Proof.
  exists C96_src, C96_parts_of_line, C96_test, C96_late, (said_of (C96_run C96_late)), (trace_of (C96_run C96_late)), (C96_since C96_late). pose proof C96_late_facts as K. apply andb_prop in K. destruct K as [K K3]. apply andb_prop in K. destruct K as [K1 K2]. apply Nat.eqb_eq in K1, K2, K3.
  split; [exact C96_parts_ok|]. split; [reflexivity|]. split; [exact C96_proper|]. split; [exact C96_expects|]. split; [apply C96_fair|]. split; [exact C96_late_ran|]. split; [apply Nat.ltb_lt; vm_compute; reflexivity|]. split; [apply untroubled; vm_compute; reflexivity|]. split; [apply C96_finished; exact K3|].
  split; [reflexivity|]. split; [right; eexists; right; left; reflexivity|]. split; [apply C96_listens; vm_compute; reflexivity|]. intros P. apply Permutation_length in P. rewrite K1, K2 in P. discriminate P.
Qed.
Print Assumptions C96_late_refuted.

(** Nothing could be sent, and the status is 0: the frames came from elsewhere, and what is
    not sent is not reported (C47). *)
Lemma C96_unsent_ran : C96_run C96_unsent = Ret (Some (0, said_of (C96_run C96_unsent), trace_of (C96_run C96_unsent))).
Proof. apply ran. vm_compute. reflexivity. Qed.
Lemma C96_unsent_facts : (length (flat_map (fun a => frames_sent a (said_of (C96_run C96_unsent))) (C96_src "eth1")) =? 0)%nat && (length (on_wire 2 (C96_since C96_unsent)) =? 2)%nat && (length (SpecSockets.taken 1 (C96_tr C96_unsent)) =? 2)%nat = true.
Proof. vm_compute. reflexivity. Qed.
Theorem C96_unsent_refuted : exists src ps T sch ev tr since, Forall part_ok ps /\ flat_map operand_of ps = line T /\ proper T /\ expects_back src T /\ Forall fair sch /\
  program (flat_map SpecMain.part_words ps) sch = Ret (Some (0, ev, tr)) /\ few_read T (net_seen tr) /\ ~ trouble (net_seen tr) /\ all_read T (net_seen tr) /\
  nth_error (used T) 1 = Some "eth1"%string /\ listening "eth1" T /\ listens 1 2 (net_seen tr) since /\ ~ passed_on src "eth1" ev (on_wire 2 since).
Proof.
  exists C96_src, C96_parts_of_line, C96_test, C96_unsent, (said_of (C96_run C96_unsent)), (trace_of (C96_run C96_unsent)), (C96_since C96_unsent). pose proof C96_unsent_facts as K. apply andb_prop in K. destruct K as [K K3]. apply andb_prop in K. destruct K as [K1 K2]. apply Nat.eqb_eq in K1, K2, K3.
  assert (L : listens 1 2 (C96_tr C96_unsent) (C96_since C96_unsent)) by (apply C96_listens; vm_compute; reflexivity).
  split; [exact C96_parts_ok|]. split; [reflexivity|]. split; [exact C96_proper|]. split; [exact C96_expects|]. split; [apply C96_fair|]. split; [exact C96_unsent_ran|]. split; [apply Nat.ltb_lt; vm_compute; reflexivity|]. split; [apply untroubled; vm_compute; reflexivity|]. split; [apply (C96_all_read _ _ L); rewrite K2; exact K3|].
  split; [reflexivity|]. split; [right; eexists; right; left; reflexivity|]. split; [exact L|]. intros P. apply Permutation_length in P. rewrite K1, K2 in P. discriminate P.
Qed.
Print Assumptions C96_unsent_refuted.

(** Captures that end whenever they like: who is sent signals. *)

From Coq Require Import Permutation.
From Verif Require Import BaseFacts PChildren PChildren2 PChildren3.

(** ** Traces *)

Definition past (Q : list happening -> happening -> Prop) (tr : list happening) : Prop := forall a h b, tr = a ++ h :: b -> Q a h.

Lemma past_nil : forall Q, past Q [].
Proof. intros Q a h b E. destruct a; discriminate. Qed.

Lemma split_app : forall A (x y a : list A) h b, x ++ y = a ++ h :: b -> (exists a2, x = a ++ h :: a2 /\ b = a2 ++ y) \/ (exists e1, a = x ++ e1 /\ y = e1 ++ h :: b).
Proof.
  intros A. induction x as [|c x IH]; intros y a h b E; cbn [app] in *; [right; exists a; auto|]. destruct a as [|d a]; cbn [app] in E.
  - injection E as <- E. left. exists x. auto.
  - injection E as <- E. destruct (IH y a h b E) as [(a2 & A1 & A2)|(e1 & A1 & A2)]; subst; [left; exists a2; auto|right; exists e1; auto].
Qed.

Lemma past_app : forall Q tr ev, past Q tr -> (forall e1 h e2, ev = e1 ++ h :: e2 -> Q (tr ++ e1) h) -> past Q (tr ++ ev).
Proof. intros Q tr ev H1 H2 a h b E. destruct (split_app _ _ _ _ _ _ E) as [(a2 & A1 & A2)|(e1 & A1 & A2)]; [eapply H1; eauto|subst a; eapply H2; eauto]. Qed.

Lemma unique_split : forall A (h : A) a b c d, a ++ h :: b = c ++ h :: d -> ~ In h c -> ~ In h d -> a = c /\ b = d.
Proof.
  intros A h. induction a as [|x a IH]; intros b c d E Hc Hd; destruct c as [|y c]; cbn [app] in E.
  - injection E as E. auto.
  - injection E as <- E. destruct Hc. left. auto.
  - injection E as -> E. exfalso. apply Hd. rewrite <- E. apply in_or_app. right. left. auto.
  - injection E as <- E. destruct (IH b c d E) as [-> ->]; [intros X; apply Hc; right; auto|auto|auto].
Qed.

(** A process ends after it was forked. *)
Definition ended_after (a : list happening) (h : happening) : Prop := match h with Ended i p _ => In (i, p) (forked a) | _ => True end.

Lemma single : forall A (x : A) e1 h e2, [x] = e1 ++ h :: e2 -> e1 = [] /\ h = x.
Proof. intros A x [|y e1] h e2 E; cbn [app] in E; [injection E as -> _; auto|]. injection E as _ E. destruct e1; discriminate. Qed.

Lemma reach_ended_after : forall cmds n sch m tr, run sch (begin cmds n) = Some (m, tr) -> past ended_after tr.
Proof.
  intros cmds n sch m tr E. assert (H : (tidy (length cmds) m tr /\ kin m tr) /\ past ended_after tr); [|apply H]. revert sch m tr E.
  apply (run_reach (fun m tr => (tidy (length cmds) m tr /\ kin m tr) /\ past ended_after tr)); [split; [split; [apply tidy_begin|apply kin_begin]|apply past_nil]|].
  intros ch m tr m' ev [[T K] P] E. split; [eapply both_step; eauto|]. apply past_app; [auto|]. apply step_stepped in E.
  assert (Q : forall ev, Forall (fun h => match h with Ended _ _ _ => False | _ => True end) ev -> forall e1 h e2, ev = e1 ++ h :: e2 -> ended_after (tr ++ e1) h).
  { intros ev0 H e1 h e2 ->. rewrite Forall_forall in H. specialize (H h). destruct h; cbn [ended_after]; auto. destruct H. apply in_or_app. right. left. auto. }
  assert (R : forall (dd : list (nat * Z * wstatus)), Forall (fun h => match h with Ended _ _ _ => False | _ => True end) (map (fun d => Reaped (fst (fst d)) (snd (fst d))) dd)) by (induction dd; constructor; auto).
  destruct E; try (apply Q; repeat constructor; fail).
  - apply Q. destruct (nth_error cs i) as [c|]; [destruct (cap_running c)|]; repeat constructor.
  - apply Q. constructor; auto.
  - apply Q. destruct b; repeat constructor.
  - intros e1 h e2 E. destruct (single _ _ _ _ _ E) as [-> ->]. cbn [ended_after]. rewrite app_nil_r. apply (ki_live _ _ K). cbn [m_live]. eapply nth_error_In; eauto.
  - apply Q. eapply Forall_impl; [|eapply interrupt_events; eauto]. intros []; auto.
  - apply Q. apply Forall_app. split; [auto|]. eapply Forall_impl; [|eapply interrupt_events; eauto]. intros []; auto.
Qed.

(** ** Every capture is stopped *)

Lemma in_running : forall cs i p, known i p cs -> In p (running_pids cs).
Proof. intros cs i p (c & A & B & C). unfold running_pids. apply in_flat_map. exists c. split; [eapply nth_error_In; eauto|]. rewrite C. left. auto. Qed.

Lemma idle_known : forall m tr i p, kin m tr -> idle m -> In (i, p) (m_live m) -> known i p (m_caps m).
Proof. intros m tr i p K (x & rest & A & B) H. destruct (ki_start _ _ K i p H) as [X|X]; [|auto]. rewrite A in X. destruct (settled_underway _ _ _ _ _ B X). Qed.

(** What is not so in the parts of a complete run. *)
Lemma forall_not_in : forall A (P : A -> Prop) l x, Forall P l -> ~ P x -> ~ In x l.
Proof. intros A P l x H N HI. rewrite Forall_forall in H. auto. Qed.

Lemma not_ended_live : forall cmds n t m i p t1 t2, goes (begin cmds n) t m -> t = t1 ++ Forked i p :: t2 -> (forall st, ~ In (Ended i p st) t2) -> In (i, p) (m_live m).
Proof.
  intros cmds n t m i p t1 t2 [sch E] Ht Hn. destruct (both_run _ _ _ _ _ E) as [T K]. pose proof (reach_ended_after _ _ _ _ _ E) as Pa.
  assert (Hf : In (i, p) (forked t)) by (subst t; rewrite forked_app; apply in_or_app; right; left; auto). destruct (ki_end _ _ K i p Hf) as [X|(st & X)]; [auto|exfalso].
  subst t. apply in_app_or in X. destruct X as [X|[X|X]]; [|discriminate|exact (Hn st X)]. apply in_split in X. destruct X as (a & b & ->).
  assert (Hq : In (i, p) (forked a)) by (apply (Pa a (Ended i p st) (b ++ Forked i p :: t2)); rewrite <- app_assoc; auto).
  pose proof (ti_once _ _ _ T) as To. apply NoDup_app_remove_r in To. rewrite !forked_app in To. cbn [forked flat_map app] in To. rewrite map_app in To. cbn [map fst] in To.
  fold (forked b) in To. apply NoDup_remove_2 in To. apply To. apply in_or_app. left. rewrite map_app. apply in_or_app. left. apply (in_map fst) in Hq. exact Hq.
Qed.

Lemma mark_unique : forall cmds n tr, completes cmds n tr -> forall tA b1 b2 c1 c2, tr = tA ++ Stopping :: (b1 ++ b2) ++ Killing :: c1 ++ c2 -> Forall early_event tA -> Forall (signalling SIGINT) b1 -> Forall waiting b2 -> Forall (signalling SIGTERM) c1 -> Forall waiting c2 ->
  (forall a b, tr = a ++ Stopping :: b -> a = tA /\ b = (b1 ++ b2) ++ Killing :: c1 ++ c2) /\ (forall a b, tr = a ++ Killing :: b -> a = tA ++ Stopping :: b1 ++ b2 /\ b = c1 ++ c2).
Proof.
  intros cmds n tr C tA b1 b2 c1 c2 E HA H1 H2 H3 H4. split; intros a b Hab.
  - apply unique_split with (h := Stopping).
    + rewrite <- Hab. auto.
    + eapply forall_not_in; [exact HA|intros []].
    + intros X. apply in_app_or in X. destruct X as [X|[X|X]]; [|discriminate|].
      * apply in_app_or in X. destruct X as [X|X]; revert X; eapply forall_not_in; eauto; intros [].
      * apply in_app_or in X. destruct X as [X|X]; revert X; eapply forall_not_in; eauto; intros [].
  - apply unique_split with (h := Killing).
    + rewrite <- Hab, E, <- !app_assoc. cbn [app]. rewrite <- !app_assoc. auto.
    + intros X. apply in_app_or in X. destruct X as [X|[X|X]]; [|discriminate|].
      * revert X. eapply forall_not_in; [exact HA|intros []].
      * apply in_app_or in X. destruct X as [X|X]; revert X; eapply forall_not_in; eauto; intros [].
    + intros X. apply in_app_or in X. destruct X as [X|X]; revert X; eapply forall_not_in; eauto; intros [].
Qed.

Lemma stopped : forall cmds n tr i p t1 t2 t3, completes cmds n tr ->
  (tr = t1 ++ Forked i p :: t2 ++ Stopping :: t3 -> (forall st, ~ In (Ended i p st) t2) -> In (Sent p SIGINT) t3) /\
  (tr = t1 ++ Forked i p :: t2 ++ Killing :: t3 -> (forall st, ~ In (Ended i p st) t2) -> In (Sent p SIGTERM) t3).
Proof.
  intros cmds n tr i p t1 t2 t3 C. destruct (complete_parts _ _ _ C) as (tA & b1 & b2 & c1 & c2 & mA & mB & m' & E & HA & GA & GB & G' & Hd & IA & IB & S1 & R1 & W1 & P1 & S2 & R2 & W2 & P2).
  destruct (mark_unique _ _ _ C _ _ _ _ _ E HA S1 W1 S2 W2) as [U1 U2].
  assert (HS : forall s l, In p (sent s l) -> In (Sent p s) l).
  { intros s l H. unfold sent in H. apply in_flat_map in H. destruct H as (h & X1 & X2). destruct h; cbn in X2; try contradiction. destruct (sig =? s) eqn:Es; [|destruct X2]. destruct X2 as [<-|[]]. assert (sig = s) by lia. subst. auto. }
  split; intros Ht Hn.
  - destruct (U1 (t1 ++ Forked i p :: t2) t3) as [X1 X2]; [rewrite Ht, <- app_assoc; auto|]. pose proof (not_ended_live _ _ _ _ _ _ _ _ GA (eq_sym X1) Hn) as L. destruct GA as [sA EA]. destruct (both_run _ _ _ _ _ EA) as [T K].
    subst t3. apply in_or_app. left. apply in_or_app. left. apply HS. rewrite R1. eapply in_running. eapply idle_known; eauto.
  - destruct (U2 (t1 ++ Forked i p :: t2) t3) as [X1 X2]; [rewrite Ht, <- app_assoc; auto|]. pose proof (not_ended_live _ _ _ _ _ _ _ _ GB (eq_sym X1) Hn) as L. destruct GB as [sB EB]. destruct (both_run _ _ _ _ _ EB) as [T K].
    subst t3. apply in_or_app. left. apply HS. rewrite R2. eapply in_running. eapply idle_known; eauto.
Qed.

Lemma polls_early : forall t, Forall early_event t -> polls t = 0%nat.
Proof. induction t as [|h t IH]; intros H; [auto|]. pose proof (Forall_inv H) as A. pose proof (IH (Forall_inv_tail H)). unfold polls in *. cbn [filter]. destruct h; auto; destruct A. Qed.
Lemma polls_signalling : forall s t, Forall (signalling s) t -> polls t = 0%nat.
Proof. intros s. induction t as [|h t IH]; intros H; [auto|]. pose proof (Forall_inv H) as A. pose proof (IH (Forall_inv_tail H)). unfold polls in *. cbn [filter]. destruct h; auto; destruct A. Qed.
Lemma turns_Z : Z.of_nat turns = 10000.
Proof. unfold turns. rewrite Z2Nat.id by lia. auto. Qed.

Lemma in_sent : forall p s l, In (Sent p s) l -> In p (sent s l).
Proof. intros p s l H. unfold sent. apply in_flat_map. exists (Sent p s). split; [auto|]. rewrite Z.eqb_refl. left. auto. Qed.

(** SIGTERM comes after ten thousand turns. *)
Lemma patience : forall cmds n tr p a b, completes cmds n tr -> tr = a ++ Sent p SIGTERM :: b -> Z.of_nat (polls a) = 10000 /\ exists a1 a2, a = a1 ++ Stopping :: a2.
Proof.
  intros cmds n tr p a b C Ht. destruct (complete_parts _ _ _ C) as (tA & b1 & b2 & c1 & c2 & mA & mB & m' & E & HA & GA & GB & G' & Hd & IA & IB & S1 & R1 & W1 & P1 & S2 & R2 & W2 & P2).
  assert (E2 : tr = (tA ++ Stopping :: b1 ++ b2 ++ [Killing]) ++ c1 ++ c2) by (rewrite E, <- !app_assoc; cbn [app]; rewrite <- !app_assoc; cbn [app]; auto).
  rewrite Ht in E2. symmetry in E2. destruct (split_app _ _ _ _ _ _ E2) as [(a2 & X1 & X2)|(e1 & X1 & X2)].
  - exfalso. assert (HI : In (Sent p SIGTERM) (tA ++ Stopping :: b1 ++ b2 ++ [Killing])) by (rewrite X1; apply in_or_app; right; left; auto).
    apply in_app_or in HI. destruct HI as [HI|[HI|HI]]; [revert HI; eapply forall_not_in; [exact HA|intros []]|discriminate|].
    apply in_app_or in HI. destruct HI as [HI|HI]; [rewrite Forall_forall in S1; specialize (S1 _ HI); discriminate|]. apply in_app_or in HI. destruct HI as [HI|[HI|[]]]; [revert HI; eapply forall_not_in; [exact W1|intros []]|discriminate].
  - destruct (split_app _ _ _ _ _ _ X2) as [(a2 & Y1 & Y2)|(e2 & Y1 & Y2)].
    + assert (Hr : running_pids (m_caps mB) <> []) by (rewrite <- R2, Y1; intros Z; rewrite sent_app in Z; apply app_eq_nil in Z; destruct Z as [_ Z]; cbn in Z; discriminate).
      destruct P1 as [P1|[_ P1]]; [|congruence]. assert (He1 : polls e1 = 0%nat) by (apply (polls_signalling SIGTERM); rewrite Y1 in S2; apply Forall_app in S2; apply S2).
      subst a. split; [|exists tA, ((b1 ++ b2 ++ [Killing]) ++ e1); rewrite <- app_assoc; cbn [app]; auto].
      rewrite !polls_app. change (Stopping :: ?l) with ([Stopping] ++ l). rewrite !polls_app, (polls_early tA HA), (polls_signalling _ _ S1), P1, He1. change (polls [Stopping]) with 0%nat. change (polls [Killing]) with 0%nat. rewrite !Nat.add_0_r. cbn [Nat.add]. apply turns_Z.
    + exfalso. assert (HI : In (Sent p SIGTERM) c2) by (rewrite Y2; apply in_or_app; right; left; auto). revert HI. eapply forall_not_in; [exact W2|intros []].
Qed.

(** At the end. *)
Lemma at_the_end : forall cmds n tr i p, completes cmds n tr -> In (Forked i p) tr ->
  (exists st, In (Ended i p st) tr) \/ In (Sent p SIGINT) tr /\ In (Sent p SIGTERM) tr /\ Z.of_nat (polls tr) = 20000.
Proof.
  intros cmds n tr i p C Hf. destruct (complete_parts _ _ _ C) as (tA & b1 & b2 & c1 & c2 & mA & mB & m' & E & HA & GA & GB & G' & Hd & IA & IB & S1 & R1 & W1 & P1 & S2 & R2 & W2 & P2).
  destruct G' as [s' E']. destruct (both_run _ _ _ _ _ E') as [T K].
  assert (Hi : In (i, p) (forked tr)) by (unfold forked; apply in_flat_map; exists (Forked i p); split; [auto|left; auto]).
  destruct (ki_end _ _ K i p Hi) as [X|X]; [right|left; auto].
  assert (Kn : known i p (m_caps m')) by (destruct (ki_start _ _ K i p X) as [Y|Y]; [rewrite Hd in Y; destruct Y|auto]). apply in_running in Kn.
  assert (P2' : polls c2 = turns) by (destruct P2 as [P2|[_ P2]]; [auto|rewrite P2 in Kn; destruct Kn]).
  assert (FA : In (Forked i p) tA).
  { rewrite E in Hf. apply in_app_or in Hf. destruct Hf as [Hf|[Hf|Hf]]; [auto|discriminate|exfalso]. apply in_app_or in Hf. destruct Hf as [Hf|[Hf|Hf]]; [|discriminate|]; apply in_app_or in Hf; destruct Hf as [Hf|Hf]; revert Hf; eapply forall_not_in; eauto; intros []. }
  assert (NE : forall st, ~ In (Ended i p st) tr).
  { intros st Y. pose proof (reach_ended_after _ _ _ _ _ E') as Pa. apply in_split in FA. destruct FA as (t1 & t2 & FA).
    (* live and dead cannot be the same *)
    destruct (ki_wait _ _ K i p st Y) as [Z|Z].
    - pose proof (ki_pids _ _ K) as N. unfold in_use in N. apply in_split in X. destruct X as (l1 & l2 & X). rewrite X, map_app, <- app_assoc in N. cbn [map snd app] in N. apply NoDup_remove_2 in N. apply N. apply in_or_app. right. apply in_or_app. right. apply in_map_iff. exists (i, p, st). auto.
    - revert X Z. clear - E'. revert s' m' tr E'. intros s' m' tr E'. assert (Q : kin m' tr /\ tidy (length cmds) m' tr /\ (In (i, p) (m_live m') -> ~ In (Reaped i p) tr)).
      { revert s' m' tr E'. apply (run_reach (fun m tr => kin m tr /\ tidy (length cmds) m tr /\ (In (i, p) (m_live m) -> ~ In (Reaped i p) tr))).
        - split; [apply kin_begin|]. split; [apply tidy_begin|]. intros [].
        - intros ch m tr m' ev (K & T & H) E. pose proof (kin_step _ _ _ _ _ _ T K E) as K'. pose proof (tidy_step _ _ _ _ _ _ T E) as T'. split; [auto|]. split; [auto|]. intros L R. apply in_app_or in R.
          assert (Dn : forall st, In (i, p, st) (m_dead m) -> ~ In (i, p) (m_live m)).
          { intros st D L0. pose proof (ki_pids _ _ K) as N. unfold in_use in N. apply in_split in L0. destruct L0 as (l1 & l2 & L0). rewrite L0, map_app, <- app_assoc in N. cbn [map snd app] in N. apply NoDup_remove_2 in N. apply N. apply in_or_app. right. apply in_or_app. right. apply in_map_iff. exists (i, p, st). auto. }
          assert (Rd : forall (dd : list (nat * Z * wstatus)), In (Reaped i p) (map (fun d => Reaped (fst (fst d)) (snd (fst d))) dd) -> exists st, In (i, p, st) dd).
          { intros dd X. apply in_map_iff in X. destruct X as ([[j q] st] & X1 & X2). cbn [fst snd] in X1. exists st. assert (j = i /\ q = p) as [-> ->] by (split; congruence). auto. }
          assert (Old : In (Reaped i p) tr -> In (i, p) (m_live m') -> In (i, p) (m_live m)).
          { intros R0 L0. apply step_stepped in E. destruct E; cbn [m_live] in *; auto.
            - apply in_app_or in L0. destruct L0 as [L0|[L0|[]]]; [auto|]. assert (i0 = i /\ p0 = p) as [-> ->] by (split; congruence). exfalso. pose proof (ki_waited _ _ K i p R0) as W. pose proof (ti_once _ _ _ T) as To. cbn [m_code] in To. change (forks (Fork i :: rest)) with ([i] ++ forks rest) in To. apply NoDup_remove_2 in To. apply To. apply in_or_app. left. apply (in_map fst) in W. exact W.
            - eapply remove_at_sub; eauto. }
          destruct R as [R|R]; [exact (H (Old R L) R)|].
          apply step_stepped in E. destruct E; cbn [m_live m_dead] in *; try (destruct R as [R|[]]; discriminate R); try (destruct R; fail).
          + destruct (nth_error cs i0) as [c|]; [destruct (cap_running c)|]; cbn in R; try contradiction. destruct R as [R|[]]. discriminate R.
          + destruct R as [R|R]; [discriminate R|]. destruct (Rd _ R) as [st D]. exact (Dn st D L).
          + destruct R as [R|[]]. destruct b; discriminate R.
          + pose proof (interrupt_events _ _ _ H0) as Ie. rewrite Forall_forall in Ie. apply (Ie _ R).
          + apply in_app_or in R. destruct R as [R|R]; [destruct (Rd _ R) as [st D]; exact (Dn st D L)|]. pose proof (interrupt_events _ _ _ H0) as Ie. rewrite Forall_forall in Ie. apply (Ie _ R). }
      destruct Q as (_ & _ & Q). exact Q. }
  apply in_split in FA. destruct FA as (t1 & t2 & FA).
  assert (N2 : forall st, ~ In (Ended i p st) t2) by (intros st Y; apply (NE st); rewrite E, FA; apply in_or_app; left; apply in_or_app; right; right; auto).
  destruct (stopped cmds n tr i p t1 t2 ((b1 ++ b2) ++ Killing :: c1 ++ c2) C) as [Q1 _]. destruct (stopped cmds n tr i p t1 (t2 ++ Stopping :: b1 ++ b2) (c1 ++ c2) C) as [_ Q2].
  assert (J1 : In (Sent p SIGINT) ((b1 ++ b2) ++ Killing :: c1 ++ c2)) by (apply Q1; [rewrite E, FA, <- app_assoc; auto|auto]).
  assert (J2 : In (Sent p SIGTERM) (c1 ++ c2)).
  { apply Q2; [rewrite E, FA, <- !app_assoc; cbn [app]; rewrite <- !app_assoc; auto|]. intros st Y. apply (NE st). rewrite E, FA. apply in_app_or in Y. apply in_or_app. destruct Y as [Y|[Y|Y]]; [left; apply in_or_app; right; right; auto|discriminate|right; right; apply in_or_app; left; auto]. }
  split; [rewrite E; apply in_or_app; right; right; auto|]. split; [rewrite E; apply in_or_app; right; right; apply in_or_app; right; right; auto|].
  assert (P1' : polls b2 = turns).
  { destruct P1 as [P1|[_ P1]]; [auto|]. rewrite P1 in R2. apply in_app_or in J2. destruct J2 as [J2|J2]; [apply in_sent in J2; rewrite R2 in J2; destruct J2|]. exfalso. revert J2. eapply forall_not_in; [exact W2|intros []]. }
  rewrite E. rewrite !polls_app. change (Stopping :: ?l) with ([Stopping] ++ l). change (Killing :: ?l) with ([Killing] ++ l). rewrite !polls_app, (polls_early tA HA), (polls_signalling _ _ S1), (polls_signalling _ _ S2), P1', P2'. change (polls [Stopping]) with 0%nat. change (polls [Killing]) with 0%nat. pose proof turns_Z. lia.
Qed.

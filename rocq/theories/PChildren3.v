(** Captures that end whenever they like: the parts of a complete run. *)

From Coq Require Import Permutation.
From Verif Require Import BaseFacts PChildren PChildren2.

Definition goes (m : machine) (tr : list happening) (m' : machine) : Prop := exists sch, run sch m = Some (m', tr).

Lemma run_app : forall s1 s2 m m1 t1 m2 t2, run s1 m = Some (m1, t1) -> run s2 m1 = Some (m2, t2) -> run (s1 ++ s2) m = Some (m2, t1 ++ t2).
Proof.
  induction s1 as [|ch s1 IH]; intros s2 m m1 t1 m2 t2 E1 E2; cbn [run app] in *.
  - apply some_inj in E1. apply pair_inj in E1. destruct E1; subst. auto.
  - destruct (step ch m) as [[ma ea]|]; [|discriminate]. destruct (run s1 ma) as [[mb eb]|] eqn:E; [|discriminate]. apply some_inj in E1. apply pair_inj in E1. destruct E1; subst.
    rewrite (IH s2 ma m1 eb m2 t2 E E2), app_assoc. auto.
Qed.

Lemma goes_trans : forall m t1 m1 t2 m2, goes m t1 m1 -> goes m1 t2 m2 -> goes m (t1 ++ t2) m2.
Proof. intros m t1 m1 t2 m2 [s1 E1] [s2 E2]. exists (s1 ++ s2). eapply run_app; eauto. Qed.
Lemma goes_refl : forall m, goes m [] m.
Proof. intros m. exists []. auto. Qed.
Lemma goes_one : forall ch m m' ev, step ch m = Some (m', ev) -> goes m ev m'.
Proof. intros ch m m' ev E. exists [ch]. cbn [run]. rewrite E, app_nil_r. auto. Qed.

(** ** Starting, receiving, sleeping *)

Definition early (x : instr) : Prop := match x with Stop _ _ | Poll _ | Note _ => False | _ => True end.
Definition early_event (h : happening) : Prop := match h with Sent _ _ | Polled | Stopping | Killing => False | _ => True end.

Lemma early_reaped : forall (dd : list (nat * Z * wstatus)), Forall early_event (map (fun d => Reaped (fst (fst d)) (snd (fst d))) dd).
Proof. induction dd; constructor; cbn; auto. Qed.

Lemma early_interrupt : forall code code' ev, (code', ev) = (code, []) \/ interrupt code = Some (code', ev) -> Forall early_event ev.
Proof. intros code code' ev H. eapply Forall_impl; [|eapply interrupt_events; eauto]. intros []; cbn; auto. Qed.

Lemma early_step : forall ch m m' ev c1 c2, step ch m = Some (m', ev) -> m_code m = c1 ++ c2 -> c1 <> [] -> Forall early c1 ->
  exists c1', m_code m' = c1' ++ c2 /\ Forall early c1' /\ Forall early_event ev.
Proof.
  intros ch m m' ev c1 c2 E Hm Hne He. apply step_stepped in E. destruct c1 as [|x c1]; [congruence|]. cbn [app] in Hm. pose proof (Forall_inv He) as Hx. pose proof (Forall_inv_tail He) as Hc.
  assert (EE : forall h, early_event h -> Forall early_event [h]) by (intros; repeat constructor; auto).
  destruct E; cbn [m_code] in Hm |- *; try (injection Hm as <- ->); try (destruct Hx; fail).
  - exists c1. repeat split; auto.
  - exists (SetPid i p :: SetRunning i :: c1). split; [auto|]. split; [constructor; [exact I|constructor; [exact I|auto]]|apply EE; exact I].
  - exists c1. repeat (split; auto); apply EE; exact I.
  - exists c1. repeat split; auto.
  - exists c1. repeat (split; auto); apply EE; exact I.
  - exists c1. repeat (split; auto); apply EE; exact I.
  - exists c1. repeat split; auto.
  - exists (Select (S k) n :: c1). repeat (split; auto); apply EE; exact I.
  - exists (if existsb cap_running cs then Nap Flush :: c1 else c1). destruct (existsb cap_running cs); repeat (split; auto).
  - exists (x :: c1). repeat (split; auto); apply EE; exact I.
  - pose proof (early_interrupt _ _ _ H). destruct (interrupt_code _ _ _ H) as [->|(y & -> & _)]; [exists (x :: c1); auto|]. injection Hm as -> ->. exists c1. auto.
  - assert (Forall early_event (map (fun d => Reaped (fst (fst d)) (snd (fst d))) dd ++ ev)) by (apply Forall_app; split; [apply early_reaped|eapply early_interrupt; eauto]). destruct (interrupt_code _ _ _ H) as [->|(y & -> & _)]; [exists (x :: c1); auto|]. injection Hm as -> ->. exists c1. auto.
Qed.

Lemma run_early : forall sch m m' tr c1 c2, run sch m = Some (m', tr) -> m_code m' = [] -> m_code m = c1 ++ c2 -> Forall early c1 ->
  exists m1 t1 t2, goes m t1 m1 /\ m_code m1 = c2 /\ goes m1 t2 m' /\ tr = t1 ++ t2 /\ Forall early_event t1.
Proof.
  induction sch as [|ch sch IH]; intros m m' tr c1 c2 E Hd Hc He; cbn [run] in E.
  - apply some_inj in E. apply pair_inj in E. destruct E; subst. rewrite Hd in Hc. destruct c1; [|discriminate]. cbn [app] in Hc. exists m', [], []. repeat split; auto; try apply goes_refl. congruence.
  - destruct (step ch m) as [[ma ea]|] eqn:E1; [|discriminate]. destruct (run sch ma) as [[mb eb]|] eqn:E2; [|discriminate]. apply some_inj in E. apply pair_inj in E. destruct E; subst.
    destruct c1 as [|x c1].
    + exists m, [], (ea ++ eb). repeat split; auto; [apply goes_refl|]. eapply goes_trans; [eapply goes_one; eauto|exists sch; auto].
    + destruct (early_step _ _ _ _ _ _ E1 Hc) as (c1' & A & B & C); [discriminate|auto|]. destruct (IH _ _ _ _ _ E2 Hd A B) as (m1 & t1 & t2 & X1 & X2 & X3 & X4 & X5).
      exists m1, (ea ++ t1), t2. split; [eapply goes_trans; [eapply goes_one; eauto|auto]|]. repeat (split; [solve [auto]|]). split; [subst; rewrite app_assoc; auto|]. apply Forall_app. auto.
Qed.

(** ** One step that cannot be interrupted *)

Definition is_end (h : happening) : Prop := match h with Ended _ _ _ => True | _ => False end.

Lemma run_one : forall sch m m' tr x rest, run sch m = Some (m', tr) -> m_code m' = [] -> m_code m = x :: rest -> interrupt (x :: rest) = None -> m_sig m = Nothing ->
  exists m1 t1 pid m2 ev t2, goes m t1 m1 /\ m_code m1 = x :: rest /\ m_caps m1 = m_caps m /\ m_sig m1 = Nothing /\ Forall is_end t1 /\ go pid m1 x rest = Some (m2, ev) /\ goes m2 t2 m' /\ tr = t1 ++ ev ++ t2.
Proof.
  induction sch as [|ch sch IH]; intros m m' tr x rest E Hd Hc Hi Hs; cbn [run] in E.
  - apply some_inj in E. apply pair_inj in E. destruct E; subst. congruence.
  - destruct (step ch m) as [[ma ea]|] eqn:E1; [|discriminate]. destruct (run sch ma) as [[mb eb]|] eqn:E2; [|discriminate]. apply some_inj in E. apply pair_inj in E. destruct E; subst.
    destruct ch as [pid|k st pos|inside].
    + cbn [step] in E1. rewrite Hc in E1. exists m, [], pid, ma, ea, eb. split; [apply goes_refl|]. repeat (split; [solve [auto]|]). split; [exists sch; auto|auto].
    + pose proof E1 as E1'. cbn [step] in E1. destruct (nth_error (m_live m) k) as [[i p]|]; [|discriminate]. apply some_inj in E1. apply pair_inj in E1. destruct E1 as [<- <-].
      destruct (IH _ _ _ x rest E2 Hd) as (m1 & t1 & pid & m2 & ev & t2 & X1 & X2 & X3 & X4 & X5 & X6 & X7 & X8); auto. exists m1, ([Ended i p st] ++ t1), pid, m2, ev, t2.
      split; [eapply goes_trans; [eapply goes_one; exact E1'|auto]|]. repeat (split; [solve [auto]|]). split; [constructor; [exact I|auto]|]. repeat (split; [solve [auto]|]). subst eb. auto.
    + pose proof E1 as E1'. cbn [step] in E1. destruct (m_pending m); [|discriminate]. rewrite Hc, Hi, Hs in E1. destruct inside; [discriminate|]. apply some_inj in E1. apply pair_inj in E1. destruct E1 as [<- <-].
      destruct (IH _ _ _ x rest E2 Hd) as (m1 & t1 & pid & m2 & ev & t2 & X1 & X2 & X3 & X4 & X5 & X6 & X7 & X8); auto. exists m1, ([] ++ t1), pid, m2, ev, t2.
      split; [eapply goes_trans; [eapply goes_one; exact E1'|auto]|]. repeat (split; [solve [auto]|]). auto.
Qed.

(** The children of the step before may still be waited for when this step is reached. *)
Lemma run_install : forall sch m m' tr rest, run sch m = Some (m', tr) -> m_code m' = [] -> m_code m = Install Nothing :: rest ->
  exists m1 t1 t2, goes m t1 m1 /\ m_code m1 = rest /\ m_sig m1 = Nothing /\ goes m1 t2 m' /\ tr = t1 ++ t2 /\ Forall early_event t1.
Proof.
  induction sch as [|ch sch IH]; intros m m' tr rest E Hd Hc; cbn [run] in E.
  - apply some_inj in E. apply pair_inj in E. destruct E; subst. congruence.
  - destruct (step ch m) as [[ma ea]|] eqn:E1; [|discriminate]. destruct (run sch ma) as [[mb eb]|] eqn:E2; [|discriminate]. apply some_inj in E. apply pair_inj in E. destruct E; subst.
    destruct (early_step _ _ _ _ [Install Nothing] rest E1 Hc) as (c1' & A & B & C); [discriminate|repeat constructor|].
    assert (D : m_code ma = Install Nothing :: rest \/ m_code ma = rest /\ m_sig ma = Nothing).
    { apply step_stepped in E1. clear A B C E2. destruct E1; cbn [m_code m_sig] in *; try discriminate Hc; auto.
      - injection Hc as -> ->. auto.
      - left. destruct (interrupt_code _ _ _ H) as [->|(y & -> & _)]; [auto|]. injection Hc as -> ->. destruct H as [H|H]; [apply pair_inj in H; destruct H as [H _]; exfalso; apply (f_equal (@length instr)) in H; cbn [length] in H; lia|discriminate].
      - left. destruct (interrupt_code _ _ _ H) as [->|(y & -> & _)]; [auto|]. injection Hc as -> ->. destruct H as [H|H]; [apply pair_inj in H; destruct H as [H _]; exfalso; apply (f_equal (@length instr)) in H; cbn [length] in H; lia|discriminate]. }
    destruct D as [D|[D1 D2]].
    + destruct (IH _ _ _ _ E2 Hd D) as (m1 & t1 & t2 & X1 & X2 & X3 & X4 & X5 & X6). exists m1, (ea ++ t1), t2. split; [eapply goes_trans; [eapply goes_one; eauto|auto]|]. repeat (split; [solve [auto]|]). split; [subst; rewrite app_assoc; auto|]. apply Forall_app. auto.
    + exists ma, ea, eb. split; [eapply goes_one; eauto|]. repeat (split; [solve [auto]|]). split; [exists sch; auto|auto].
Qed.

(** ** Signals *)

Lemma sent_app : forall s a b, sent s (a ++ b) = sent s a ++ sent s b.
Proof. intros. unfold sent. apply flat_map_app. Qed.
Lemma sent_ends : forall s t, Forall is_end t -> sent s t = [].
Proof. intros s. induction t as [|h t IH]; intros H; [auto|]. pose proof (Forall_inv H) as A. unfold sent in *. cbn [flat_map]. rewrite (IH (Forall_inv_tail H)). destruct h; auto; destruct A. Qed.
Lemma sent_early : forall s t, Forall early_event t -> sent s t = [].
Proof. intros s. induction t as [|h t IH]; intros H; [auto|]. pose proof (Forall_inv H) as A. unfold sent in *. cbn [flat_map]. rewrite (IH (Forall_inv_tail H)). destruct h; auto; destruct A. Qed.

Definition signalling (sig : Z) (h : happening) : Prop := match h with Ended _ _ _ => True | Sent _ s => s = sig | _ => False end.

Lemma run_stops : forall sig rest l m m' tr, goes m tr m' -> m_code m' = [] -> m_code m = map (fun i => Stop i sig) l ++ rest -> m_sig m = Nothing ->
  exists m1 t1 t2, goes m t1 m1 /\ m_code m1 = rest /\ m_sig m1 = Nothing /\ m_caps m1 = m_caps m /\ goes m1 t2 m' /\ tr = t1 ++ t2 /\ Forall (signalling sig) t1 /\
  sent sig t1 = flat_map (fun i => match nth_error (m_caps m) i with Some c => if cap_running c then [cap_pid c] else [] | None => [] end) l.
Proof.
  intros sig rest. induction l as [|i l IH]; intros m m' tr [sch E] Hd Hc Hs.
  - exists m, [], tr. split; [apply goes_refl|]. repeat (split; [solve [auto]|]). split; [exists sch; auto|]. auto.
  - cbn [map app] in Hc. destruct (run_one _ _ _ _ _ _ E Hd Hc eq_refl Hs) as (m1 & t1 & pid & m2 & ev & t2 & X1 & X2 & X3 & X4 & X5 & X6 & X7 & X8). cbn [go] in X6. apply some_inj in X6. apply pair_inj in X6. destruct X6 as [Y1 Y2].
    assert (S1 : step (Go pid) m1 = Some (m2, ev)) by (cbn [step]; rewrite X2; cbn [go]; congruence).
    destruct (IH m2 m' t2 X7 Hd) as (m3 & t3 & t4 & Z1 & Z2 & Z3 & Z4 & Z5 & Z6 & Z7 & Z8); [subst m2; auto|subst m2; auto|].
    assert (Hcaps : m_caps m2 = m_caps m) by (subst m2; auto).
    exists m3, (t1 ++ ev ++ t3), t4. split; [eapply goes_trans; [exact X1|eapply goes_trans; [eapply goes_one; exact S1|exact Z1]]|].
    split; [auto|]. split; [auto|]. split; [congruence|]. split; [auto|]. split; [subst tr t2; rewrite <- !app_assoc; auto|]. split.
    + apply Forall_app. split; [eapply Forall_impl; [|exact X5]; intros []; cbn; auto; intros []|]. apply Forall_app. split; [|auto]. subst ev. destruct (nth_error (m_caps m1) i) as [c|]; [destruct (cap_running c)|]; repeat constructor.
    + rewrite !sent_app, (sent_ends sig t1 X5), Z8, Hcaps. cbn [flat_map app]. f_equal. rewrite <- Y2, X3. destruct (nth_error (m_caps m) i) as [c|]; [destruct (cap_running c)|]; auto. unfold sent. cbn [flat_map app]. rewrite Z.eqb_refl. auto.
Qed.

Lemma stop_list : forall (l : list capture) (f : capture -> list Z), flat_map (fun i => match nth_error l i with Some c => f c | None => [] end) (seq 0 (length l)) = flat_map f l.
Proof.
  intros l f. assert (H : forall pre l, flat_map (fun i => match nth_error (pre ++ l) i with Some c => f c | None => [] end) (seq (length pre) (length l)) = flat_map f l :> list Z).
  { intros pre l0. revert pre. induction l0 as [|c l0 IH]; intros pre; [auto|]. cbn [length seq flat_map]. rewrite nth_error_app2, Nat.sub_diag by lia. cbn [nth_error]. f_equal.
    specialize (IH (pre ++ [c])). rewrite app_length, Nat.add_1_r, <- app_assoc in IH. exact IH. }
  apply (H [] l).
Qed.

Definition running_pids (cs : list capture) : list Z := flat_map (fun c => if cap_running c then [cap_pid c] else []) cs.

(** ** Waiting *)

Lemma polls_app : forall a b, polls (a ++ b) = (polls a + polls b)%nat.
Proof. intros. unfold polls. rewrite filter_app, app_length. auto. Qed.
Definition waiting (h : happening) : Prop := match h with Ended _ _ _ | Polled | Reaped _ _ => True | _ => False end.
Lemma polls_ends : forall t, Forall is_end t -> polls t = 0%nat.
Proof. induction t as [|h t IH]; intros H; [auto|]. pose proof (Forall_inv H) as A. pose proof (IH (Forall_inv_tail H)). unfold polls in *. cbn [filter]. destruct h; auto; destruct A. Qed.
Lemma polls_reaped : forall (dd : list (nat * Z * wstatus)), polls (map (fun d => Reaped (fst (fst d)) (snd (fst d))) dd) = 0%nat.
Proof. induction dd; auto. Qed.

Lemma run_poll : forall rest n m m' tr, goes m tr m' -> m_code m' = [] -> m_code m = Poll n :: rest -> m_sig m = Nothing ->
  exists m1 t1 t2, goes m t1 m1 /\ m_code m1 = rest /\ m_sig m1 = Nothing /\ goes m1 t2 m' /\ tr = t1 ++ t2 /\ Forall waiting t1 /\
  (polls t1 = n \/ (polls t1 < n)%nat /\ existsb cap_running (m_caps m1) = false).
Proof.
  intros rest. induction n as [|n IH]; intros m m' tr [sch E] Hd Hc Hs; destruct (run_one _ _ _ _ _ _ E Hd Hc eq_refl Hs) as (m1 & t1 & pid & m2 & ev & t2 & X1 & X2 & X3 & X4 & X5 & X6 & X7 & X8);
    assert (S1 : step (Go pid) m1 = Some (m2, ev)) by (cbn [step]; rewrite X2; exact X6);
    assert (Hw : Forall waiting t1) by (eapply Forall_impl; [|exact X5]; intros []; cbn; auto);
    cbn [go] in X6.
  - apply some_inj in X6. apply pair_inj in X6. destruct X6 as [Y1 Y2]. exists m2, (t1 ++ ev), t2. subst m2 ev. split; [eapply goes_trans; [exact X1|eapply goes_one; exact S1]|]. cbn [with_code m_code m_sig].
    repeat (split; [solve [auto]|]). split; [subst tr; rewrite <- app_assoc; auto|]. split; [rewrite app_nil_r; auto|]. left. rewrite app_nil_r. apply polls_ends; auto.
  - cbn [signal_child] in X6. apply some_inj in X6. apply pair_inj in X6. destruct X6 as [Y1 Y2].
    assert (Hev : Forall waiting ev) by (subst ev; constructor; [exact I|]; clear; induction (m_dead m1); constructor; cbn; auto).
    assert (Hpe : polls ev = 1%nat) by (subst ev; change (Polled :: ?l) with ([Polled] ++ l); rewrite polls_app, polls_reaped; auto).
    set (cs := reap (map (fun d => (snd (fst d), snd d)) (m_dead m1)) (m_caps m1)) in *. destruct (existsb cap_running cs) eqn:Er.
    + destruct (IH m2 m' t2 X7 Hd) as (m3 & t3 & t4 & Z1 & Z2 & Z3 & Z4 & Z5 & Z6 & Z7); [subst m2; auto|subst m2; auto|]. exists m3, (t1 ++ ev ++ t3), t4.
      split; [eapply goes_trans; [exact X1|eapply goes_trans; [eapply goes_one; exact S1|exact Z1]]|]. repeat (split; [solve [auto]|]). split; [subst tr t2; rewrite <- !app_assoc; auto|]. split; [apply Forall_app; split; [auto|apply Forall_app; auto]|].
      rewrite !polls_app, (polls_ends t1 X5), Hpe. destruct Z7 as [Z7|[Z7 Z8]]; [left; lia|right; split; [lia|auto]].
    + exists m2, (t1 ++ ev), t2. split; [eapply goes_trans; [exact X1|eapply goes_one; exact S1]|]. subst m2. cbn [m_code m_sig m_caps]. split; [auto|]. split; [auto|]. split; [auto|]. split; [subst tr; rewrite <- app_assoc; auto|]. split; [apply Forall_app; auto|].
      rewrite polls_app, (polls_ends t1 X5), Hpe. destruct n as [|n]; [left; lia|right; split; [lia|auto]].
Qed.

Lemma run_note : forall b rest m m' tr, goes m tr m' -> m_code m' = [] -> m_code m = Note b :: rest -> m_sig m = Nothing ->
  exists m1 m2 t1 t2, goes m t1 m1 /\ Forall is_end t1 /\ m_code m1 = Note b :: rest /\ m_caps m1 = m_caps m /\ m_sig m2 = Nothing /\ m2 = with_code m1 rest /\ goes m1 [if b then Stopping else Killing] m2 /\ goes m2 t2 m' /\ tr = t1 ++ (if b then Stopping else Killing) :: t2.
Proof.
  intros b rest m m' tr [sch E] Hd Hc Hs. destruct (run_one _ _ _ _ _ _ E Hd Hc eq_refl Hs) as (m1 & t1 & pid & m2 & ev & t2 & X1 & X2 & X3 & X4 & X5 & X6 & X7 & X8).
  assert (S1 : step (Go pid) m1 = Some (m2, ev)) by (cbn [step]; rewrite X2; exact X6). cbn [go] in X6. apply some_inj in X6. apply pair_inj in X6. destruct X6 as [Y1 Y2].
  exists m1, m2, t1, t2. split; [auto|]. split; [auto|]. split; [auto|]. split; [auto|]. split; [subst m2; auto|]. split; [auto|]. split; [subst ev; eapply goes_one; exact S1|]. split; [auto|]. subst ev tr. auto.
Qed.

(** ** A complete run *)

Lemma none_running : forall cs, existsb cap_running cs = false -> running_pids cs = [].
Proof. unfold running_pids. induction cs as [|c cs IH]; intros H; [auto|]. cbn [existsb flat_map] in *. apply orb_false_iff in H. destruct H as [H1 H2]. rewrite H1, (IH H2). auto. Qed.

Definition idle (m : machine) : Prop := exists x rest, m_code m = x :: rest /\ settled x.

Lemma complete_parts : forall cmds n tr, completes cmds n tr ->
  exists tA b1 b2 c1 c2 mA mB m', tr = tA ++ Stopping :: (b1 ++ b2) ++ Killing :: c1 ++ c2 /\ Forall early_event tA /\
  goes (begin cmds n) tA mA /\ goes (begin cmds n) (tA ++ Stopping :: b1 ++ b2) mB /\ goes (begin cmds n) tr m' /\ m_code m' = [] /\ idle mA /\ idle mB /\
  Forall (signalling SIGINT) b1 /\ sent SIGINT b1 = running_pids (m_caps mA) /\ Forall waiting b2 /\ (polls b2 = turns \/ (polls b2 < turns)%nat /\ running_pids (m_caps mB) = []) /\
  Forall (signalling SIGTERM) c1 /\ sent SIGTERM c1 = running_pids (m_caps mB) /\ Forall waiting c2 /\ (polls c2 = turns \/ (polls c2 < turns)%nat /\ running_pids (m_caps m') = []).
Proof.
  intros cmds n tr (sch & m' & E & Hd). assert (G : goes (begin cmds n) tr m') by (exists sch; auto).
  set (pre := flat_map (fun i => [Install Reaping; Fork i]) (seq 0 (length cmds)) ++ (if (0 <? length cmds)%nat then [Nap Ready] else []) ++ [Select 0 n] ++ (if (0 <? length cmds)%nat then [Nap RestSeconds; Nap RestMicroseconds] else []) ++ [Count]).
  set (last := map (fun i => Stop i SIGTERM) (seq 0 (length cmds)) ++ [Poll turns]).
  set (post := map (fun i => Stop i SIGINT) (seq 0 (length cmds)) ++ Poll turns :: Note false :: last).
  assert (Hcode : m_code (begin cmds n) = pre ++ Install Nothing :: Note true :: post) by (unfold begin, code_for, pre, post, last; cbn [m_code]; rewrite <- !app_assoc; cbn [app]; reflexivity).
  assert (Hpre : Forall early pre).
  { unfold pre. assert (A : forall l, Forall early (flat_map (fun i => [Install Reaping; Fork i]) l)) by (induction l; cbn [flat_map app]; [constructor|constructor; [exact I|constructor; [exact I|auto]]]).
    repeat (apply Forall_app; split); auto; try (destruct (0 <? length cmds)%nat); repeat (apply Forall_cons; [exact I|]); apply Forall_nil. }
  destruct (run_early _ _ _ _ _ _ E Hd Hcode Hpre) as (m1 & t1 & r1 & A1 & A2 & [s1 A3] & A4 & A5).
  destruct (run_install _ _ _ _ _ A3 Hd A2) as (m2 & t2 & r2 & B1 & B2 & B3 & B4 & B5 & B6).
  destruct (run_note _ _ _ _ _ B4 Hd B2 B3) as (m3 & m4 & t3 & r3 & C1 & C2 & C3 & C4 & C5 & C6 & C7 & C8 & C9).
  assert (C10 : m_code m4 = post) by (subst m4; auto). assert (C11 : m_caps m4 = m_caps m3) by (subst m4; auto).
  destruct (run_stops _ _ _ _ _ _ C8 Hd C10 C5) as (m5 & t5 & r5 & D1 & D2 & D3 & D4 & D5 & D6 & D7 & D8).
  destruct (run_poll _ _ _ _ _ D5 Hd D2 D3) as (m6 & t6 & r6 & F1 & F2 & F3 & F4 & F5 & F6 & F7).
  destruct (run_note _ _ _ _ _ F4 Hd F2 F3) as (m7 & m8 & t7 & r7 & G1 & G2 & G3 & G4 & G5 & G6 & G7 & G8 & G9).
  assert (G10 : m_code m8 = last) by (subst m8; auto). assert (G11 : m_caps m8 = m_caps m7) by (subst m8; auto).
  destruct (run_stops _ _ _ _ _ _ G8 Hd G10 G5) as (m9 & t9 & r9 & H1 & H2 & H3 & H4 & H5 & H6 & H7 & H8).
  destruct (run_poll _ _ _ _ _ H5 Hd H2 H3) as (m10 & t10 & r10 & I1 & I2 & I3 & I4 & I5 & I6 & I7).
  assert (Hw7 : Forall waiting t7) by (eapply Forall_impl; [|exact G2]; intros []; cbn; auto).
  assert (X3 : goes (begin cmds n) (t1 ++ t2 ++ t3) m3) by (eapply goes_trans; [exact A1|eapply goes_trans; eauto]).
  assert (X7 : goes (begin cmds n) ((t1 ++ t2 ++ t3) ++ [Stopping] ++ t5 ++ t6 ++ t7) m7) by (eapply goes_trans; [exact X3|eapply goes_trans; [exact C7|eapply goes_trans; [exact D1|eapply goes_trans; eauto]]]).
  assert (L3 : length (m_caps m3) = length cmds) by (destruct X3 as [s X3]; destruct (both_run _ _ _ _ _ X3) as [T _]; exact (ti_len _ _ _ T)).
  assert (L7 : length (m_caps m7) = length cmds) by (destruct X7 as [s X7]; destruct (both_run _ _ _ _ _ X7) as [T _]; exact (ti_len _ _ _ T)).
  (* after the last step children may end, nothing else *)
  assert (Hl : m_caps m' = m_caps m10 /\ Forall is_end r10).
  { destruct I4 as [s I4]. clear - I2 I3 I4 Hd. revert m10 r10 I2 I3 I4. induction s as [|ch s IH]; intros m10 r10 I2 I3 I4; cbn [run] in I4.
    - apply some_inj in I4. apply pair_inj in I4. destruct I4; subst. auto.
    - destruct (step ch m10) as [[ma ea]|] eqn:E1; [|discriminate]. destruct (run s ma) as [[mb eb]|] eqn:E2; [|discriminate]. apply some_inj in I4. apply pair_inj in I4. destruct I4; subst.
      destruct ch as [pid|k st pos|inside]; cbn [step] in E1.
      + rewrite I2 in E1. discriminate.
      + destruct (nth_error (m_live m10) k) as [[i p]|]; [|discriminate]. apply some_inj in E1. apply pair_inj in E1. destruct E1; subst. match type of E2 with run _ ?mm = _ => destruct (IH mm _ I2 I3 E2) as [X Y] end. split; [auto|]. constructor; [exact I|auto].
      + destruct (m_pending m10); [|discriminate]. rewrite I2, I3 in E1. destruct inside; cbn [interrupt] in E1; [discriminate|]. apply some_inj in E1. apply pair_inj in E1. destruct E1; subst. match type of E2 with run _ ?mm = _ => exact (IH mm _ eq_refl eq_refl E2) end. }
  destruct Hl as [Hl1 Hl2]. assert (Hw10 : Forall waiting r10) by (eapply Forall_impl; [|exact Hl2]; intros []; cbn; auto).
  exists (t1 ++ t2 ++ t3), t5, (t6 ++ t7), t9, (t10 ++ r10), m3, m7, m'.
  assert (HA : Forall early_event (t1 ++ t2 ++ t3)) by (apply Forall_app; split; [auto|apply Forall_app; split; [auto|eapply Forall_impl; [|exact C2]; intros []; cbn; auto]]).
  split; [subst tr r1 r2 r3 r5 r6 r7 r9; rewrite <- ?app_assoc; cbn [app]; rewrite <- ?app_assoc; cbn [app]; reflexivity|].
  split; [auto|]. split; [auto|]. split; [exact X7|]. split; [auto|]. split; [auto|]. split; [exists (Note true), post; split; [auto|exact I]|]. split; [exists (Note false), last; split; [auto|exact I]|].
  split; [auto|]. split; [rewrite D8, C11, <- L3; apply stop_list|]. split; [apply Forall_app; auto|]. split.
  { rewrite polls_app, (polls_ends t7 G2), Nat.add_0_r. destruct F7 as [F7|[F7 F8]]; [left; auto|right; split; [auto|]]. rewrite G4. apply none_running. auto. }
  split; [auto|]. split; [rewrite H8, G11, <- L7; apply stop_list|]. split; [apply Forall_app; auto|].
  rewrite polls_app, (polls_ends r10 Hl2), Nat.add_0_r. destruct I7 as [I7|[I7 I8]]; [left; auto|right; split; [auto|]]. rewrite Hl1. apply none_running. auto.
Qed.

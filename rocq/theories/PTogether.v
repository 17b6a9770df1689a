(** Proofs about the program with its captures and its sockets at once (C95). *)

From Coq Require Import Permutation.
From Verif Require Import BaseFacts Exec SpecExec SpecTest SpecTogether.
From Verif Require PChildren PChildren2 PChildren3 PChildren4 PChildren5 PChildren6 PMain PPair PParse PCmd PRecv PTotal PSockets PSockets2 PSockets6 PSockets7 PSockets8 PProgress PProgress2 PWire PProgram.

(** *** The two parts *)
Lemma child_seen_app : forall a b, child_seen (a ++ b) = child_seen a ++ child_seen b.
Proof. intros a b. apply flat_map_app. Qed.
Lemma net_seen_app : forall a b, net_seen (a ++ b) = net_seen a ++ net_seen b.
Proof. intros a b. apply flat_map_app. Qed.
Lemma child_seen_child : forall l, child_seen (map OfChild l) = l.
Proof. induction l as [|h l IH]; [auto|]. cbn [map child_seen flat_map app]. f_equal. exact IH. Qed.
Lemma child_seen_net : forall l, child_seen (map OfNet l) = [].
Proof. induction l as [|h l IH]; [auto|]. exact IH. Qed.
Lemma net_seen_child : forall l, net_seen (map OfChild l) = [].
Proof. induction l as [|h l IH]; [auto|]. exact IH. Qed.
Lemma net_seen_net : forall l, net_seen (map OfNet l) = l.
Proof. induction l as [|h l IH]; [auto|]. cbn [map net_seen flat_map app]. f_equal. exact IH. Qed.

Lemma child_step_inv : forall c s s' ev, child_step c s = Some (s', ev) -> exists m e, Children.step c (t_child s) = Some (m, e) /\ s' = MkS m (t_net s) /\ ev = map OfChild e.
Proof. intros c s s' ev H. unfold child_step in H. destruct (Children.step c (t_child s)) as [[m e]|]; [|discriminate H]. apply some_inj, pair_inj in H. destruct H as [<- <-]. exists m, e. auto. Qed.
Lemma net_step_inv : forall c s s' ev, net_step c s = Some (s', ev) -> exists m e, Sockets.step c (t_net s) = Some (m, e) /\ s' = MkS (t_child s) m /\ ev = map OfNet e.
Proof. intros c s s' ev H. unfold net_step in H. destruct (Sockets.step c (t_net s)) as [[m e]|]; [|discriminate H]. apply some_inj, pair_inj in H. destruct H as [<- <-]. exists m, e. auto. Qed.

(** The ways to take a step. *)
Inductive stepped (s : state) : act -> state -> list sight -> Prop :=
| St_child c m e : Children.step c (t_child s) = Some (m, e) ->
    match c with Children.Go _ => testing s = true -> over s = true | Children.Deliver true => testing s = false | _ => True end -> stepped s (Child c) (MkS m (t_net s)) (map OfChild e)
| St_net c m e : Sockets.step c (t_net s) = Some (m, e) -> match c with Sockets.Arrive _ _ => True | _ => testing s = true end -> stepped s (Net c) (MkS (t_child s) m) (map OfNet e)
| St_break m1 e1 m2 e2 : testing s = true -> Children.step (Children.Deliver false) (t_child s) = Some (m1, e1) -> Sockets.step eintr (t_net s) = Some (m2, e2) ->
    stepped s Break (MkS m1 m2) (map OfChild e1 ++ Broken :: map OfNet e2).

Lemma step_stepped : forall a s s' ev, step a s = Some (s', ev) -> stepped s a s' ev.
Proof.
  intros a s s' ev H. destruct a as [c|c|]; cbn [step] in H.
  - assert (G : child_step c s = Some (s', ev) /\ match c with Children.Go _ => testing s = true -> over s = true | Children.Deliver true => testing s = false | _ => True end).
    { destruct c as [p|k st pos|[|]]; auto; [destruct (testing s) eqn:ET; [destruct (over s) eqn:EO; cbn [andb negb] in H; [auto|discriminate H]|auto]|destruct (testing s); [discriminate H|auto]]. split; [exact H|discriminate]. }
    destruct G as [G1 G2]. apply child_step_inv in G1. destruct G1 as [m [e [E [-> ->]]]]. constructor; auto.
  - assert (G : net_step c s = Some (s', ev) /\ match c with Sockets.Arrive _ _ => True | _ => testing s = true end) by (destruct c; auto; destruct (testing s); [auto|discriminate H|auto|discriminate H]).
    destruct G as [G1 G2]. apply net_step_inv in G1. destruct G1 as [m [e [E [-> ->]]]]. constructor; auto.
  - destruct (testing s) eqn:ET; [|discriminate H]. destruct (child_step _ s) as [[s1 ev1]|] eqn:E1; [|discriminate H]. apply child_step_inv in E1. destruct E1 as [m1 [e1 [E1 [-> ->]]]]. destruct (net_step eintr _) as [[s2 ev2]|] eqn:E2; [|discriminate H]. apply net_step_inv in E2. destruct E2 as [m2 [e2 [E2 [-> ->]]]]. apply some_inj, pair_inj in H. destruct H as [<- <-]. cbn [t_child t_net] in *. constructor; auto.
Qed.

Lemma one_child : forall c m m' e, Children.step c m = Some (m', e) -> Children.run [c] m = Some (m', e).
Proof. intros c m m' e H. cbn [Children.run]. rewrite H, app_nil_r. auto. Qed.
Lemma one_net : forall c m m' e, Sockets.step c m = Some (m', e) -> Sockets.run [c] m = Some (m', e).
Proof. intros c m m' e H. cbn [Sockets.run]. rewrite H, app_nil_r. auto. Qed.

Lemma step_parts : forall a s s' ev, step a s = Some (s', ev) -> Children.run (child_of a) (t_child s) = Some (t_child s', child_seen ev) /\ Sockets.run (net_of a) (t_net s) = Some (t_net s', net_seen ev).
Proof.
  intros a s s' ev H. apply step_stepped in H. destruct H as [c m e H _|c m e H _|m1 e1 m2 e2 _ H1 H2]; cbn [child_of net_of t_child t_net].
  - rewrite child_seen_child, net_seen_child. split; [apply one_child; auto|auto].
  - rewrite child_seen_net, net_seen_net. split; [auto|apply one_net; auto].
  - rewrite child_seen_app, net_seen_app, child_seen_child, net_seen_child. change (child_seen (Broken :: map OfNet e2)) with (child_seen (map OfNet e2)). change (net_seen (Broken :: map OfNet e2)) with (net_seen (map OfNet e2)). rewrite child_seen_net, net_seen_net, app_nil_r. split; [apply one_child; auto|apply one_net; auto].
Qed.

Lemma run_parts : forall sch s s' tr, run sch s = Some (s', tr) -> Children.run (flat_map child_of sch) (t_child s) = Some (t_child s', child_seen tr) /\ Sockets.run (flat_map net_of sch) (t_net s) = Some (t_net s', net_seen tr).
Proof.
  induction sch as [|a sch IH]; intros s s' tr H; cbn [run] in H; [apply some_inj, pair_inj in H; destruct H as [<- <-]; auto|].
  destruct (step a s) as [[s1 ev1]|] eqn:E1; [|discriminate H]. destruct (run sch s1) as [[s2 ev2]|] eqn:E2; [|discriminate H]. apply some_inj, pair_inj in H. destruct H as [<- <-]. destruct (step_parts _ _ _ _ E1) as [A1 A2]. destruct (IH _ _ _ E2) as [B1 B2].
  cbn [flat_map]. rewrite child_seen_app, net_seen_app. split; [eapply PChildren3.run_app; eauto|eapply PSockets.run_app; eauto].
Qed.

Lemma run_app : forall s1 s2 s m1 t1 m2 t2, run s1 s = Some (m1, t1) -> run s2 m1 = Some (m2, t2) -> run (s1 ++ s2) s = Some (m2, t1 ++ t2).
Proof.
  induction s1 as [|a s1 IH]; intros s2 s m1 t1 m2 t2 H1 H2; cbn [run app] in *; [apply some_inj, pair_inj in H1; destruct H1 as [<- <-]; auto|].
  destruct (step a s) as [[s' e]|]; [|discriminate H1]. destruct (run s1 s') as [[s'' e']|] eqn:E; [|discriminate H1]. apply some_inj, pair_inj in H1. destruct H1 as [<- <-]. rewrite (IH _ _ _ _ _ _ E H2), app_assoc. auto.
Qed.

Lemma reach : forall (P : state -> list sight -> Prop) s0, P s0 [] -> (forall a s tr s' ev, P s tr -> stepped s a s' ev -> P s' (tr ++ ev)) -> forall sch s tr, run sch s0 = Some (s, tr) -> P s tr.
Proof.
  intros P s0 H0 HP. assert (G : forall sch s tr s' tr', P s tr -> run sch s = Some (s', tr') -> P s' (tr ++ tr')).
  { induction sch as [|a sch IH]; intros s tr s' tr' H E; cbn [run] in E; [apply some_inj, pair_inj in E; destruct E as [<- <-]; rewrite app_nil_r; auto|]. destruct (step a s) as [[s1 ev1]|] eqn:E1; [|discriminate E]. destruct (run sch s1) as [[s2 ev2]|] eqn:E2; [|discriminate E]. apply some_inj, pair_inj in E. destruct E as [<- <-]. rewrite app_assoc. eapply IH; [eapply HP; [exact H|apply step_stepped; exact E1]|auto]. }
  intros sch s tr E. change tr with ([] ++ tr). eapply G; eauto.
Qed.

(** *** The program *)
Lemma program_inv : forall args sch st ev tr, program args sch = Ret (Some (st, ev, tr)) ->
  exists t caps ws cs0 cs r rds, getopt args = ORun t caps ws /\ parse_cmds ws = Ret (Some cs0) /\ Forall2 (filled_in cs0) cs0 cs /\
    Sockets.exec_with cs0 (flat_map net_of sch) = Ret (Some (r, ev, net_seen tr, rds)) /\ st = exit_status r /\
    exists rs s, add_all cs [] = Ret rs /\ run sch (begin (map (fun c => fst (capture_add c)) caps) rs) = Some (s, tr) /\ Children.m_code (t_child s) = [] /\ Sockets.m_code (t_net s) = [].
Proof.
  intros args sch st ev tr H. unfold program in H. destruct (getopt args) as [|caps|t caps ws] eqn:EG; [discriminate H|discriminate H|]. binv H. destruct a as [cs0|]; [|discriminate H]. destruct (pair_cmds cs0) as [[cs1 err] ev1] eqn:EP. destruct (negb (err =? 0)) eqn:EN; [discriminate H|].
  binv H. binv H. binv H. destruct (run sch _) as [[[c n] tr0]|] eqn:ER; [|discriminate H]. destruct (Children.m_code c) eqn:C1; [|discriminate H]. destruct (Sockets.m_code n) eqn:C2; [|discriminate H].
  assert (HF : Forall2 (filled_in cs0) cs0 cs1).
  { pose proof (PPair.pair_cmds_spec cs0) as PS. rewrite EP in PS. apply negb_false_iff, Z.eqb_eq in EN. subst err. apply pair_inj in PS. destruct PS as [PS _]. apply pair_inj in PS. destruct PS as [-> PE]. apply PPair.Forall2_map_filled. intros x Hx. apply PPair.undefined_nil; auto. destruct (undefined_refs cs0); [auto|discriminate PE]. }
  destruct (run_parts _ _ _ _ ER) as [R1 R2]. cbn [t_child t_net begin] in R1, R2.
  assert (G : exists r, Sockets.exec_with cs0 (flat_map net_of sch) = Ret (Some (r, ev, net_seen tr, Sockets.m_rounds n)) /\ st = exit_status r /\ tr0 = tr).
  { assert (tr0 = tr) by (destruct (Sockets.m_failed n); [|destruct (check_all (Sockets.m_rs n))]; apply ret_inj, some_inj in H; apply pair_inj in H; tauto). subst tr0.
    unfold Sockets.exec_with. rewrite EP, EN. rewrite E0. cbn [bind]. rewrite E1. cbn [bind]. rewrite E2. cbn [bind]. rewrite R2. destruct n as [nc nf nrs ns ng nr ne nfl]. cbn [Sockets.m_code Sockets.m_failed Sockets.m_rs Sockets.m_ev Sockets.m_rounds] in *. subst nc. destruct nfl.
    - apply ret_inj, some_inj in H. apply pair_inj in H. destruct H as [H _]. apply pair_inj in H. destruct H as [<- <-]. exists (-1). auto.
    - destruct (check_all nrs) as [err2 ev5]. apply ret_inj, some_inj in H. apply pair_inj in H. destruct H as [H _]. apply pair_inj in H. destruct H as [<- <-]. exists err2. auto. }
  destruct G as [r [G1 [G2 ->]]]. exists t, caps, ws, cs0, cs1, r, (Sockets.m_rounds n). split; [auto|]. split; [auto|]. split; [auto|]. split; [auto|]. split; [auto|]. exists a1, (MkS c n). auto.
Qed.

Lemma program_parts : forall args sch st ev tr, program args sch = Ret (Some (st, ev, tr)) ->
  exists t caps ws cs r rds, getopt args = ORun t caps ws /\ executes ws (flat_map net_of sch) cs r ev (net_seen tr) rds /\ st = r mod 256 /\
    SpecChildren.completes (map (fun c => fst (capture_add c)) caps) 0 (child_seen tr).
Proof.
  intros args sch st ev tr H. destruct (program_inv _ _ _ _ _ H) as [t [caps [ws [cs0 [cs [r [rds [A [B [C [D [E [rs [s [F [G [I J]]]]]]]]]]]]]]]]]. exists t, caps, ws, cs, r, rds. split; [auto|]. split; [exists cs0; auto|]. split; [auto|]. destruct (run_parts _ _ _ _ G) as [G1 _]. exists (flat_map child_of sch), (t_child s). auto.
Qed.

(** *** Phases *)
Definition first_part (x : Children.instr) : Prop :=
  match x with Children.Install Children.Reaping | Children.Fork _ | Children.SetPid _ _ | Children.SetRunning _ | Children.Nap Children.Ready => True | _ => False end.
Definition last_part (x : Children.instr) : Prop :=
  match x with Children.Fork _ | Children.Select _ _ => False | _ => True end.
Definition first_seen (h : Children.happening) : Prop :=
  match h with Children.Stopping | Children.Killing | Children.Sent _ _ | Children.Slept Children.RestSeconds | Children.Woken Children.RestSeconds | Children.Polled => False | _ => True end.
Definition last_seen (h : Children.happening) : Prop := match h with Children.Forked _ _ => False | _ => True end.
Definition neutral (h : Children.happening) : Prop := match h with Children.Ended _ _ _ | Children.Reaped _ _ => True | _ => False end.

Lemma neutral_reaped : forall (dd : list (nat * Z * wstatus)), Forall neutral (map (fun d => Children.Reaped (fst (fst d)) (snd (fst d))) dd).
Proof. intros dd. apply Forall_forall. intros x H. apply in_map_iff in H. destruct H as [d [<- _]]. exact I. Qed.

(** A step of a child or the delivery of a signal elsewhere changes nothing in the code. *)
Lemma quiet_step : forall c m m' e, Children.step c m = Some (m', e) -> match c with Children.Go _ => False | Children.Deliver b => b = false | _ => True end -> Children.m_code m' = Children.m_code m /\ Forall neutral e.
Proof.
  intros c m m' e H C. destruct c as [p|k st pos|b]; [destruct C| |]; cbn [Children.step] in H.
  - destruct (nth_error _ k) as [[i p]|]; [|discriminate H]. apply some_inj, pair_inj in H. destruct H as [<- <-]. split; [auto|]. repeat constructor.
  - subst b. destruct (Children.m_pending m); [|discriminate H]. destruct (Children.m_sig m); cbn [Children.signal_child] in H; apply some_inj, pair_inj in H; destruct H as [<- <-]; (split; [auto|]); auto. rewrite app_nil_r. apply neutral_reaped.
Qed.

(** What captures have been started. *)
Definition begun (i : nat) (code : list Children.instr) (tr : list Children.happening) : Prop :=
  In (Children.Fork i) code \/ In (Children.SetRunning i) code \/ In (Children.Recorded i) tr \/ In (Children.NoFork i) tr.
Definition readied (code : list Children.instr) (tr : list Children.happening) : Prop :=
  In (Children.Nap Children.Ready) code \/ In (Children.Slept Children.Ready) tr \/ In (Children.Woken Children.Ready) tr.

Ltac first_tail := split; [reflexivity|]; split; [assumption|]; split; [repeat constructor|]; split; [let X := fresh in intros ? X; cbn [In] in X; intuition discriminate|]; unfold begun, readied; cbn [In]; split; intros; rewrite ?in_app_iff; cbn [In]; intuition (try discriminate; try congruence).

Lemma first_step : forall c m m' e y pre post tr, Children.step c m = Some (m', e) -> Children.m_code m = (y :: pre) ++ Children.Select 0 0 :: post -> Forall first_part (y :: pre) ->
  exists pre', Children.m_code m' = pre' ++ Children.Select 0 0 :: post /\ Forall first_part pre' /\ Forall first_seen e /\ (forall k, ~ In (Children.Interrupted k) e) /\
    (forall i, begun i (y :: pre) tr -> begun i pre' (tr ++ e)) /\ (readied (y :: pre) tr -> readied pre' (tr ++ e)).
Proof.
  intros c m m' e y pre post tr H C F.
  assert (Q : match c with Children.Go _ => False | Children.Deliver b => b = false | _ => True end -> exists pre', Children.m_code m' = pre' ++ Children.Select 0 0 :: post /\ Forall first_part pre' /\ Forall first_seen e /\ (forall k, ~ In (Children.Interrupted k) e) /\
    (forall i, begun i (y :: pre) tr -> begun i pre' (tr ++ e)) /\ (readied (y :: pre) tr -> readied pre' (tr ++ e))).
  { intros X. destruct (quiet_step _ _ _ _ H X) as [Q1 Q2]. exists (y :: pre). rewrite Q1. split; [auto|]. split; [auto|]. split; [eapply Forall_impl; [|exact Q2]; intros h; destruct h; cbn; tauto|]. split; [intros k X1; rewrite Forall_forall in Q2; apply Q2 in X1; exact X1|]. unfold begun, readied. split; intros; rewrite !in_app_iff; tauto. }
  destruct c as [p|k st pos|[|]]; try (apply Q; exact I); [clear Q| |apply Q; reflexivity].
  - cbn [Children.step] in H. rewrite C in H. cbn [app] in H. pose proof (Forall_inv F) as Fy. pose proof (Forall_inv_tail F) as Fp.
    destruct y as [d|i|i q|i|w|k n| |i s|n|b]; cbn [first_part] in Fy; try (destruct Fy; fail); cbn [Children.go] in H.
    + destruct d; try (destruct Fy; fail). apply some_inj, pair_inj in H. destruct H as [<- <-]. exists pre. cbn [Children.m_code]. first_tail.
    + destruct (0 <? p).
      * destruct (existsb _ _); [discriminate H|]. apply some_inj, pair_inj in H. destruct H as [<- <-]. exists (Children.SetPid i p :: Children.SetRunning i :: pre). cbn [Children.m_code]. split; [reflexivity|]. split; [repeat constructor; auto|]. split; [repeat constructor|]. split; [intros k [X|[]]; discriminate X|].
        unfold begun, readied. cbn [In]. split; intros; rewrite !in_app_iff; cbn [In]; intuition (try discriminate; try congruence).
      * apply some_inj, pair_inj in H. destruct H as [<- <-]. exists pre. cbn [Children.m_code Children.with_code]. split; [reflexivity|]. split; [auto|]. split; [repeat constructor|]. split; [intros k [X|[]]; discriminate X|].
        unfold begun, readied. cbn [In]. split; intros; rewrite !in_app_iff; cbn [In]; intuition (try discriminate; try congruence).
    + apply some_inj, pair_inj in H. destruct H as [<- <-]. exists pre. cbn [Children.m_code Children.with_caps]. first_tail.
    + apply some_inj, pair_inj in H. destruct H as [<- <-]. exists pre. cbn [Children.m_code Children.with_caps]. split; [reflexivity|]. split; [auto|]. split; [repeat constructor|]. split; [intros k [X|[]]; discriminate X|].
      unfold begun, readied. cbn [In]. split; intros; rewrite !in_app_iff; cbn [In]; intuition (try discriminate; try congruence).
    + destruct w; try (destruct Fy; fail). apply some_inj, pair_inj in H. destruct H as [<- <-]. exists pre. cbn [Children.m_code Children.with_code]. first_tail.
  - cbn [Children.step] in H. destruct (Children.m_pending m); [|discriminate H]. rewrite C in H. pose proof (Forall_inv F) as Fy. pose proof (Forall_inv_tail F) as Fp. cbn [app] in H.
    destruct y as [d|i|i q|i|w|k n| |i s|n|b]; cbn [first_part] in Fy; try (destruct Fy; fail); cbn [Children.interrupt] in H; try discriminate H. destruct w; try (destruct Fy; fail).
    assert (G : exists ev2, Forall neutral ev2 /\ Children.m_code m' = pre ++ Children.Select 0 0 :: post /\ e = ev2 ++ [Children.Woken Children.Ready]).
    { destruct (Children.m_sig m); cbn [Children.signal_child] in H; apply some_inj, pair_inj in H; destruct H as [<- <-]; [exists []|eexists|exists []]; (split; [|split; [reflexivity|reflexivity]]); [constructor|apply neutral_reaped|constructor]. }
    destruct G as [ev2 [G1 [G2 ->]]]. exists pre. split; [auto|]. split; [auto|]. split; [apply Forall_app; split; [eapply Forall_impl; [|exact G1]; intros h; destruct h; cbn; tauto|repeat constructor]|]. split; [intros k X; apply in_app_iff in X; destruct X as [X|[X|[]]]; [|discriminate X]; rewrite Forall_forall in G1; apply G1 in X; exact X|].
    unfold begun, readied. cbn [In]. split; intros; rewrite !in_app_iff; cbn [In]; intuition (try discriminate; try congruence).
Qed.

Lemma select_step : forall c m m' e post, Children.step c m = Some (m', e) -> Children.m_code m = Children.Select 0 0 :: post ->
  match c with Children.Go _ => Children.m_code m' = post /\ e = [] | Children.Deliver true => In (Children.Interrupted 0) e | _ => Children.m_code m' = Children.m_code m /\ Forall neutral e end.
Proof.
  intros c m m' e post H C. destruct c as [p|k st pos|[|]]; try (exact (quiet_step _ _ _ _ H I)); try (exact (quiet_step _ _ _ _ H eq_refl)).
  - cbn [Children.step] in H. rewrite C in H. cbn [Children.go] in H. apply some_inj, pair_inj in H. destruct H as [<- <-]. auto.
  - cbn [Children.step] in H. destruct (Children.m_pending m); [|discriminate H]. rewrite C in H. cbn [Children.interrupt] in H. destruct (Children.m_sig m); cbn [Children.signal_child] in H; apply some_inj, pair_inj in H; destruct H as [_ <-]; rewrite ?in_app_iff; cbn [In]; auto.
Qed.

Lemma last_step : forall c m m' e, Children.step c m = Some (m', e) -> Forall last_part (Children.m_code m) -> Forall last_part (Children.m_code m') /\ Forall last_seen e.
Proof.
  intros c m m' e H F. assert (Q : match c with Children.Go _ => False | Children.Deliver b => b = false | _ => True end -> Forall last_part (Children.m_code m') /\ Forall last_seen e).
  { intros X. destruct (quiet_step _ _ _ _ H X) as [-> Q2]. split; [auto|]. eapply Forall_impl; [|exact Q2]. intros h; destruct h; cbn; tauto. }
  assert (R : forall dd : list (nat * Z * wstatus), Forall last_seen (map (fun d => Children.Reaped (fst (fst d)) (snd (fst d))) dd)) by (intros dd; eapply Forall_impl; [|apply neutral_reaped]; intros h; destruct h; cbn; tauto).
  destruct c as [p|k st pos|[|]]; try (apply Q; exact I); [clear Q| |apply Q; reflexivity]; cbn [Children.step] in H.
  - destruct (Children.m_code m) as [|y rest] eqn:C; [discriminate H|]. pose proof (Forall_inv F) as Fy. pose proof (Forall_inv_tail F) as Fp.
    destruct y as [d|i|i q|i|w|k n| |i s|n|b]; cbn [last_part] in Fy; try (destruct Fy; fail); cbn [Children.go] in H.
    1-4: apply some_inj, pair_inj in H; destruct H as [<- <-]; cbn [Children.m_code Children.with_code Children.with_caps]; split; auto; repeat constructor.
    + apply some_inj, pair_inj in H. destruct H as [<- <-]. cbn [Children.m_code Children.with_code]. split; [|constructor]. destruct (existsb _ _); [constructor; [exact I|auto]|auto].
    + apply some_inj, pair_inj in H. destruct H as [<- <-]. cbn [Children.m_code Children.with_code]. split; [auto|]. destruct (nth_error _ i) as [cp|]; [destruct (cap_running cp)|]; repeat constructor.
    + destruct n as [|j]; [apply some_inj, pair_inj in H; destruct H as [<- <-]; auto|]. cbn [Children.signal_child] in H. apply some_inj, pair_inj in H. destruct H as [<- <-]. cbn [Children.m_code]. split; [destruct (existsb _ _); [constructor; [exact I|auto]|auto]|constructor; [exact I|apply R]].
    + apply some_inj, pair_inj in H. destruct H as [<- <-]. cbn [Children.m_code Children.with_code]. split; [auto|]. destruct b; repeat constructor.
  - destruct (Children.m_pending m); [|discriminate H]. destruct (Children.m_code m) as [|y rest] eqn:C; [discriminate H|]. pose proof (Forall_inv F) as Fy. pose proof (Forall_inv_tail F) as Fp.
    destruct y as [d|i|i q|i|w|k n| |i s|n|b]; cbn [last_part] in Fy; try (destruct Fy; fail); cbn [Children.interrupt] in H; try discriminate H.
    destruct (Children.m_sig m); cbn [Children.signal_child] in H; apply some_inj, pair_inj in H; destruct H as [<- <-]; cbn [Children.m_code]; (split; [auto|]); try (repeat constructor; fail). apply Forall_app. split; [apply R|repeat constructor].
Qed.

Definition before (n : nat) (a : list sight) : Prop :=
  Forall first_seen (child_seen a) /\ (forall i, (i < n)%nat -> In (Children.Recorded i) (child_seen a) \/ In (Children.NoFork i) (child_seen a)) /\
  ((0 < n)%nat -> In (Children.Slept Children.Ready) (child_seen a) \/ In (Children.Woken Children.Ready) (child_seen a)).

Inductive phase (n : nat) (s : state) (tr : list sight) : Prop :=
| Ph_first pre post : Children.m_code (t_child s) = pre ++ Children.Select 0 0 :: post -> Forall first_part pre -> Forall last_part post -> Forall first_seen (child_seen tr) ->
    (pre <> [] -> Forall (fun x => of_test x = false) tr) -> (forall i, (i < n)%nat -> begun i pre (child_seen tr)) -> ((0 < n)%nat -> readied pre (child_seen tr)) -> phase n s tr
| Ph_last : Forall last_part (Children.m_code (t_child s)) -> over s = true -> phase n s tr.

Lemma first_not_testing : forall s y pre post, Children.m_code (t_child s) = (y :: pre) ++ Children.Select 0 0 :: post -> Forall first_part (y :: pre) -> testing s = false.
Proof. intros s y pre post C F. unfold testing. rewrite C. apply Forall_inv in F. destruct y; auto. destruct F. Qed.
Lemma last_not_testing : forall s, Forall last_part (Children.m_code (t_child s)) -> testing s = false.
Proof. intros s F. unfold testing. destruct (Children.m_code (t_child s)) as [|y l]; [auto|]. apply Forall_inv in F. destruct y; auto. destruct F. Qed.
Lemma arrive_code : forall ix x m m' e, Sockets.step (Sockets.Arrive ix x) m = Some (m', e) -> Sockets.m_code m' = Sockets.m_code m /\ e = [Sockets.Arrived ix x].
Proof. intros ix x m m' e H. cbn [Sockets.step] in H. destruct (0 <? ix); [|discriminate H]. apply some_inj, pair_inj in H. destruct H as [<- <-]. auto. Qed.

Lemma not_test_child : forall e, Forall (fun x => of_test x = false) (map OfChild e).
Proof. intros e. apply Forall_forall. intros x H. apply in_map_iff in H. destruct H as [h [<- _]]. auto. Qed.
Lemma first_neutral : forall e, Forall neutral e -> Forall first_seen e.
Proof. intros e H. eapply Forall_impl; [|exact H]. intros h; destruct h; cbn; tauto. Qed.

Lemma begun_more : forall i c tr e, begun i c tr -> begun i c (tr ++ e).
Proof. unfold begun. intros. rewrite !in_app_iff. tauto. Qed.
Lemma readied_more : forall c tr e, readied c tr -> readied c (tr ++ e).
Proof. unfold readied. intros. rewrite !in_app_iff. tauto. Qed.

Lemma phase_step : forall n a s tr s' ev, phase n s tr -> stepped s a s' ev -> phase n s' (tr ++ ev).
Proof.
  intros n a s tr s' ev P H. destruct H as [c m e H G|c m e H G|m1 e1 m2 e2 G H1 H2].
  - destruct P as [pre post C F1 F2 S T B R|F O].
    + destruct pre as [|y pre].
      * assert (TS : testing s = true) by (unfold testing; rewrite C; auto). pose proof (select_step _ _ _ _ _ H C) as X.
        assert (Q : Children.m_code m = Children.m_code (t_child s) /\ Forall neutral e -> phase n (MkS m (t_net s)) (tr ++ map OfChild e)).
        { intros [Q1 Q2]. eapply (Ph_first _ _ _ [] post); cbn [t_child]; rewrite ?child_seen_app, ?child_seen_child; auto; [rewrite Q1; auto|apply Forall_app; split; [auto|apply first_neutral; auto]|intros []; auto|intros i Hi; apply begun_more; auto|intros Hi; apply readied_more; auto]. }
        destruct c as [p|k st pos|[|]]; auto; [|rewrite TS in G; discriminate G]. destruct X as [X1 ->]. apply Ph_last; [cbn [t_child]; rewrite X1; auto|]. specialize (G TS). exact G.
      * destruct (first_step _ _ _ _ _ _ _ (child_seen tr) H C F1) as [pre' [X1 [X2 [X3 [_ [X4 X5]]]]]]. eapply (Ph_first _ _ _ pre' post); cbn [t_child]; rewrite ?child_seen_app, ?child_seen_child; auto; [apply Forall_app; auto|].
        intros _. apply Forall_app. split; [apply T; discriminate|apply not_test_child].
    + destruct (last_step _ _ _ _ H F) as [X1 X2]. apply Ph_last; auto.
  - destruct P as [pre post C F1 F2 S T B R|F O].
    + destruct pre as [|y pre].
      * eapply (Ph_first _ _ _ [] post); cbn [t_child]; rewrite ?child_seen_app, ?child_seen_net, ?app_nil_r; auto. intros []; auto.
      * pose proof (first_not_testing _ _ _ _ C F1) as NT. destruct c as [ix x|r|sel l rd w sd]; try congruence. destruct (arrive_code _ _ _ _ _ H) as [_ ->]. eapply (Ph_first _ _ _ (y :: pre) post); cbn [t_child]; rewrite ?child_seen_app, ?child_seen_net, ?app_nil_r; auto.
        intros N. apply Forall_app. split; [auto|]. repeat constructor.
    + pose proof (last_not_testing _ F) as NT. destruct c as [ix x|r|sel l rd w sd]; try congruence. destruct (arrive_code _ _ _ _ _ H) as [E _]. apply Ph_last; [auto|]. unfold over in *. cbn [t_net]. rewrite E. auto.
  - destruct P as [pre post C F1 F2 S T B R|F O].
    + destruct pre as [|y pre]; [|rewrite (first_not_testing _ _ _ _ C F1) in G; discriminate G]. pose proof (quiet_step _ _ _ _ H1 eq_refl) as [Q1 Q2].
      assert (CS : child_seen (map OfChild e1 ++ Broken :: map OfNet e2) = e1). { rewrite child_seen_app, child_seen_child. change (child_seen (Broken :: map OfNet e2)) with (child_seen (map OfNet e2)). rewrite child_seen_net, app_nil_r. auto. }
      eapply (Ph_first _ _ _ [] post); cbn [t_child]; rewrite ?(child_seen_app tr), ?CS; auto; [rewrite Q1; auto|apply Forall_app; split; [auto|apply first_neutral; auto]|intros []; auto|intros i Hi; apply begun_more; auto|intros Hi; apply readied_more; auto].
    + rewrite (last_not_testing _ F) in G. discriminate G.
Qed.

Lemma code_first : forall n i, (i < n)%nat -> In (Children.Fork i) (flat_map (fun i => [Children.Install Children.Reaping; Children.Fork i]) (seq 0 n)).
Proof. intros n i H. apply in_flat_map. exists i. split; [apply in_seq; lia|]. cbn [In]. auto. Qed.

Lemma phase_begin : forall cmds rs, phase (length cmds) (begin cmds rs) [].
Proof.
  intros cmds rs. eapply (Ph_first _ _ _ (flat_map (fun i => [Children.Install Children.Reaping; Children.Fork i]) (seq 0 (length cmds)) ++ (if (0 <? length cmds)%nat then [Children.Nap Children.Ready] else []))); cbn [begin t_child Children.begin Children.m_code].
  - unfold Children.code_for. rewrite <- app_assoc. reflexivity.
  - apply Forall_app. split; [|destruct (_ <? _)%nat; repeat constructor]. apply Forall_forall. intros x H. apply in_flat_map in H. destruct H as [i [_ [<-|[<-|[]]]]]; exact I.
  - repeat (apply Forall_app; split); try (destruct (0 <? length cmds)%nat); try (repeat constructor; fail); apply Forall_forall; intros x H; apply in_map_iff in H; destruct H as [i [<- _]]; exact I.
  - constructor.
  - intros _. constructor.
  - intros i Hi. left. apply in_app_iff. left. apply code_first. auto.
  - intros Hn. left. apply in_app_iff. right. destruct (Nat.ltb_spec 0 (length cmds)); [left; reflexivity|lia].
Qed.

Lemma phase_run : forall cmds rs sch s tr, run sch (begin cmds rs) = Some (s, tr) -> phase (length cmds) s tr.
Proof. intros cmds rs. apply (reach (phase (length cmds))); [apply phase_begin|]. intros. eapply phase_step; eauto. Qed.

(** *** Captures cover the whole test *)
Definition covering (n : nat) (a : list sight) (x : sight) : Prop :=
  (of_test x = true -> before n a) /\ (forall i p, x = OfChild (Children.Forked i p) -> Forall (fun y => of_test y = false) a).
Definition past (Q : list sight -> sight -> Prop) (tr : list sight) : Prop := forall a x b, tr = a ++ x :: b -> Q a x.
Lemma past_app : forall Q tr ev, past Q tr -> (forall e1 h e2, ev = e1 ++ h :: e2 -> Q (tr ++ e1) h) -> past Q (tr ++ ev).
Proof. intros Q tr ev H1 H2 a x b E. destruct (PChildren4.split_app _ _ _ _ _ _ E) as [[a2 [-> ->]]|[e1 [-> E1]]]; [eapply H1; reflexivity|eapply H2; eauto]. Qed.

Lemma before_phase : forall n s tr, phase n s tr -> testing s = true -> before n tr.
Proof.
  intros n s tr P TS. destruct P as [pre post C F1 F2 S T B R|F O]; [|rewrite (last_not_testing _ F) in TS; discriminate TS]. destruct pre as [|y pre]; [|rewrite (first_not_testing _ _ _ _ C F1) in TS; discriminate TS].
  split; [auto|]. split; [intros i Hi; specialize (B i Hi); unfold begun in B; cbn [In] in B; tauto|]. intros Hn. specialize (R Hn). unfold readied in R. cbn [In] in R. tauto.
Qed.

Lemma before_more : forall n tr e, before n tr -> Forall first_seen (child_seen e) -> before n (tr ++ e).
Proof. intros n tr e [A [B C]] F. unfold before. rewrite child_seen_app. split; [apply Forall_app; auto|]. split; [intros i Hi; rewrite !in_app_iff; specialize (B i Hi); tauto|]. intros Hn. rewrite !in_app_iff. specialize (C Hn). tauto. Qed.

Lemma split_map : forall A B (f : A -> B) l a x b, map f l = a ++ x :: b -> exists a' x' b', l = a' ++ x' :: b' /\ a = map f a' /\ x = f x'.
Proof.
  intros A B f l a. revert l. induction a as [|y a IH]; intros l x b H; destruct l as [|z l]; cbn [map app] in H; try discriminate H; injection H as H1 H2.
  - exists [], z, l. auto.
  - destruct (IH _ _ _ H2) as [a' [x' [b' [-> [-> ->]]]]]. exists (z :: a'), x', b'. subst. auto.
Qed.

Lemma covered_run : forall cmds rs sch s tr, run sch (begin cmds rs) = Some (s, tr) -> past (covering (length cmds)) tr.
Proof.
  intros cmds rs. enough (G : forall sch s tr, run sch (begin cmds rs) = Some (s, tr) -> phase (length cmds) s tr /\ past (covering (length cmds)) tr) by (intros sch s tr H; apply (G _ _ _ H)).
  apply (reach (fun s tr => phase (length cmds) s tr /\ past (covering (length cmds)) tr)); [split; [apply phase_begin|intros [|? ?] ? ? X; discriminate X]|].
  intros a s tr s' ev [P Q] H. split; [eapply phase_step; eauto|]. apply past_app; [auto|]. intros e1 h e2 E. destruct H as [c m e H G|c m e H G|m1 f1 m2 f2 G H1 H2].
  - apply split_map in E. destruct E as [a' [x' [b' [-> [-> ->]]]]]. split; [intros X; discriminate X|]. intros i p X. injection X as ->. apply Forall_app. split; [|apply not_test_child].
    destruct P as [pre post C F1 F2 S T B R|F O].
    + destruct pre as [|y pre]; [|apply T; discriminate]. pose proof (select_step _ _ _ _ _ H C) as X. exfalso. destruct c as [q|k st pos|[|]]; [destruct X as [_ X]; destruct a'; discriminate X| | |].
      * destruct X as [_ X]. apply Forall_app in X. destruct X as [_ X]. apply Forall_inv in X. exact X.
      * assert (TS : testing s = true) by (unfold testing; rewrite C; auto). congruence.
      * destruct X as [_ X]. apply Forall_app in X. destruct X as [_ X]. apply Forall_inv in X. exact X.
    + destruct (last_step _ _ _ _ H F) as [_ X]. apply Forall_app in X. destruct X as [_ X]. apply Forall_inv in X. destruct X.
  - apply split_map in E. destruct E as [a' [x' [b' [-> [-> ->]]]]]. split; [|discriminate]. intros X. apply before_more; [|rewrite child_seen_net; constructor]. eapply before_phase; [eauto|]. destruct c as [ix y|r|sel l rd w sd]; auto. destruct (arrive_code _ _ _ _ _ H) as [_ Y]. destruct a' as [|? a']; [|destruct a'; discriminate Y]. injection Y as -> _. discriminate X.
  - pose proof (quiet_step _ _ _ _ H1 eq_refl) as [_ N]. destruct (PChildren4.split_app _ _ _ _ _ _ E) as [[a2 [E2 ->]]|[e3 [-> E3]]].
    + apply split_map in E2. destruct E2 as [a' [x' [b' [-> [-> ->]]]]]. split; [intros X; discriminate X|]. intros i p X. injection X as ->. apply Forall_app in N. destruct N as [_ N]. apply Forall_inv in N. destruct N.
    + split; [|intros i p ->; destruct e3 as [|? e3]; [discriminate E3|]; injection E3 as _ E3; apply split_map in E3; destruct E3 as [? [? [? [_ [_ X]]]]]; discriminate X].
      intros _. apply before_more; [eapply before_phase; eauto|]. rewrite child_seen_app, child_seen_child. apply Forall_app. split; [apply first_neutral; auto|]. destruct e3 as [|y e3]; [constructor|]. injection E3 as <- E3. apply split_map in E3. destruct E3 as [a' [x' [b' [_ [-> _]]]]]. change (child_seen (Broken :: map OfNet a')) with (child_seen (map OfNet a')). rewrite child_seen_net. constructor.
Qed.

(** *** The end of a capture ends the test early *)
Definition closing (x : Sockets.instr) : Prop := match x with Sockets.Close _ | Sockets.Shut _ _ => True | _ => False end.
Definition cutting (a : list sight) (x : sight) : Prop :=
  (x = Broken -> (exists i p st, In (Children.Ended i p st) (child_seen a)) /\ ~ In Broken a) /\ (In Broken a -> match x with OfNet (Sockets.Taken _ _) => False | _ => True end).

Lemma closing_step : forall c m m' e, Forall closing (Sockets.m_code m) -> Sockets.step c m = Some (m', e) -> Forall closing (Sockets.m_code m') /\ Forall (fun h => match h with Sockets.Taken _ _ => False | _ => True end) e.
Proof.
  intros c m m' e F H. destruct c as [ix x|r|sel l rd w sd].
  - destruct (arrive_code _ _ _ _ _ H) as [-> ->]. split; [auto|]. repeat constructor.
  - cbn [Sockets.step] in H. destruct (Sockets.m_code m) as [|y rest]; [discriminate H|]. pose proof (Forall_inv F) as Fy. pose proof (Forall_inv_tail F) as Fr. destruct y; try (destruct Fy; fail); cbn [Sockets.go] in H; [apply some_inj, pair_inj in H; destruct H as [<- <-]; split; repeat constructor|]. destruct (nth_error _ i) as [fd|]; [|discriminate H]. apply some_inj, pair_inj in H. destruct H as [<- <-]. split; [auto|]. repeat constructor.
  - cbn [Sockets.step] in H. destruct (Sockets.m_code m) as [|y rest]; [discriminate H|]. pose proof (Forall_inv F) as Fy. destruct y; try discriminate H; destruct Fy.
Qed.

Lemma eintr_step : forall rest m m' e, Sockets.step eintr m = Some (m', e) -> Sockets.m_code m = Sockets.Loop :: rest -> Sockets.m_code m' = rest /\ e = [Sockets.Turn].
Proof.
  intros rest m m' e H C. unfold eintr in H. cbn [Sockets.step] in H. rewrite C in H. unfold Sockets.wake in H. destruct (existsb _ _); [|discriminate H]. change (false || (-1 <=? 0)) with true in H. cbn iota in H. apply some_inj, pair_inj in H. destruct H as [<- <-]. auto.
Qed.

(** The code of the sockets: what comes after the loop. *)
Definition net_shape (m : Sockets.machine) : Prop :=
  Forall closing (Sockets.m_code m) \/ exists a b, Sockets.m_code m = a ++ Sockets.Loop :: b /\ ~ In Sockets.Loop a /\ Forall closing b.

Lemma not_loop_tail : forall x a, ~ In Sockets.Loop (x :: a) -> ~ In Sockets.Loop a.
Proof. intros x a H X. apply H. right. exact X. Qed.

Lemma net_shape_step : forall c m m' e, net_shape m -> Sockets.step c m = Some (m', e) -> net_shape m'.
Proof.
  intros c m m' e [F|[a [b [C [NL F]]]]] H; [left; eapply closing_step; eauto|]. destruct c as [ix x|r|sel l rd w sd].
  - destruct (arrive_code _ _ _ _ _ H) as [EQ _]. right. exists a, b. rewrite EQ. auto.
  - cbn [Sockets.step] in H. rewrite C in H. destruct a as [|x a]; cbn [app] in H.
    + cbn [Sockets.go] in H. destruct (existsb _ _); [discriminate H|]. apply some_inj, pair_inj in H. destruct H as [<- _]. left. exact F.
    + assert (G : Forall closing (Sockets.m_code m') \/ exists a', Sockets.m_code m' = a' ++ Sockets.Loop :: b /\ (forall y, In y a' -> In y a \/ y <> Sockets.Loop)).
      { clear - H NL. destruct x; cbn [Sockets.go] in H.
        all: repeat match type of H with context [match ?t with _ => _ end] => destruct t eqn:?; try discriminate H end.
        all: apply some_inj, pair_inj in H; destruct H as [<- _]; unfold Sockets.with_socks, Sockets.with_code; cbn [Sockets.m_code]; auto.
        all: try (left; repeat constructor; fail).
        all: try (right; exists a; split; [reflexivity|auto]; fail).
        all: right; try (eexists (_ :: a); split; [reflexivity|]; intros y' [<-|Y]; [right; discriminate|auto]; fail).
        all: try (eexists (_ :: _ :: a); split; [reflexivity|]; intros y' [<-|[<-|Y]]; [right; discriminate|right; discriminate|auto]; fail).
        all: try (exfalso; apply NL; left; reflexivity). }
      destruct G as [G|[a' [G1 G2]]]; [left; exact G|]. right. exists a', b. split; [auto|]. split; [|auto]. intros X. destruct (G2 _ X) as [Y|Y]; [|auto]. apply NL. right. auto.
  - cbn [Sockets.step] in H. rewrite C in H. destruct a as [|x a]; cbn [app] in H.
    + unfold Sockets.wake in H. destruct (existsb _ _); [|discriminate H]. destruct (_ || _).
      * apply some_inj, pair_inj in H. destruct H as [<- _]. left. exact F.
      * destruct (forallb _ _); [|discriminate H]. apply some_inj, pair_inj in H. destruct H as [<- _]. right. exists (map Sockets.Recv (filter rd (seq 0 (length (Sockets.m_rs m)))) ++ [Sockets.Serve sel w sd]), b. split; [unfold Sockets.with_code; cbn [Sockets.m_code]; rewrite <- app_assoc; reflexivity|]. split; [|auto].
        rewrite in_app_iff. intros [X|[X|[]]]; [|discriminate X]. apply in_map_iff in X. destruct X as [i [X _]]. discriminate X.
    + destruct x; try discriminate H. destruct NL. left. reflexivity.
Qed.
Lemma net_shape_begin : forall rs, net_shape (Sockets.begin rs).
Proof.
  intros rs. right. exists (map Sockets.Socket (seq 0 (length rs))), (map Sockets.Close (seq 0 (length rs))). split; [reflexivity|]. split; [intros X; apply in_map_iff in X; destruct X as [i [X _]]; discriminate X|]. apply Forall_forall. intros x H. apply in_map_iff in H. destruct H as [i [<- _]]. exact I.
Qed.

Record cut_state (cmds : list string) (s : state) (tr : list sight) : Prop := MkCut {
  cu_child : exists sch, Children.run sch (Children.begin cmds 0) = Some (t_child s, child_seen tr);
  cu_shape : net_shape (t_net s);
  cu_closing : In Broken tr -> Forall closing (Sockets.m_code (t_net s)) }.

Lemma broken_child : forall e, ~ In Broken (map OfChild e).
Proof. intros e X. apply in_map_iff in X. destruct X as [h [X _]]. discriminate X. Qed.
Lemma broken_net : forall e, ~ In Broken (map OfNet e).
Proof. intros e X. apply in_map_iff in X. destruct X as [h [X _]]. discriminate X. Qed.

Lemma stepped_step_child : forall s a s' ev, stepped s a s' ev -> exists sch, Children.run sch (t_child s) = Some (t_child s', child_seen ev).
Proof.
  intros s a s' ev H. destruct H as [c m e H G|c m e H G|m1 e1 m2 e2 G H1 H2]; cbn [t_child].
  - exists [c]. rewrite child_seen_child. apply one_child; auto.
  - exists []. rewrite child_seen_net. auto.
  - exists [Children.Deliver false]. rewrite child_seen_app, child_seen_child. change (child_seen (Broken :: map OfNet e2)) with (child_seen (map OfNet e2)). rewrite child_seen_net, app_nil_r. apply one_child; auto.
Qed.

Lemma cut_run : forall cmds rs sch s tr, run sch (begin cmds rs) = Some (s, tr) -> cut_state cmds s tr /\ past cutting tr.
Proof.
  intros cmds rs. apply (reach (fun s tr => cut_state cmds s tr /\ past cutting tr)).
  - split; [|intros [|? ?] ? ? X; discriminate X]. constructor; [exists []; reflexivity|apply net_shape_begin|intros []].
  - intros a s tr s' ev [[[sch C] NS CL] Q] H. destruct (stepped_step_child _ _ _ _ H) as [sch1 C1].
    assert (CC : exists sch, Children.run sch (Children.begin cmds 0) = Some (t_child s', child_seen (tr ++ ev))) by (exists (sch ++ sch1); rewrite child_seen_app; eapply PChildren3.run_app; eauto).
    destruct H as [c m e H G|c m e H G|m1 e1 m2 e2 G H1 H2]; cbn [t_child t_net] in *.
    + split; [constructor; [exact CC|auto|]|].
      * rewrite in_app_iff. intros [X|X]; [auto|destruct (broken_child _ X)].
      * apply past_app; [auto|]. intros a1 x b1 E. apply split_map in E. destruct E as [a' [x' [b' [-> [-> ->]]]]]. split; [discriminate|auto].
    + split; [constructor; [exact CC|eapply net_shape_step; eauto|]|].
      * rewrite in_app_iff. intros [X|X]; [|destruct (broken_net _ X)]. eapply closing_step; [|eauto]. auto.
      * apply past_app; [auto|]. intros a1 x b1 E. apply split_map in E. destruct E as [a' [x' [b' [-> [-> ->]]]]]. split; [discriminate|]. rewrite in_app_iff. intros [X|X]; [|destruct (broken_net _ X)]. destruct (closing_step _ _ _ _ (CL X) H) as [_ Y]. apply Forall_app in Y. destruct Y as [_ Y]. apply Forall_inv in Y. exact Y.
    + assert (NB : ~ In Broken tr /\ exists rest, Sockets.m_code (t_net s) = Sockets.Loop :: rest /\ Forall closing rest).
      { destruct NS as [F|[x [y [C2 [NL F]]]]].
        - exfalso. unfold eintr in H2. cbn [Sockets.step] in H2. destruct (Sockets.m_code (t_net s)) as [|z l]; [discriminate H2|]. apply Forall_inv in F. destruct z; try discriminate H2; destruct F.
        - split.
          + intros X. specialize (CL X). rewrite C2 in CL. apply Forall_app in CL. destruct CL as [_ CL]. apply Forall_inv in CL. destruct CL.
          + destruct x as [|z x]; [exists y; auto|]. exfalso. unfold eintr in H2. cbn [Sockets.step] in H2. rewrite C2 in H2. cbn [app] in H2. destruct z; try discriminate H2. apply NL. left. reflexivity. }
      destruct NB as [NB [rest [C2 F]]]. destruct (eintr_step _ _ _ _ H2 C2) as [C3 E2].
      split; [constructor; [exact CC|eapply net_shape_step; eauto|cbn [t_net]; rewrite C3; auto]|].
      apply past_app; [auto|]. intros a1 x b1 E. destruct (PChildren4.split_app _ _ _ _ _ _ E) as [[a2 [X1 ->]]|[e3 [-> X3]]].
      * apply split_map in X1. destruct X1 as [a' [x' [b' [-> [-> ->]]]]]. split; [discriminate|auto].
      * destruct e3 as [|z e3].
        -- injection X3 as <- _. rewrite app_nil_r. split; [|auto]. intros _. split.
           ++ destruct (PChildren5.reach_reaped _ _ _ _ _ C) as [_ [_ [PD _]]]. destruct PD as [i [p [st X]]]; [cbn [Children.step] in H1; destruct (Children.m_pending (t_child s)); [auto|discriminate H1]|]. exists i, p, st. rewrite child_seen_app. apply in_or_app. auto.
           ++ rewrite in_app_iff. intros [X|X]; [auto|destruct (broken_child _ X)].
        -- injection X3 as <- X3. subst e2. cbn [map] in X3. destruct e3 as [|? [|? ?]]; [|discriminate X3|discriminate X3]. injection X3 as <- _. split; [discriminate|]. auto.
Qed.

Lemma seen_child : forall h tr, In (OfChild h) tr <-> In h (child_seen tr).
Proof. intros h tr. unfold child_seen. rewrite in_flat_map. split; [intros H; exists (OfChild h); cbn; auto|]. intros [x [H1 H2]]. destruct x as [k|k|]; cbn [In] in H2; [destruct H2 as [<-|[]]; auto|destruct H2|destruct H2]. Qed.

Lemma program_run : forall args sch st ev tr, program args sch = Ret (Some (st, ev, tr)) -> exists t caps ws rs s, getopt args = ORun t caps ws /\ run sch (begin (map (fun c => fst (capture_add c)) caps) rs) = Some (s, tr).
Proof. intros args sch st ev tr H. destruct (program_inv _ _ _ _ _ H) as [t [caps [ws [cs0 [cs [r [rds [A [_ [_ [_ [_ [rs [s [_ [G _]]]]]]]]]]]]]]]]. exists t, caps, ws, rs, s. auto. Qed.

Lemma program_covered : forall args sch st ev tr t caps ws a x b, program args sch = Ret (Some (st, ev, tr)) -> getopt args = ORun t caps ws -> tr = a ++ x :: b -> of_test x = true ->
  (forall i, (i < length caps)%nat -> In (OfChild (Children.Recorded i)) a \/ In (OfChild (Children.NoFork i)) a) /\
  (caps <> [] -> In (OfChild (Children.Slept Children.Ready)) a \/ In (OfChild (Children.Woken Children.Ready)) a) /\
  (forall i p, ~ In (OfChild (Children.Forked i p)) b) /\ (forall h, In h [Children.Stopping; Children.Killing; Children.Polled] -> ~ In (OfChild h) a) /\ (forall p sig, ~ In (OfChild (Children.Sent p sig)) a).
Proof.
  intros args sch st ev tr t caps ws a x b H HG E HX. destruct (program_run _ _ _ _ _ H) as [t' [caps' [ws' [rs [s [HG' R]]]]]]. rewrite HG in HG'. injection HG' as <- <- <-. pose proof (covered_run _ _ _ _ _ R) as C. rewrite map_length in C. destruct (C a x b E) as [C1 _]. destruct (C1 HX) as [B1 [B2 B3]]. rewrite Forall_forall in B1.
  split; [intros i Hi; rewrite !seen_child; auto|]. split; [intros NE; rewrite !seen_child; apply B3; destruct caps; [destruct NE; auto|cbn; lia]|]. split; [|split].
  - intros i p X. apply in_split in X. destruct X as [b1 [b2 ->]]. destruct (C (a ++ x :: b1) (OfChild (Children.Forked i p)) b2) as [_ X]; [rewrite E, <- app_assoc; reflexivity|]. specialize (X i p eq_refl). apply Forall_app in X. destruct X as [_ X]. apply Forall_inv in X. congruence.
  - intros h Hh X. apply seen_child in X. apply B1 in X. cbn [In] in Hh. destruct Hh as [<-|[<-|[<-|[]]]]; exact X.
  - intros p sig X. apply seen_child in X. apply B1 in X. exact X.
Qed.

Lemma program_broken : forall args sch st ev tr a b, program args sch = Ret (Some (st, ev, tr)) -> tr = a ++ Broken :: b ->
  (exists i p x, In (OfChild (Children.Ended i p x)) a) /\ (forall i m, ~ In (OfNet (Sockets.Taken i m)) b) /\ ~ In Broken a /\ ~ In Broken b.
Proof.
  intros args sch st ev tr a b H E. destruct (program_run _ _ _ _ _ H) as [t' [caps' [ws' [rs [s [HG' R]]]]]]. destruct (cut_run _ _ _ _ _ R) as [_ C]. destruct (C a Broken b E) as [C1 _]. destruct (C1 eq_refl) as [[i [p [x X]]] NB]. split; [exists i, p, x; apply seen_child; auto|].
  assert (N : forall y b1 b2, b = b1 ++ y :: b2 -> In Broken (a ++ Broken :: b1) /\ tr = (a ++ Broken :: b1) ++ y :: b2) by (intros y b1 b2 ->; split; [apply in_or_app; right; left; auto|rewrite <- app_assoc; exact E]).
  split; [|split; [auto|]].
  - intros j m Y. apply in_split in Y. destruct Y as [b1 [b2 Y]]. destruct (N _ _ _ Y) as [N1 N2]. destruct (C _ _ _ N2) as [_ C2]. exact (C2 N1).
  - intros Y. apply in_split in Y. destruct Y as [b1 [b2 Y]]. destruct (N _ _ _ Y) as [N1 N2]. destruct (C _ _ _ N2) as [C2 _]. destruct (C2 eq_refl) as [_ C3]. auto.
Qed.

Lemma program_alone : forall args sch st ev tr t ws, program args sch = Ret (Some (st, ev, tr)) -> getopt args = ORun t [] ws -> ~ In Broken tr.
Proof.
  intros args sch st ev tr t ws H HG X. apply in_split in X. destruct X as [a [b E]]. destruct (program_broken _ _ _ _ _ _ _ H E) as [[i [p [x X]]] _]. destruct (program_run _ _ _ _ _ H) as [t' [caps' [ws' [rs [s [HG' R]]]]]]. rewrite HG in HG'. injection HG' as <- <- <-. destruct (run_parts _ _ _ _ R) as [RC _].
  eapply (PChildren6.no_children 0 (child_seen tr)); [do 2 eexists; exact RC|]. apply seen_child. rewrite E. apply in_or_app. left. exact X.
Qed.

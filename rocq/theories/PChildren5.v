(** Captures that end whenever they like: signals only to own children; what interrupts. *)

From Coq Require Import Permutation.
From Verif Require Import BaseFacts PChildren PChildren2 PChildren3 PChildren4.

Lemma noted_prefix : forall a b, noted (a ++ b) -> noted a.
Proof. intros a b H t1 i p st t2 E. apply (H t1 i p st (t2 ++ b)). rewrite E, <- app_assoc. auto. Qed.
Lemma distinct_prefix : forall a b, distinct (a ++ b) -> distinct a.
Proof. intros a b H. unfold distinct in *. rewrite forked_app, map_app in H. eapply NoDup_app_remove_r; eauto. Qed.
Lemma noted_in : forall tr i p st, noted tr -> In (Ended i p st) tr -> In (Recorded i) tr.
Proof. intros tr i p st H HI. apply in_split in HI. destruct HI as (a & b & ->). apply in_or_app. left. eapply H; eauto. Qed.

Lemma snd_functional : forall (l : list (nat * Z)) i j p, NoDup (map snd l) -> In (i, p) l -> In (j, p) l -> i = j.
Proof.
  induction l as [|[k r] l IH]; intros i j p H Hi Hj; [destruct Hi|]. cbn [map snd] in H. inversion H as [|? ? N1 N2]; subst.
  destruct Hi as [Hi|Hi], Hj as [Hj|Hj].
  - congruence.
  - assert (r = p) by congruence. subst r. destruct N1. apply in_map_iff. exists (j, p). auto.
  - assert (r = p) by congruence. subst r. destruct N1. apply in_map_iff. exists (i, p). auto.
  - eauto.
Qed.

(** Whoever was waited for had ended. *)
Lemma reach_reaped : forall cmds n sch m tr, run sch (begin cmds n) = Some (m, tr) ->
  (forall i p st, In (i, p, st) (m_dead m) -> In (Ended i p st) tr) /\ (forall i p, In (Reaped i p) tr -> exists st, In (Ended i p st) tr) /\
  (m_pending m = true -> exists i p st, In (Ended i p st) tr) /\
  past (fun a h => match h with Woken _ | Interrupted _ => exists i p st, In (Ended i p st) a | _ => True end) tr /\
  (forall i p, In (i, p) (forked tr) -> In (Recorded i) tr \/ match m_code m with SetPid j _ :: _ => j = i | SetRunning j :: _ => j = i | _ => False end).
Proof.
  intros cmds n sch m tr E. assert (H : (tidy (length cmds) m tr /\ kin m tr) /\
    (forall i p st, In (i, p, st) (m_dead m) -> In (Ended i p st) tr) /\ (forall i p, In (Reaped i p) tr -> exists st, In (Ended i p st) tr) /\
    (m_pending m = true -> exists i p st, In (Ended i p st) tr) /\
    past (fun a h => match h with Woken _ | Interrupted _ => exists i p st, In (Ended i p st) a | _ => True end) tr /\
    (forall i p, In (i, p) (forked tr) -> In (Recorded i) tr \/ match m_code m with SetPid j _ :: _ => j = i | SetRunning j :: _ => j = i | _ => False end)); [|apply H].
  revert sch m tr E. match goal with |- forall sch m tr, run sch _ = Some (m, tr) -> @?P m tr => apply (run_reach P (begin cmds n)) end.
  - split; [split; [apply tidy_begin|apply kin_begin]|]. split; [intros i p st []|]. split; [intros i p []|]. split; [discriminate|]. split; [apply past_nil|]. intros i p [].
  - intros ch m tr m' ev ((T & K) & A & B & D & F & G) E. split; [eapply both_step; eauto|]. apply step_stepped in E.
    (* what stays in the trace *)
    assert (A' : forall i p st, In (i, p, st) (m_dead m) -> In (Ended i p st) (tr ++ ev)) by (intros; apply in_or_app; eauto).
    assert (D' : m_pending m = true -> exists i p st, In (Ended i p st) (tr ++ ev)) by (intros Hp; destruct (D Hp) as (i & p & st & X); exists i, p, st; apply in_or_app; auto).
    assert (B' : Forall (fun h => match h with Reaped _ _ => False | _ => True end) ev -> forall i p, In (Reaped i p) (tr ++ ev) -> exists st, In (Ended i p st) (tr ++ ev)).
    { intros Hf i p X. apply in_app_or in X. destruct X as [X|X]; [destruct (B i p X) as [st Y]; exists st; apply in_or_app; auto|]. rewrite Forall_forall in Hf. destruct (Hf _ X). }
    assert (B2 : forall ev1 ev2, ev = ev1 ++ map (fun d => Reaped (fst (fst d)) (snd (fst d))) (m_dead m) ++ ev2 -> Forall (fun h => match h with Reaped _ _ => False | _ => True end) (ev1 ++ ev2) -> forall i p, In (Reaped i p) (tr ++ ev) -> exists st, In (Ended i p st) (tr ++ ev)).
    { intros ev1 ev2 He Hf i p X. apply in_app_or in X. destruct X as [X|X]; [destruct (B i p X) as [st Y]; exists st; apply in_or_app; auto|]. rewrite He in X. apply Forall_app in Hf. destruct Hf as [Hf1 Hf2]. rewrite Forall_forall in Hf1, Hf2.
      apply in_app_or in X. destruct X as [X|X]; [destruct (Hf1 _ X)|]. apply in_app_or in X. destruct X as [X|X]; [|destruct (Hf2 _ X)]. apply in_map_iff in X. destruct X as ([[j q] st] & X1 & X2). cbn [fst snd] in X1. assert (j = i /\ q = p) as [-> ->] by (split; congruence). exists st. auto. }
    assert (F' : Forall (fun h => match h with Woken _ | Interrupted _ => False | _ => True end) ev -> past (fun a h => match h with Woken _ | Interrupted _ => exists i p st, In (Ended i p st) a | _ => True end) (tr ++ ev)).
    { intros Hf. apply past_app; [auto|]. intros e1 h e2 ->. rewrite Forall_forall in Hf. specialize (Hf h). destruct h; auto; exfalso; apply Hf; apply in_or_app; right; left; auto. }
    assert (F2 : m_pending m = true -> past (fun a h => match h with Woken _ | Interrupted _ => exists i p st, In (Ended i p st) a | _ => True end) (tr ++ ev)).
    { intros Hp. apply past_app; [auto|]. intros e1 h e2 _. destruct (D Hp) as (i & p & st & X). destruct h; auto; exists i, p, st; apply in_or_app; auto. }
    assert (G' : forall x rest, m_code m = x :: rest -> settled x -> forked ev = [] -> forall i p, In (i, p) (forked (tr ++ ev)) -> In (Recorded i) (tr ++ ev) \/ match m_code m' with SetPid j _ :: _ => j = i | SetRunning j :: _ => j = i | _ => False end).
    { intros x rest Hc Hx Hf i p X. rewrite forked_app, Hf, app_nil_r in X. left. apply in_or_app. left. destruct (G i p X) as [Y|Y]; [auto|]. rewrite Hc in Y. destruct x; cbn in Hx; try contradiction. }
    assert (G2 : m_code m' = m_code m -> forked ev = [] -> forall i p, In (i, p) (forked (tr ++ ev)) -> In (Recorded i) (tr ++ ev) \/ match m_code m' with SetPid j _ :: _ => j = i | SetRunning j :: _ => j = i | _ => False end).
    { intros Hc Hf i p X. rewrite forked_app, Hf, app_nil_r in X. rewrite Hc. destruct (G i p X) as [Y|Y]; [left; apply in_or_app; auto|right; auto]. }
    assert (NR : forall (dd : list (nat * Z * wstatus)), Forall (fun h => match h with Woken _ | Interrupted _ => False | _ => True end) (map (fun d => Reaped (fst (fst d)) (snd (fst d))) dd)) by (induction dd; constructor; auto).
    destruct E; cbn [m_code m_dead m_pending m_sig m_live m_caps] in *.
    + split; [auto|]. split; [apply B'; repeat constructor|]. split; [auto|]. split; [apply F'; repeat constructor|]. eapply G'; eauto; cbn; auto.
    + split; [auto|]. split; [apply B'; repeat constructor|]. split; [auto|]. split; [apply F'; repeat constructor|]. intros j q X. rewrite forked_app in X. apply in_app_or in X. destruct X as [X|[X|[]]].
      * left. apply in_or_app. left. destruct (G j q X) as [Y|[]]; auto.
      * right. congruence.
    + split; [auto|]. split; [apply B'; repeat constructor|]. split; [auto|]. split; [apply F'; repeat constructor|]. eapply G'; eauto; cbn; auto.
    + split; [auto|]. split; [apply B'; repeat constructor|]. split; [auto|]. split; [apply F'; repeat constructor|]. intros j q X. rewrite app_nil_r in *. destruct (G j q X) as [Y|Y]; [auto|]. subst j.
      pose proof (ti_shape _ _ _ T) as Ts. cbn [m_code] in Ts. inversion Ts; subst; [apply Forall_inv in H; destruct H|]. right. auto.
    + split; [auto|]. split; [apply B'; repeat constructor|]. split; [auto|]. split; [apply F'; repeat constructor|]. intros j q X. rewrite forked_app, app_nil_r in X. left. apply in_or_app. destruct (G j q X) as [Y|Y]; [auto|]. subst j. right. left. auto.
    + split; [auto|]. split; [apply B'; repeat constructor|]. split; [auto|]. split; [apply F'; repeat constructor|]. eapply G'; eauto; cbn; auto.
    + split; [auto|]. split; [apply B'; repeat constructor|]. split; [auto|]. split; [apply F'; repeat constructor|]. eapply G'; eauto; cbn; auto.
    + split; [auto|]. split; [apply B'; repeat constructor|]. split; [auto|]. split; [apply F'; repeat constructor|]. eapply G'; eauto; cbn; auto.
    + split; [auto|]. split; [apply B'; repeat constructor|]. split; [auto|]. split; [apply F'; repeat constructor|]. eapply G'; eauto; cbn; auto.
    + assert (Hev : forall (P : happening -> Prop), (forall p s, P (Sent p s)) -> Forall P (match nth_error cs i with Some c => if cap_running c then [Sent (cap_pid c) sig] else [] | None => [] end)) by (intros P HP; destruct (nth_error cs i) as [c|]; [destruct (cap_running c)|]; repeat constructor; auto).
      split; [auto|]. split; [apply B', Hev; auto|]. split; [auto|]. split; [apply F', Hev; auto|]. eapply (G' (Stop i sig)); eauto; [cbn; auto|]. apply dull_forked, Hev. intros; exact I.
    + split; [auto|]. split; [apply B'; repeat constructor|]. split; [auto|]. split; [apply F'; repeat constructor|]. eapply G'; eauto; cbn; auto.
    + split; [intros i p st []|]. split; [apply (B2 [Polled] []); [cbn [app]; rewrite app_nil_r; auto|repeat constructor]|]. split; [auto|]. split; [apply F'; constructor; auto|]. eapply (G' (Poll (S n0))); eauto; [cbn; auto|]. change (forked (Polled :: ?l)) with (forked l). apply forked_reaped.
    + split; [auto|]. split; [apply B'; destruct b; repeat constructor|]. split; [auto|]. split; [apply F'; destruct b; repeat constructor|]. eapply (G' (Note b)); eauto; [cbn; auto|]. destruct b; auto.
    + split; [intros j q s X; apply (Permutation_in _ (insert_perm _ pos dd (i, p, st))) in X; destruct X as [X|X]; [|auto]; apply in_or_app; right; left; congruence|]. split; [apply B'; repeat constructor|].
      split; [intros _; exists i, p, st; apply in_or_app; right; left; auto|]. split; [apply F'; repeat constructor|]. apply G2; auto.
    + pose proof (interrupt_events _ _ _ H) as Ie. split; [auto|]. split; [apply B'; eapply Forall_impl; [|exact Ie]; intros []; auto|]. split; [discriminate|]. split; [auto|].
      destruct (interrupt_code _ _ _ H) as [->|(x & -> & Hx & Hf)]; [apply G2; auto; eapply interrupt_forked; eauto|eapply G'; eauto; eapply interrupt_forked; eauto].
    + pose proof (interrupt_events _ _ _ H) as Ie. split; [intros i p st []|]. split; [apply (B2 [] ev); [auto|]; cbn [app]; eapply Forall_impl; [|exact Ie]; intros []; auto|]. split; [discriminate|]. split; [auto|].
      assert (Hfo : forked (map (fun d => Reaped (fst (fst d)) (snd (fst d))) dd ++ ev) = []) by (rewrite forked_app, forked_reaped; eapply interrupt_forked; eauto).
      destruct (interrupt_code _ _ _ H) as [->|(x & -> & Hx & Hf)]; [apply G2; auto|eapply G'; eauto].
Qed.

(** ** Which captures are thought to run *)

Definition right_idea (m : machine) (tr : list happening) : Prop :=
  forall i c, nth_error (m_caps m) i = Some c -> (cap_running c = true <-> In (Recorded i) tr /\ forall p, ~ In (Reaped i p) tr) /\ (cap_running c = true -> In (i, cap_pid c) (forked tr)).

Lemma idea_same : forall m m' tr ev, right_idea m tr -> m_caps m' = m_caps m -> Forall (fun h => match h with Recorded _ | Reaped _ _ => False | _ => True end) ev -> right_idea m' (tr ++ ev).
Proof.
  intros m m' tr ev H Hc He i c E. rewrite Hc in E. destruct (H i c E) as [A B]. rewrite Forall_forall in He. split.
  - rewrite A. split; intros [X Y].
    + split; [apply in_or_app; auto|]. intros p Z. apply in_app_or in Z. destruct Z as [Z|Z]; [exact (Y p Z)|destruct (He _ Z)].
    + split; [apply in_app_or in X; destruct X as [X|X]; [auto|destruct (He _ X)]|]. intros p Z. apply (Y p). apply in_or_app. auto.
  - intros R. rewrite forked_app. apply in_or_app. auto.
Qed.

Lemma idea_reap : forall m m' tr ev1 ev2, kin m tr -> right_idea m tr -> distinct tr -> NoDup (map fst (forked tr)) -> (forall i p st, In (i, p, st) (m_dead m) -> In (Recorded i) tr) ->
  m_caps m' = reap (map (fun d => (snd (fst d), snd d)) (m_dead m)) (m_caps m) ->
  Forall (fun h => match h with Recorded _ | Reaped _ _ => False | _ => True end) (ev1 ++ ev2) ->
  right_idea m' (tr ++ ev1 ++ map (fun d => Reaped (fst (fst d)) (snd (fst d))) (m_dead m) ++ ev2).
Proof.
  intros m m' tr ev1 ev2 K H Hd Hf Hr Hc He i c E. rewrite Hc in E. destruct (reap_nth_inv _ _ _ _ E) as (c0 & X1 & X2 & X3 & X4 & X5). destruct (H i c0 X1) as [A B].
  apply Forall_app in He. destruct He as [He1 He2]. rewrite Forall_forall in He1, He2.
  assert (Rec : In (Recorded i) (tr ++ ev1 ++ map (fun d => Reaped (fst (fst d)) (snd (fst d))) (m_dead m) ++ ev2) -> In (Recorded i) tr).
  { intros X. apply in_app_or in X. destruct X as [X|X]; [auto|]. apply in_app_or in X. destruct X as [X|X]; [destruct (He1 _ X)|]. apply in_app_or in X. destruct X as [X|X]; [|destruct (He2 _ X)]. apply in_map_iff in X. destruct X as (d & X & _). discriminate. }
  assert (Rea : forall p, In (Reaped i p) (tr ++ ev1 ++ map (fun d => Reaped (fst (fst d)) (snd (fst d))) (m_dead m) ++ ev2) -> In (Reaped i p) tr \/ exists st, In (i, p, st) (m_dead m)).
  { intros p X. apply in_app_or in X. destruct X as [X|X]; [auto|]. apply in_app_or in X. destruct X as [X|X]; [destruct (He1 _ X)|]. apply in_app_or in X. destruct X as [X|X]; [|destruct (He2 _ X)]. apply in_map_iff in X. destruct X as ([[j q] st] & X & Y). cbn [fst snd] in X. right. exists st. assert (j = i /\ q = p) as [-> ->] by (split; congruence). auto. }
  assert (Uni : cap_running c0 = true -> forall k d, nth_error (m_caps m) k = Some d -> cap_pid d = cap_pid c0 -> k = i).
  { intros R k d Hk Hp. specialize (B R). destruct (ki_pid _ _ K k d Hk) as [Z|Z]; [pose proof (ki_pos _ _ K _ _ B); lia|]. rewrite Hp in Z. eapply snd_functional; eauto. }
  assert (Dead : cap_running c0 = true -> In (cap_pid c0) (map fst (map (fun d : nat * Z * wstatus => (snd (fst d), snd d)) (m_dead m))) -> exists st, In (i, cap_pid c0, st) (m_dead m)).
  { intros R X. rewrite map_map in X. apply in_map_iff in X. destruct X as ([[j q] st] & Y1 & Y2). cbn [fst snd] in Y1. subst q. exists st. assert (j = i) by (eapply snd_functional; [exact Hd|eapply (ki_dead _ _ K); eauto|auto]). subst j. auto. }
  split.
  - split.
    + intros R. assert (R0 : cap_running c0 = true) by auto. destruct (proj1 A R0) as [Y1 Y2]. split; [apply in_or_app; auto|]. intros p Z. destruct (Rea p Z) as [Z1|[st Z1]]; [exact (Y2 p Z1)|].
      assert (p = cap_pid c0) by (eapply fst_functional; [exact Hf|eapply (ki_dead _ _ K); eauto|auto]). subst p. rewrite X5 in R; [discriminate|exact (Uni R0)|]. rewrite map_map. apply in_map_iff. exists (i, cap_pid c0, st). auto.
    + intros [Y1 Y2]. assert (R0 : cap_running c0 = true) by (apply A; split; [auto|intros p Z; apply (Y2 p); apply in_or_app; auto]).
      assert (c = c0); [|subst; auto]. apply X4. intros Z. destruct (Dead R0 Z) as [st Z1]. apply (Y2 (cap_pid c0)). apply in_or_app. right. apply in_or_app. right. apply in_or_app. left. apply in_map_iff. exists (i, cap_pid c0, st). auto.
  - intros R. rewrite forked_app. apply in_or_app. left. rewrite X2. auto.
Qed.

Lemma idea_run : forall cmds n sch m tr, run sch (begin cmds n) = Some (m, tr) -> noted tr -> distinct tr -> right_idea m tr.
Proof.
  intros cmds n sch m tr E. assert (H : (exists sch, run sch (begin cmds n) = Some (m, tr)) /\ (noted tr -> distinct tr -> right_idea m tr)); [|apply H]. revert sch m tr E.
  match goal with |- forall sch m tr, run sch _ = Some (m, tr) -> @?P m tr => apply (run_reach P (begin cmds n)) end.
  - split; [exists []; auto|]. intros _ _ i c Hc. unfold begin in Hc. cbn [m_caps] in Hc. rewrite nth_error_map in Hc. destruct (nth_error cmds i); [|discriminate]. apply some_inj in Hc. subst c. cbn [cap_running]. split; [split; [discriminate|intros [[] _]]|discriminate].
  - intros ch m tr m' ev [[sch R] H] E. split; [exists (sch ++ [ch]); eapply run_app; [exact R|cbn [run]; rewrite E, app_nil_r; auto]|].
    intros Hn Hdi. specialize (H (noted_prefix _ _ Hn) (distinct_prefix _ _ Hdi)). destruct (both_run _ _ _ _ _ R) as [T K]. destruct (reach_reaped _ _ _ _ _ R) as (RA & RB & _ & _ & _). apply step_stepped in E.
    pose proof (noted_prefix _ _ Hn) as Hn0. pose proof (distinct_prefix _ _ Hdi) as Hd0. pose proof (ti_once _ _ _ T) as To. apply NoDup_app_remove_r in To.
    assert (Hrec : forall i p st, In (i, p, st) (m_dead m) -> In (Recorded i) tr) by (intros i p st X; eapply noted_in; eauto).
    destruct E; try (eapply idea_same; [exact H|auto|repeat constructor]; fail).
    + (* pid *) rewrite app_nil_r. intros j c Hj. cbn [m_caps] in Hj. pose proof (ti_head _ _ _ T) as Th. cbn [m_code heads] in Th. destruct Th as [Th1 Th2]. destruct (Nat.eq_dec i j) as [<-|Hne].
      * rewrite update_same in Hj. destruct (nth_error cs i) as [c0|] eqn:Ec; [|discriminate]. apply some_inj in Hj. subst c. cbn [cap_running cap_pid]. destruct (H i c0 Ec) as [A B]. split; [auto|]. intros R0. destruct (proj1 A R0) as [X _]. destruct (Th2 X).
      * rewrite update_other in Hj by auto. exact (H j c Hj).
    + (* running *) intros j c Hj. cbn [m_caps] in Hj. pose proof (ti_head _ _ _ T) as Th. cbn [m_code heads] in Th. destruct Th as [Th1 Th2]. destruct (Nat.eq_dec i j) as [<-|Hne].
      * rewrite update_same in Hj. destruct (nth_error cs i) as [c0|] eqn:Ec; [|discriminate]. apply some_inj in Hj. subst c. cbn [cap_running cap_pid].
        assert (NE : forall p st, ~ In (Ended i p st) tr) by (intros p st X; apply Th2; eapply noted_in; eauto).
        split.
        -- split; [intros _|auto]. split; [apply in_or_app; right; left; auto|]. intros p X. apply in_app_or in X. destruct X as [X|[X|[]]]; [|discriminate]. destruct (RB i p X) as [st Y]. exact (NE p st Y).
        -- intros _. rewrite forked_app, app_nil_r. apply in_map_iff in Th1. destruct Th1 as ([k p] & X1 & X2). cbn [fst] in X1. subst k. destruct (ki_end _ _ K i p X2) as [L|[st L]]; [|destruct (NE p st L)].
           destruct (ki_start _ _ K i p L) as [U|(c1 & U1 & U2 & _)].
           ++ cbn [m_code m_caps underway] in U. destruct U as [_ (c1 & U1 & U2)]. assert (c1 = c0) by congruence. subst c1. rewrite U2. auto.
           ++ cbn [m_caps] in U1. assert (c1 = c0) by congruence. subst c1. rewrite U2. auto.
      * rewrite update_other in Hj by auto. destruct (H j c Hj) as [A B]. split.
        -- rewrite A. split; intros [X Y].
           ++ split; [apply in_or_app; auto|]. intros p Z. apply in_app_or in Z. destruct Z as [Z|[Z|[]]]; [exact (Y p Z)|discriminate].
           ++ split; [apply in_app_or in X; destruct X as [X|[X|[]]]; [auto|congruence]|]. intros p Z. apply (Y p). apply in_or_app. auto.
        -- intros R0. rewrite forked_app. apply in_or_app. auto.
    + eapply idea_same; [exact H|auto|]. destruct (nth_error cs i) as [c|]; [destruct (cap_running c)|]; repeat constructor.
    + pose proof (idea_reap _ (MkM (if existsb cap_running cs' then Poll n0 :: rest else rest) cs' lv [] pe sg) tr [Polled] [] K H Hd0 To Hrec eq_refl) as R0. cbn [m_dead app] in R0. rewrite app_nil_r in R0. apply R0. repeat constructor.
    + eapply idea_same; [exact H|auto|]. destruct b; repeat constructor.
    + eapply idea_same; [exact H|auto|]. eapply Forall_impl; [|eapply interrupt_events; eauto]. intros []; auto.
    + apply (idea_reap _ (MkM code' (reap (map (fun d => (snd (fst d), snd d)) dd) cs) lv [] false Reaping) tr [] ev K H Hd0 To Hrec eq_refl). cbn [app]. eapply Forall_impl; [|eapply interrupt_events; eauto]. intros []; auto.
Qed.

(** Signals go to own children only. *)
Lemma own_only : forall cmds n sch m tr, run sch (begin cmds n) = Some (m, tr) -> noted tr -> distinct tr ->
  past (fun a h => match h with Sent p _ => exists i, In (Forked i p) a /\ ~ In (Reaped i p) a | _ => True end) tr.
Proof.
  intros cmds n sch m tr E. assert (H : (exists sch, run sch (begin cmds n) = Some (m, tr)) /\ (noted tr -> distinct tr -> past (fun a h => match h with Sent p _ => exists i, In (Forked i p) a /\ ~ In (Reaped i p) a | _ => True end) tr)); [|apply H]. revert sch m tr E.
  match goal with |- forall sch m tr, run sch _ = Some (m, tr) -> @?P m tr => apply (run_reach P (begin cmds n)) end.
  - split; [exists []; auto|]. intros _ _. apply past_nil.
  - intros ch m tr m' ev [[sch R] H] E. split; [exists (sch ++ [ch]); eapply run_app; [exact R|cbn [run]; rewrite E, app_nil_r; auto]|].
    intros Hn Hdi. pose proof (noted_prefix _ _ Hn) as Hn0. pose proof (distinct_prefix _ _ Hdi) as Hd0. specialize (H Hn0 Hd0). pose proof (idea_run _ _ _ _ _ R Hn0 Hd0) as I0. apply step_stepped in E. apply past_app; [auto|].
    assert (Q : Forall (fun h => match h with Sent _ _ => False | _ => True end) ev -> forall e1 h e2, ev = e1 ++ h :: e2 -> match h with Sent p _ => exists i, In (Forked i p) (tr ++ e1) /\ ~ In (Reaped i p) (tr ++ e1) | _ => True end).
    { intros Hf e1 h e2 ->. rewrite Forall_forall in Hf. specialize (Hf h). destruct h; auto. destruct Hf. apply in_or_app. right. left. auto. }
    assert (NR : forall (dd : list (nat * Z * wstatus)), Forall (fun h => match h with Sent _ _ => False | _ => True end) (map (fun d => Reaped (fst (fst d)) (snd (fst d))) dd)) by (induction dd; constructor; auto).
    destruct E; try (apply Q; repeat constructor; fail).
    + destruct (nth_error cs i) as [c|] eqn:Ec; [destruct (cap_running c) eqn:Er|]; [|apply Q; constructor|apply Q; constructor]. intros e1 h e2 Eq. destruct (single _ _ _ _ _ Eq) as [-> ->]. rewrite app_nil_r. destruct (I0 i c Ec) as [A B]. exists i.
      specialize (B Er). destruct (proj1 A Er) as [_ Y]. split; [|apply Y]. unfold forked in B. apply in_flat_map in B. destruct B as (h & X1 & X2). destruct h; cbn in X2; try contradiction. destruct X2 as [X2|[]]. injection X2 as -> ->. auto.
    + apply Q. constructor; auto.
    + apply Q. destruct b; repeat constructor.
    + apply Q. eapply Forall_impl; [|eapply interrupt_events; eauto]. intros []; auto.
    + apply Q. apply Forall_app. split; [auto|]. eapply Forall_impl; [|eapply interrupt_events; eauto]. intros []; auto.
Qed.

(** Who is sent SIGINT and SIGTERM. *)
Lemma running_nodup : forall (m : machine) tr, right_idea m tr -> distinct tr -> NoDup (running_pids (m_caps m)).
Proof.
  intros m tr I0 D. assert (H : forall cs off, (forall i c, nth_error cs i = Some c -> cap_running c = true -> In ((off + i)%nat, cap_pid c) (forked tr)) -> NoDup (running_pids cs) /\ forall p, In p (running_pids cs) -> exists i, (off <= i)%nat /\ In (i, p) (forked tr)).
  { unfold running_pids. induction cs as [|c cs IH]; intros off Hc; cbn [flat_map]; [split; [constructor|intros p []]|].
    destruct (IH (S off)) as [A B]; [intros i d Hi Hr; specialize (Hc (S i) d Hi Hr); rewrite <- Nat.add_succ_comm in Hc; exact Hc|].
    assert (B' : forall p, In p (flat_map (fun c => if cap_running c then [cap_pid c] else []) cs) -> exists i, (off <= i)%nat /\ In (i, p) (forked tr)) by (intros p X; destruct (B p X) as (i & Y1 & Y2); exists i; split; [lia|auto]).
    destruct (cap_running c) eqn:Er; cbn [app]; [|auto]. pose proof (Hc 0%nat c eq_refl Er) as H0. rewrite Nat.add_0_r in H0. split.
    - constructor; [|auto]. intros X. destruct (B _ X) as (i & Y1 & Y2). assert (i = off) by (eapply snd_functional; [exact D|exact Y2|exact H0]). lia.
    - intros p [<-|X]; [exists off; auto|auto]. }
  apply (H (m_caps m) 0%nat). intros i c Hi Hr. apply (I0 i c Hi). auto.
Qed.

Lemma running_exact : forall cmds n t m p, goes (begin cmds n) t m -> idle m -> noted t -> distinct t -> In p (running_pids (m_caps m)) <-> exists i, In (Forked i p) t /\ ~ In (Reaped i p) t.
Proof.
  intros cmds n t m p [sch R] I0 Hn Hd. pose proof (idea_run _ _ _ _ _ R Hn Hd) as Id. destruct (both_run _ _ _ _ _ R) as [T K]. destruct (reach_reaped _ _ _ _ _ R) as (RA & RB & _ & _ & RC).
  assert (FI : forall i, In (Forked i p) t <-> In (i, p) (forked t)).
  { intros i. unfold forked. rewrite in_flat_map. split; [intros X; exists (Forked i p); split; [auto|left; auto]|]. intros (h & X1 & X2). destruct h; cbn in X2; try contradiction. destruct X2 as [X2|[]]. injection X2 as -> ->. auto. }
  split.
  - intros X. unfold running_pids in X. apply in_flat_map in X. destruct X as (c & X1 & X2). apply In_nth_error in X1. destruct X1 as [i X1]. destruct (cap_running c) eqn:Er; [|destruct X2]. destruct X2 as [<-|[]]. destruct (Id i c X1) as [A B]. exists i. rewrite FI. split; [auto|]. apply A. auto.
  - intros (i & X1 & X2). rewrite FI in X1. destruct (RC i p X1) as [Y|Y].
    + assert (Hl : (i < length cmds)%nat) by (apply (ti_range _ _ _ T); apply in_or_app; left; apply (in_map fst) in X1; exact X1). rewrite <- (ti_len _ _ _ T) in Hl. destruct (nth_error (m_caps m) i) as [c|] eqn:Ec; [|apply nth_error_None in Ec; lia].
      assert (Er : cap_running c = true).
      { apply (Id i c Ec). split; [auto|]. intros q Z. assert (q = p) by (pose proof (ti_once _ _ _ T) as To; apply NoDup_app_remove_r in To; eapply fst_functional; [exact To|apply (ki_waited _ _ K); exact Z|auto]). subst. auto. }
      destruct (Id i c Ec) as [_ B]. specialize (B Er). assert (cap_pid c = p) by (pose proof (ti_once _ _ _ T) as To; apply NoDup_app_remove_r in To; eapply fst_functional; [exact To|exact B|auto]).
      eapply in_running. exists c. split; [exact Ec|auto].
    + exfalso. destruct I0 as (x & rest & Z1 & Z2). rewrite Z1 in Y. destruct x; cbn in *; contradiction.
Qed.

Lemma exact_signals : forall cmds n tr t1 t2 t3, completes cmds n tr -> noted tr -> distinct tr -> tr = t1 ++ Stopping :: t2 ++ Killing :: t3 ->
  (forall p, In p (sent SIGINT tr) <-> exists i, In (Forked i p) t1 /\ ~ In (Reaped i p) t1) /\
  (forall p, In p (sent SIGTERM tr) <-> exists i, In (Forked i p) t1 /\ ~ In (Reaped i p) (t1 ++ t2)) /\ NoDup (sent SIGINT tr) /\ NoDup (sent SIGTERM tr).
Proof.
  intros cmds n tr t1 t2 t3 C Hn Hd Ht. destruct (complete_parts _ _ _ C) as (tA & b1 & b2 & c1 & c2 & mA & mB & m' & E & HA & GA & GB & G' & Hdo & IA & IB & S1 & R1 & W1 & P1 & S2 & R2 & W2 & P2).
  destruct (mark_unique _ _ _ C _ _ _ _ _ E HA S1 W1 S2 W2) as [U1 U2]. destruct (U1 _ _ Ht) as [-> X2]. destruct (U2 (tA ++ Stopping :: t2) t3) as [Y1 Y2]; [rewrite Ht, <- app_assoc; auto|]. apply app_inv_head in Y1. injection Y1 as ->.
  assert (HnA : noted tA) by (eapply noted_prefix; rewrite <- E; auto). assert (HdA : distinct tA) by (eapply distinct_prefix; rewrite <- E; auto).
  assert (EB : tr = (tA ++ Stopping :: b1 ++ b2) ++ Killing :: c1 ++ c2) by (rewrite E, <- !app_assoc; cbn [app]; rewrite <- !app_assoc; auto).
  assert (HnB : noted (tA ++ Stopping :: b1 ++ b2)) by (eapply noted_prefix; rewrite <- EB; auto). assert (HdB : distinct (tA ++ Stopping :: b1 ++ b2)) by (eapply distinct_prefix; rewrite <- EB; auto).
  assert (SW : forall s l, Forall waiting l -> sent s l = []) by (intros s; induction l as [|h l IH]; intros H; [auto|]; pose proof (Forall_inv H) as A; unfold sent in *; cbn [flat_map]; rewrite (IH (Forall_inv_tail H)); destruct h; auto; destruct A).
  assert (SO : forall s s' l, s <> s' -> Forall (signalling s) l -> sent s' l = []) by (intros s s' l Hne; induction l as [|h l IH]; intros H; [auto|]; pose proof (Forall_inv H) as A; unfold sent in *; cbn [flat_map]; rewrite (IH (Forall_inv_tail H)); destruct h; auto; cbn in A; try contradiction; subst sig; rewrite (proj2 (Z.eqb_neq s s') Hne); auto).
  assert (SI : sent SIGINT tr = running_pids (m_caps mA)).
  { rewrite E. change (Stopping :: ?l) with ([Stopping] ++ l). change (Killing :: ?l) with ([Killing] ++ l). rewrite !sent_app, (sent_early _ _ HA), R1, (SW _ b2 W1), (SW _ c2 W2), (SO SIGTERM SIGINT c1) by (auto; discriminate). cbn. rewrite !app_nil_r. auto. }
  assert (ST : sent SIGTERM tr = running_pids (m_caps mB)).
  { rewrite E. change (Stopping :: ?l) with ([Stopping] ++ l). change (Killing :: ?l) with ([Killing] ++ l). rewrite !sent_app, (sent_early _ _ HA), R2, (SW _ b2 W1), (SW _ c2 W2), (SO SIGINT SIGTERM b1) by (auto; discriminate). cbn. rewrite !app_nil_r. auto. }
  assert (NF : forall i p, ~ In (Forked i p) (b1 ++ b2)) by (intros i p X; apply in_app_or in X; destruct X as [X|X]; revert X; eapply forall_not_in; eauto; intros []).
  split; [intros p; rewrite SI; eapply running_exact; eauto|]. split.
  - intros p. rewrite ST. rewrite (running_exact _ _ _ _ p GB IB HnB HdB). split; intros (i & X & Y); exists i.
    + split; [apply in_app_or in X; destruct X as [X|[X|X]]; [auto|discriminate|destruct (NF i p X)]|]. intros Z. apply Y. apply in_app_or in Z. apply in_or_app. destruct Z; [auto|right; right; auto].
    + split; [apply in_or_app; auto|]. intros Z. apply Y. apply in_app_or in Z. apply in_or_app. destruct Z as [Z|[Z|Z]]; [auto|discriminate|auto].
  - split; [rewrite SI; destruct GA as [sA GA]; eapply running_nodup; [eapply idea_run; eauto|auto]|rewrite ST; destruct GB as [sB GB]; eapply running_nodup; [eapply idea_run; eauto|auto]].
Qed.

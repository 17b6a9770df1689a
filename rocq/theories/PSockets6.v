(** Proofs about sockets: whole executions (C91, C92). *)

From Coq Require Import Permutation.
From Verif Require Import BaseFacts SpecSockets PSockets PSockets2 PSockets3 PSockets4 PSockets5 PPair PRecv PQuiet.

(** *** More about runs *)
Record sound (n : nat) (rs0 : list resource) (tr : list happening) (m : machine) : Prop := {
  so_tagged : tagged tr m; so_judged : judged tr m; so_settled : settled tr; so_faults : faults tr m; so_dooms : dooms tr m; so_loops : loops rs0 m; so_fed : fed m;
  so_served : forall i, delivered i (served (m_rounds m)) = delivered i (m_rounds m);
  so_next : In Loop (m_code m) -> forall fut, served (m_rounds m ++ fut) = m_rounds m ++ served fut;
  so_usable : forall i fd, nth_error (m_fds m) i = Some fd -> In (Usable i fd) tr;
  so_turn : forall a b, tr = a ++ Turn :: b -> forall i, (i < n)%nat -> exists fd, In (Usable i fd) a }.

Lemma move_served : forall n m ch m1 ev, ((forall i, delivered i (served (m_rounds m)) = delivered i (m_rounds m)) /\ (In Loop (m_code m) -> forall fut, served (m_rounds m ++ fut) = m_rounds m ++ served fut)) -> move n m ch m1 ev ->
  (forall i, delivered i (served (m_rounds m1)) = delivered i (m_rounds m1)) /\ (In Loop (m_code m1) -> forall fut, served (m_rounds m1 ++ fut) = m_rounds m1 ++ served fut).
Proof.
  intros n m ch m1 ev [S1 S2] H. split_move H; cbn [with_socks with_code m_rounds m_code]; rewrite ?E in S2;
    try (split; [exact S1|]; intros XX; apply S2; first [left; reflexivity|destruct XX as [XX|XX]; [discriminate XX|right; exact XX]|right; exact XX]).
  - split; [exact S1|exact S2].
  - split; [auto|intros []].
  - split; [exact S1|]. intros [XX|[]]. discriminate XX.
  - split; [auto|intros _ fut; reflexivity].
  - split; [auto|intros []].
  - split; [|intros XX; destruct (no_loop _ _ XX)]. intros i. rewrite (S2 (or_introl eq_refl)). cbn [served rd_late rd_select]. rewrite L. rewrite !delivered_app. cbn [delivered flat_map rd_rx app]. auto.
  - assert (N : forall fut, served ((m_rounds m ++ [MkRound sel false (got (m_got m)) wr send]) ++ fut) = (m_rounds m ++ [MkRound sel false (got (m_got m)) wr send]) ++ served fut).
    { intros fut. rewrite <- !app_assoc. cbn [app]. rewrite S2 by (right; left; auto). cbn [served rd_late rd_select orb]. destruct (Z.leb_spec sel 0); [lia|]. auto. }
    split; [|intros _; exact N]. intros i. pose proof (N []) as N0. rewrite !app_nil_r in N0. rewrite N0. auto.
Qed.

Lemma move_usable : forall n tr m ch m1 ev, (forall i fd, nth_error (m_fds m) i = Some fd -> In (Usable i fd) tr) -> move n m ch m1 ev -> forall i fd, nth_error (m_fds m1) i = Some fd -> In (Usable i fd) (tr ++ ev).
Proof.
  intros n tr m ch m1 ev HU H. split_move H; intros u v W; apply in_or_app; cbn [with_socks with_code m_fds] in W; try (left; apply HU; exact W).
  destruct (Nat.lt_ge_cases u (length (m_fds m))) as [L|L]; [rewrite nth_error_app1 in W by auto; auto|]. rewrite nth_error_app2 in W by auto. assert (u = i) by (pose proof (og_fds _ _ _ _ H); apply nth_lt in W; cbn [length] in W; lia). subst u. rewrite (og_fds _ _ _ _ H), Nat.sub_diag in W. cbn in W. apply some_inj in W. subst v. right. apply in_or_app. right. left. auto.
Qed.

Lemma move_turn : forall n tr m ch m1 ev, (forall i fd, nth_error (m_fds m) i = Some fd -> In (Usable i fd) tr) -> (forall a b, tr = a ++ Turn :: b -> forall i, (i < n)%nat -> exists fd, In (Usable i fd) a) -> move n m ch m1 ev ->
  forall a b, tr ++ ev = a ++ Turn :: b -> forall i, (i < n)%nat -> exists fd, In (Usable i fd) a.
Proof.
  intros n tr m ch m1 ev HU HT H a b EQ i0 Li. destruct (split_end _ _ _ _ _ EQ) as [[c [Ec _]]|W]; [eapply HT; eauto|].
  assert (A : opened n m /\ ev = [Turn]).
  { clear EQ a b i0 Li HU HT. split_move H; try (repeat (destruct W as [W|W]; [discriminate W|]); destruct W); auto. destruct Q as [[_ ->]|[[_ ->]| ->]]; repeat (destruct W as [W|W]; [discriminate W|]); destruct W. }
  destruct A as [A ->]. destruct b as [|h b] using rev_ind.
  - apply app_inj_tail in EQ. destruct EQ as [<- _]. destruct (nth_error (m_fds m) i0) as [fd|] eqn:EN; [eauto|]. apply nth_error_None in EN. rewrite (od_fds _ _ A) in EN. lia.
  - rewrite app_comm_cons, app_assoc in EQ. apply app_inj_tail in EQ. destruct EQ as [EQ _]. eapply HT; eauto.
Qed.

Lemma begin_sound : forall rs, sound (length rs) rs [] (begin rs).
Proof.
  intros rs. constructor; try (intros; discriminate).
  - constructor; [|intros i k _ V; discriminate V]. intros x Hx. unfold begin in Hx. cbn [m_code] in Hx. apply in_app_or in Hx. destruct Hx as [Hx|[<-|Hx]]; [|exact I|]; apply in_map_iff in Hx; destruct Hx as [j [<- _]]; cbn; auto.
  - intros i. auto.
  - intros i fd a b X. destruct a; discriminate X.
  - unfold faults, begin. cbn [m_failed m_code orb]. destruct rs; auto.
  - constructor; unfold begin; cbn [m_rounds m_rs m_ev m_code]; [apply main_nil| |].
    + intros _ fut. cbn [app]. destruct (main_loop fut rs) as [[r e]|c]; auto.
    + intros [sel [wr [send X]]]. apply in_app_or in X. destruct X as [X|[X|X]]; [|discriminate X|]; apply in_map_iff in X; destruct X as [j [X _]]; discriminate X.
  - auto.
  - auto.
  - intros i fd X. destruct i; discriminate X.
  - intros a b X. destruct a; discriminate X.
Qed.

Lemma run_sound : forall rs sch m tr, run sch (begin rs) = Some (m, tr) -> agrees (length rs) tr m /\ sound (length rs) rs tr m.
Proof.
  intros rs sch m tr H. eapply (run_agrees (sound (length rs) rs)); [apply begin_agrees|apply begin_sound| |exact H]. clear. intros tr m ch m1 ev HA [S1 S2 S3 S4 S5 S6 S7 S8 S9 S10 S11] H. destruct (move_served _ _ _ _ _ (conj S8 S9) H) as [S8' S9']. constructor; auto.
  - eapply move_tagged; eauto.
  - eapply move_judged; eauto.
  - eapply move_settled; eauto.
  - eapply move_faults; eauto.
  - eapply move_dooms; eauto.
  - eapply move_loops; eauto.
  - eapply move_fed; eauto.
  - eapply move_usable; eauto.
  - eapply move_turn; eauto.
Qed.

(** *** Whole executions *)
Lemma broke_trouble : forall tr, broke tr = true <-> trouble tr.
Proof.
  intros tr. unfold broke, trouble. rewrite existsb_exists. split.
  - intros [h [H1 H2]]. destruct h; try discriminate H2; eauto.
  - intros [i [H|H]]; eexists; split; try exact H; auto.
Qed.

Record finished (cs : list cmd) (r : Z) (ev : list event) (tr : list happening) (rds : list round) (rs : list resource) (m : machine) : Prop := {
  fi_agrees : agrees (length rs) tr m; fi_sound : sound (length rs) rs tr m; fi_run : exists sch, run sch (begin rs) = Some (m, tr); fi_code : m_code m = []; fi_rounds : m_rounds m = rds;
  fi_rs : exists ev0, pair_cmds cs = (fst (fst (pair_cmds cs)), 0, ev0) /\ add_all (fst (fst (pair_cmds cs))) [] = Ret rs;
  fi_exec : exec_cmds cs (MkEnv (fun _ => negb (m_failed m)) rds) = Ret (r, ev);
  fi_failed : m_failed m = true -> r = -1 }.

Lemma forallb_true : forall (A : Type) (l : list A), forallb (fun _ => true) l = true.
Proof. induction l; auto. Qed.

Lemma exec_finished : forall cs sch r ev tr rds, exec_with cs sch = Ret (Some (r, ev, tr, rds)) -> exists rs m, finished cs r ev tr rds rs m.
Proof.
  intros cs sch r ev tr rds H. unfold exec_with in H. destruct (pair_cmds cs) as [[cs1 err] ev1] eqn:EP. destruct (negb (err =? 0)) eqn:EE; [discriminate H|]. binv H. binv H. binv H. rename a into e2, a0 into e3, a1 into rs. destruct (run sch (begin rs)) as [[m t]|] eqn:ER; [|discriminate H].
  destruct (run_sound _ _ _ _ ER) as [HA HS]. exists rs, m. assert (EC : err = 0) by (apply negb_false_iff, Z.eqb_eq in EE; auto). subst err.
  destruct m as [c fds rs1 ss gt rd ev4 failed]. destruct c as [|? ?]; [|discriminate H]. pose proof (lo_now _ _ (so_loops _ _ _ _ HS)) as HL. cbn [m_rounds m_rs m_ev] in HL.
  assert (G : forall b, exec_cmds cs (MkEnv (fun _ => b) rd) = if forallb (fun _ => b) rs then let '(err2, ev5) := check_all rs1 in Ret (err2, name_events cs ++ ev1 ++ e2 ++ e3 ++ ev4 ++ ev5) else Ret (-1, name_events cs ++ ev1 ++ e2 ++ e3)).
  { intros b. unfold exec_cmds. rewrite EP. cbn [Z.eqb negb]. rewrite E, E0, E1. cbn [bind e_open e_rounds]. rewrite HL. cbn [bind]. auto. }
  destruct failed.
  - apply ret_inj, some_inj in H. do 3 (apply pair_inj in H; destruct H as [H ?]). subst. constructor; auto.
    + exists sch. auto.
    + rewrite EP. cbn [fst]. exists ev1. auto.
    + cbn [m_failed negb]. rewrite G. assert (NE : rs <> []).
      { pose proof (co_at _ _ (ag_course _ _ _ HA)) as AT. cbn [m_code m_fds m_got m_rounds m_failed] in AT. inversion AT; subst. intros ->. cbn in *. lia. }
      destruct rs; [congruence|]. auto.
  - destruct (check_all rs1) as [err2 ev5] eqn:EK. apply ret_inj, some_inj in H. do 3 (apply pair_inj in H; destruct H as [H ?]). subst. constructor; auto.
    + exists sch. auto.
    + rewrite EP. cbn [fst]. exists ev1. auto.
    + cbn [m_failed negb]. rewrite G, forallb_true. auto.
    + discriminate.
Qed.

Lemma finished_failed : forall cs r ev tr rds rs m, finished cs r ev tr rds rs m -> (m_failed m = true <-> trouble tr).
Proof.
  intros cs r ev tr rds rs m H. rewrite <- broke_trouble. rewrite (so_faults _ _ _ _ (fi_sound _ _ _ _ _ _ _ H)), (fi_code _ _ _ _ _ _ _ H). cbn [shutting]. rewrite orb_false_r. tauto.
Qed.

Lemma exec_refines : forall cs sch r ev tr rds, exec_with cs sch = Ret (Some (r, ev, tr, rds)) -> exists b, exec_cmds cs (MkEnv (fun _ => b) rds) = Ret (r, ev) /\ (b = false <-> trouble tr) /\ (trouble tr -> r = -1).
Proof.
  intros cs sch r ev tr rds H. destruct (exec_finished _ _ _ _ _ _ H) as [rs [m F]]. exists (negb (m_failed m)). split; [apply (fi_exec _ _ _ _ _ _ _ F)|]. pose proof (finished_failed _ _ _ _ _ _ _ F) as FF. rewrite negb_false_iff. split; [exact FF|]. intros X. apply (fi_failed _ _ _ _ _ _ _ F), FF, X.
Qed.

Lemma exec_judged : forall cs sch r ev tr rds i, exec_with cs sch = Ret (Some (r, ev, tr, rds)) -> delivered i (served rds) = map (fun a => as_seen i tr (snd a)) (taken i tr).
Proof.
  intros cs sch r ev tr rds i H. destruct (exec_finished _ _ _ _ _ _ H) as [rs [m F]]. rewrite <- (fi_rounds _ _ _ _ _ _ _ F), (so_served _ _ _ _ (fi_sound _ _ _ _ _ _ _ F)), <- (so_judged _ _ _ _ (fi_sound _ _ _ _ _ _ _ F)).
  assert (G : m_got m = []). { pose proof (co_at _ _ (ag_course _ _ _ (fi_agrees _ _ _ _ _ _ _ F))) as AT. pose proof (fi_code _ _ _ _ _ _ _ F) as C. remember (m_code m) as c. destruct AT; auto. destruct l; discriminate C. }
  rewrite G. cbn [got find opt]. rewrite app_nil_r. auto.
Qed.

Lemma exec_unknown : forall cs sch r ev tr rds i, exec_with cs sch = Ret (Some (r, ev, tr, rds)) -> In (Index i false 0) tr -> r = -1.
Proof.
  intros cs sch r ev tr rds i H X. destruct (exec_finished _ _ _ _ _ _ H) as [rs [m F]]. apply (fi_failed _ _ _ _ _ _ _ F). assert (N : no_such tr = true) by (apply existsb_exists; eexists; split; [exact X|auto]).
  destruct (so_dooms _ _ _ _ (fi_sound _ _ _ _ _ _ _ F) N) as [D|D]; [auto|]. rewrite (fi_code _ _ _ _ _ _ _ F) in D. destruct D.
Qed.

(** *** Where the frames come from *)
Lemma back_raw : forall i t p fd, life i p t = Some (Raw fd) -> p = Fresh \/ p = Raw fd /\ queued i p t = arrivals t /\ ~ In (Failed i) t.
Proof.
  intros i t. induction t as [|h t IH]; intros p fd H; cbn [life] in H; [apply some_inj in H; subst; right; split; [auto|]; split; auto|]. destruct (next i p h) as [q|] eqn:E; [|discriminate].
  assert (C : h = Failed i \/ h <> Failed i) by (destruct h; try (right; discriminate); destruct (Nat.eq_dec i i0); [left; congruence|right; congruence]).
  destruct (IH _ _ H) as [->|[-> [Q F]]]; unfold next in E; cbn [queued].
  - destruct (number_of h); [|left; congruence]. destruct (Nat.eqb n i); [|left; congruence]. destruct p, h; cbn [allowed] in E; try discriminate E; auto; destruct (_ =? _) in E; discriminate E.
  - unfold next. destruct h as [ix m|j f|j|j b ix|j ix|j|j|j a|j|j f| |j a|j f]; cbn [number_of] in *; try (destruct (Nat.eqb_spec j i) as [->|D]); try (apply some_inj in E; subst p; right; cbn [heard arrivals flat_map app]; rewrite Q; split; [auto|]; split; [auto|]; intros [X|X]; [congruence|auto]);
    destruct p; cbn [allowed] in E; try discriminate E; try (left; reflexivity); try (destruct (_ =? _) in E; discriminate E);
    try (apply some_inj in E; injection E as ->; right; cbn [heard arrivals flat_map app allowed]; rewrite Q; split; [auto|]; split; [auto|]; intros [X|X]; [congruence|auto]).
Qed.

Lemma back_attached : forall i t p fd ix, life i p t = Some (Attached fd ix) -> match p with InUse _ _ | Gone => False | Attached f x => f = fd /\ x = ix /\ (ix <> 0 -> queued i p t = arrivals_at ix t) | _ => True end.
Proof.
  intros i t. induction t as [|h t IH]; intros p fd ix H; cbn [life] in H; [apply some_inj in H; subst; auto|]. destruct (next i p h) as [q|] eqn:E; [|discriminate]. specialize (IH _ _ _ H).
  assert (K : match h with Arrived _ _ => True | _ => arrivals_at ix (h :: t) = arrivals_at ix t /\ heard p h = [] end) by (destruct h; auto).
  assert (S : p = q \/ p <> q /\ match p with Fresh | Raw _ => True | Attached f x => q = InUse f x \/ q = Gone | InUse _ _ => q = Gone | Gone => False end).
  { unfold next in E. destruct (number_of h); [|left; congruence]. destruct (Nat.eqb n i); [|left; congruence]. destruct p, h; cbn [allowed] in E; try discriminate E; try (left; congruence); try (destruct (_ =? _) in E; [|discriminate E]); apply some_inj in E; subst q; right; split; auto; discriminate. }
  destruct S as [<-|[_ S]]; [|destruct p; auto; destruct S as [-> | ->] || rewrite S in IH || destruct S; destruct IH].
  destruct p; auto. destruct IH as [-> [-> IH]]. split; [auto|]. split; [auto|]. intros NZ. cbn [queued]. rewrite E, (IH NZ). destruct h; try (destruct K as [-> ->]; reflexivity). cbn [heard]. destruct (Z.eqb_spec ix 0); [congruence|]. cbn [orb]. unfold arrivals_at. cbn [arrivals flat_map app filter fst]. rewrite (Z.eqb_sym ix0 ix). destruct (ix =? ix0); auto.
Qed.

Lemma on_gone : forall i t p, life i Gone t = Some p -> p = Gone /\ queued i Gone t = [] /\ taken i t = [].
Proof.
  intros i t. induction t as [|h t IH]; intros p H; cbn [life] in H; [apply some_inj in H; subst; auto|]. destruct (next i Gone h) as [q|] eqn:E; [|discriminate].
  assert (q = Gone) by (unfold next in E; destruct (number_of h); [destruct (Nat.eqb n i); [destruct h; discriminate E|congruence]|congruence]). subst q. destruct (IH _ H) as [-> [H1 H2]]. split; [auto|]. cbn [queued]. rewrite E, H1. split; [destruct h; auto|]. unfold taken in *. cbn [flat_map]. rewrite H2, app_nil_r. destruct h; auto. unfold next in E. cbn [number_of] in E. destruct (Nat.eqb i0 i); [discriminate E|auto].
Qed.

Lemma on_use : forall i t p fd ix, life i (InUse fd ix) t = Some p -> ix <> 0 -> (exists after, arrivals_at ix t = queued i (InUse fd ix) t ++ after) /\ dropped i t = [].
Proof.
  intros i t. induction t as [|h t IH]; intros p fd ix H NZ; cbn [life] in H; [split; [exists []|]; auto|]. destruct (next i (InUse fd ix) h) as [q|] eqn:E; [|discriminate].
  assert (K : match h with Arrived _ _ => True | _ => arrivals_at ix (h :: t) = arrivals_at ix t /\ heard (InUse fd ix) h = [] end) by (destruct h; auto).
  assert (S : (q = InUse fd ix \/ q = Gone) /\ dropped i [h] = []).
  { unfold next in E. destruct h as [ix' m|j f|j|j b ix'|j ix'|j|j|j a|j|j f| |j a|j f]; cbn [number_of] in E; try (apply some_inj in E; subst q; auto; fail); unfold dropped; cbn [flat_map]; destruct (Nat.eqb j i); cbn [allowed] in E; try discriminate E; try (destruct (_ =? _) in E; [|discriminate E]); apply some_inj in E; subst q; auto. }
  destruct S as [S D]. change (h :: t) with ([h] ++ t). rewrite dropped_app, D. cbn [app queued]. rewrite E. destruct S as [-> | ->].
  - destruct (IH _ _ _ H NZ) as [[af IH1] IH2]. split; [|auto]. exists af. destruct h; try (destruct K as [-> ->]; exact IH1). cbn [heard]. destruct (Z.eqb_spec ix 0); [congruence|]. cbn [orb]. unfold arrivals_at in *. cbn [arrivals flat_map app filter fst]. fold (arrivals t). rewrite IH1, (Z.eqb_sym ix0 ix). destruct (ix =? ix0); auto.
  - destruct (on_gone _ _ _ H) as [_ [H1 _]]. rewrite H1. assert (D2 : dropped i t = []).
    { clear - H. revert p H. induction t as [|x t IH]; intros p H; [auto|]. cbn [life] in H. destruct (next i Gone x) as [q|] eqn:E; [|discriminate]. assert (q = Gone) by (unfold next in E; destruct (number_of x); [destruct (Nat.eqb n i); [destruct x; discriminate E|congruence]|congruence]). subst q. unfold dropped in *. cbn [flat_map]. rewrite (IH _ H), app_nil_r. destruct x; auto. unfold next in E. cbn [number_of] in E. destruct (Nat.eqb i0 i); [discriminate E|auto]. }
    split; [|auto]. rewrite app_nil_r. destruct h; try (destruct K as [-> ->]; eexists; reflexivity). unfold next in E. cbn [number_of] in E. discriminate E.
Qed.

Lemma fresh_failed : forall i t, life i Fresh t = Some Fresh -> ~ In (Failed i) t.
Proof.
  intros i t. induction t as [|h t IH]; intros H X; [destruct X|]. cbn [life] in H. destruct (next i Fresh h) as [q|] eqn:E; [|discriminate]. pose proof (back_fresh _ _ _ H) as ->. destruct X as [->|X]; [|apply (IH H X)]. unfold next in E. cbn [number_of] in E. rewrite Nat.eqb_refl in E. discriminate E.
Qed.

Lemma parts : forall i p fd fd' ix t1 t2 t3 t4, life i Fresh (t1 ++ Opened i fd :: t2 ++ Bound i ix :: t3 ++ Usable i fd' :: t4) = Some p -> ix <> 0 ->
  let before := t1 ++ Opened i fd :: t2 ++ Bound i ix :: t3 in
  queued i Fresh before = arrivals t2 ++ arrivals_at ix t3 /\
  (exists after, queued i Fresh (before ++ Usable i fd' :: t4) ++ after = arrivals t2 ++ arrivals_at ix t3 ++ arrivals_at ix t4) /\
  dropped i (before ++ Usable i fd' :: t4) = dropped i before /\
  (~ In (Failed i) t3 -> ~ In (Failed i) before).
Proof.
  intros i p fd fd' ix t1 t2 t3 t4 H NZ before. rewrite life_app in H. destruct (life i Fresh t1) as [p1|] eqn:L1; [|discriminate]. cbn [life] in H. destruct (next i p1 (Opened i fd)) as [p2|] eqn:E2; [|discriminate]. unfold next in E2. cbn [number_of] in E2. rewrite Nat.eqb_refl in E2.
  assert (H0 : p1 = Fresh /\ p2 = Raw fd) by (destruct p1; cbn [allowed] in E2; try discriminate E2; apply some_inj in E2; auto). destruct H0 as [-> ->]. clear E2.
  rewrite life_app in H. destruct (life i (Raw fd) t2) as [p3|] eqn:L2; [|discriminate]. cbn [life] in H. destruct (next i p3 (Bound i ix)) as [p4|] eqn:E4; [|discriminate]. unfold next in E4. cbn [number_of] in E4. rewrite Nat.eqb_refl in E4.
  assert (H0 : exists f, p3 = Raw f /\ p4 = Attached f ix) by (destruct p3; cbn [allowed] in E4; try discriminate E4; apply some_inj in E4; eauto). destruct H0 as [f [-> ->]]. clear E4. destruct (back_raw _ _ _ _ L2) as [X|[X [Q2 F2]]]; [discriminate X|]. injection X as <-.
  rewrite life_app in H. destruct (life i (Attached fd ix) t3) as [p5|] eqn:L3; [|discriminate]. cbn [life] in H. destruct (next i p5 (Usable i fd')) as [p6|] eqn:E6; [|discriminate]. pose proof E6 as E6'. unfold next in E6. cbn [number_of] in E6. rewrite Nat.eqb_refl in E6.
  assert (H0 : exists f x, p5 = Attached f x /\ p6 = InUse f x) by (destruct p5; cbn [allowed] in E6; try discriminate E6; destruct (_ =? _) in E6; [|discriminate E6]; apply some_inj in E6; eauto). destruct H0 as [f [x [-> ->]]]. clear E6. destruct (back_attached _ _ _ _ _ L3) as [<- [<- Q3]]. specialize (Q3 NZ).
  destruct (on_use _ _ _ _ _ H NZ) as [[af Q4] D4]. destruct (fresh_nothing _ _ L1) as [Q1 [D1 T1]].
  assert (N1 : next i Fresh (Opened i fd) = Some (Raw fd)) by (unfold next; cbn; rewrite Nat.eqb_refl; auto).
  assert (N2 : next i (Raw fd) (Bound i ix) = Some (Attached fd ix)) by (unfold next; cbn; rewrite Nat.eqb_refl; auto).
  assert (LA : life i Fresh before = Some (Attached fd ix)) by (unfold before; rewrite life_app, L1; cbn [life]; rewrite N1, life_app, L2; cbn [life]; rewrite N2; auto).
  assert (QA : queued i Fresh before = arrivals t2 ++ arrivals_at ix t3) by (unfold before; rewrite (queued_app _ _ _ _ _ L1), Q1; cbn [app queued heard]; rewrite N1, (queued_app _ _ _ _ _ L2), Q2; cbn [queued heard]; rewrite N2, Q3; auto).
  split; [exact QA|]. split; [|split].
  - exists af. rewrite (queued_app _ _ _ _ _ LA), QA. cbn [queued heard app]. rewrite E6', Q4, !app_assoc. auto.
  - clearbody before. rewrite dropped_app. change (Usable i fd' :: t4) with ([Usable i fd'] ++ t4). rewrite (dropped_app i [Usable i fd'] t4), D4. apply app_nil_r.
  - intros N3 X. unfold before in X. apply in_app_or in X. destruct X as [X|[X|X]]; [apply (fresh_failed _ _ L1 X)|discriminate X|]. apply in_app_or in X. destruct X as [X|[X|X]]; [apply (F2 X)|discriminate X|apply (N3 X)].
Qed.

Lemma app_split : forall A (a b c d : list A), a ++ b = c ++ d -> (length c <= length a)%nat -> exists e, a = c ++ e /\ d = e ++ b.
Proof.
  intros A a b c. revert a. induction c as [|x c IH]; intros a d E L; [exists a; auto|]. destruct a as [|y a]; [cbn in L; lia|]. cbn [app length] in *. injection E as -> E. destruct (IH a d E ltac:(lia)) as [e [-> ->]]. exists e. auto.
Qed.

Lemma reorder : forall i fd fd' ix (t1 t2 t3 t4 : list happening), t1 ++ Opened i fd :: t2 ++ Bound i ix :: t3 ++ Usable i fd' :: t4 = (t1 ++ Opened i fd :: t2 ++ Bound i ix :: t3) ++ Usable i fd' :: t4.
Proof. intros. rewrite <- app_assoc. cbn [app]. rewrite <- app_assoc. auto. Qed.

Lemma known_taken : forall n tr m i, agrees n tr m -> exists p rest, life i Fresh tr = Some p /\ queued i Fresh tr = dropped i tr ++ taken i tr ++ rest.
Proof. intros n tr m i H. destruct (ag_known _ _ _ H i) as [p [K1 K2]]. exists p. destruct (view m i) as [k|]; [destruct K2 as [_ K2]; eauto|]. destruct K2 as [_ [rest K2]]. eauto. Qed.

Lemma run_own : forall rs sch m tr i fd fd' ix t1 t2 t3 t4, run sch (begin rs) = Some (m, tr) -> tr = t1 ++ Opened i fd :: t2 ++ Bound i ix :: t3 ++ Usable i fd' :: t4 -> ix <> 0 -> ~ In (Failed i) t3 ->
  (Z.of_nat (length (arrivals t2)) <= 10000 -> exists before after, arrivals_at ix (t3 ++ t4) = before ++ taken i tr ++ after) /\
  (Z.of_nat (length (dropped i tr)) < 10000 -> exists after, arrivals_at ix t4 = taken i tr ++ after).
Proof.
  intros rs sch m tr i fd fd' ix t1 t2 t3 t4 H E NZ HF. destruct (run_sound _ _ _ _ H) as [HA HS]. destruct (known_taken _ _ _ i HA) as [p [rest [K1 K2]]]. pose proof K1 as K1'. rewrite E in K1'. destruct (parts _ _ _ _ _ _ _ _ _ K1' NZ) as [Q1 [[af Q2] [D F]]]. specialize (F HF). clear K1'.
  pose proof E as E'. rewrite reorder in E'. rewrite <- E' in Q2, D. rewrite K2 in Q2. rewrite arrivals_at_app.
  destruct (so_settled _ _ _ _ HS _ _ _ _ E') as [X|[X|X]]; [destruct (F X)|..].
  - rewrite <- D in X. split; [intros HL|unfold drain_turns in X; lia]. rewrite <- app_assoc in Q2. destruct (app_split _ _ _ _ _ Q2) as [e [E1 E2]]; [unfold drain_turns in X; lia|]. exists e, (rest ++ af). rewrite E2, <- app_assoc. auto.
  - rewrite Q1 in X. rewrite <- D in X. assert (T : arrivals_at ix t4 = taken i tr ++ rest ++ af). { rewrite <- X, <- !app_assoc in Q2. apply app_inv_head in Q2. apply app_inv_head in Q2. auto. }
    split; [intros _|eauto]. exists (arrivals_at ix t3), (rest ++ af). rewrite T. auto.
Qed.

(** *** The life of the sockets *)
Lemma run_life : forall rs sch m tr i, run sch (begin rs) = Some (m, tr) -> exists p, life i Fresh tr = Some p.
Proof. intros rs sch m tr i H. destruct (run_sound _ _ _ _ H) as [HA _]. destruct (ag_known _ _ _ HA i) as [p [K _]]. eauto. Qed.

Lemma run_nowait : forall rs sch m tr i rest, run sch (begin rs) = Some (m, tr) -> m_code m = Recv i :: rest -> exists m1 a, step (Go 0) m = Some (m1, [Taken i a]).
Proof.
  intros rs sch m tr i rest H E. destruct (run_sound _ _ _ _ H) as [HA HS]. pose proof (ag_course _ _ _ HA) as HC. pose proof (co_at _ _ HC) as AT. pose proof (co_no _ _ HC) as N1. pose proof (co_fd _ _ HC) as N2.
  assert (O : (i < length rs)%nat /\ length (m_fds m) = length rs /\ ids m = own (m_fds m)).
  { remember (m_code m) as c. remember (ids m) as I. remember (m_fds m) as FD. remember (length rs) as n. destruct AT as [j fds rds A1 A2 A3|j fd x fds A1 A2 A3|j fd fds A1 A2|fds l A1 A2|l sel wr send fds gt rds A1 A2 A3 A4|j fds rds A1 A2].
    - exfalso. apply (no_recv_more j n i). rewrite E. left. auto.
    - exfalso. destruct A3; discriminate E.
    - discriminate E.
    - discriminate E.
    - destruct l as [|u l]; [discriminate E|]. cbn [map app] in E. injection E as -> _. split; [apply A4; left; auto|]. auto.
    - exfalso. apply (no_recv j (n - j) i). rewrite E. left. auto. }
  destruct O as [O1 [O2 O3]]. destruct (nth_error (m_fds m) i) as [fd|] eqn:EN; [|apply nth_error_None in EN; lia]. assert (HI : In (i, fd) (ids m)) by (rewrite O3; eapply nth_error_In; apply own_nth; eauto). destruct (view_sock _ _ _ N1 N2 HI) as [k [V1 [V2 [V3 V4]]]].
  assert (Q : k_queue k <> []) by (apply (so_fed _ _ _ _ HS i); [rewrite E; left; auto|auto]). destruct (k_queue k) as [|a q] eqn:EQ; [congruence|]. cbn [step]. rewrite E. cbn [go]. rewrite EN, V2. cbn [Z.ltb Z.compare]. rewrite EQ. eauto.
Qed.

Lemma gone_closed : forall i tr p, life i p tr = Some Gone -> match p with Fresh => forall fd, In (Opened i fd) tr -> In (Closed i fd) tr | Raw fd | Attached fd _ | InUse fd _ => In (Closed i fd) tr /\ (forall fd, ~ In (Opened i fd) tr) | Gone => forall fd, ~ In (Opened i fd) tr end.
Proof.
  intros i tr. induction tr as [|h tr IH]; intros p H; cbn [life] in H; [apply some_inj in H; subst; intros fd []|]. destruct (next i p h) as [q|] eqn:E; [|discriminate]. specialize (IH _ H).
  unfold next in E. destruct (number_of h) as [j|] eqn:EN.
  - destruct (Nat.eqb_spec j i) as [->|D].
    + destruct p, h; cbn [allowed number_of] in *; try discriminate E; try (match goal with |- context [?a =? ?b] => destruct (Z.eqb_spec a b) | H : context [?a =? ?b] |- _ => destruct (Z.eqb_spec a b) end; [|discriminate E]); apply some_inj in E; subst q; apply some_inj in EN; subst.
      * intros fd' [X|X]; [injection X as <-; right; apply IH|destruct (proj2 IH _ X)].
      * intros fd' [X|X]; [discriminate X|right; auto].
      * split; [right; apply IH|intros f [X|X]; [discriminate X|apply (proj2 IH _ X)]].
      * split; [right; apply IH|intros f [X|X]; [discriminate X|apply (proj2 IH _ X)]].
      * split; [right; apply IH|intros f [X|X]; [discriminate X|apply (proj2 IH _ X)]].
      * split; [left; auto|intros f [X|X]; [discriminate X|apply (IH _ X)]].
      * split; [right; apply IH|intros f [X|X]; [discriminate X|apply (proj2 IH _ X)]].
      * split; [right; apply IH|intros f [X|X]; [discriminate X|apply (proj2 IH _ X)]].
      * split; [right; apply IH|intros f [X|X]; [discriminate X|apply (proj2 IH _ X)]].
      * split; [right; apply IH|intros f [X|X]; [discriminate X|apply (proj2 IH _ X)]].
      * split; [right; apply IH|intros f [X|X]; [discriminate X|apply (proj2 IH _ X)]].
      * split; [left; auto|intros f [X|X]; [discriminate X|apply (IH _ X)]].
      * split; [right; apply IH|intros f [X|X]; [discriminate X|apply (proj2 IH _ X)]].
      * split; [right; apply IH|intros f [X|X]; [discriminate X|apply (proj2 IH _ X)]].
      * split; [left; auto|intros f [X|X]; [discriminate X|apply (IH _ X)]].
    + apply some_inj in E. subst q. assert (N : forall fd, h <> Opened i fd) by (intros fd ->; cbn in EN; congruence).
      destruct p; cbn beta iota in *; try (destruct IH as [I1 I2]; split; [right; auto|intros f [X|X]; [apply (N _ X)|apply (I2 _ X)]]); intros f [X|X]; try (exfalso; apply (N _ X)); try (right; auto; fail); apply (IH _ X).
  - apply some_inj in E. subst q. assert (N : forall fd, h <> Opened i fd) by (intros fd ->; cbn in EN; congruence).
    destruct p; cbn beta iota in *; try (destruct IH as [I1 I2]; split; [right; auto|intros f [X|X]; [apply (N _ X)|apply (I2 _ X)]]); intros f [X|X]; try (exfalso; apply (N _ X)); try (right; auto; fail); apply (IH _ X).
Qed.

Lemma snoc_phase : forall i a h q, life i Fresh (a ++ [h]) = Some q -> exists p, life i Fresh a = Some p /\ next i p h = Some q.
Proof. intros i a h q H. rewrite life_app in H. destruct (life i Fresh a) as [p|]; [|discriminate]. exists p. cbn [life] in H. destruct (next i p h); [auto|discriminate]. Qed.

Lemma phase_eq : forall p q : phase, {p = q} + {p <> q}.
Proof. decide equality; apply Z.eq_dec. Qed.

Lemma raw_made : forall i a fd, life i Fresh a = Some (Raw fd) -> exists t1 t2, a = t1 ++ Opened i fd :: t2.
Proof.
  intros i a. induction a as [|h a IH] using rev_ind; intros fd H; [discriminate H|]. destruct (snoc_phase _ _ _ _ H) as [p [L N]]. destruct (phase_eq p (Raw fd)) as [->|D].
  - destruct (IH _ L) as [t1 [t2 ->]]. exists t1, (t2 ++ [h]). rewrite <- app_assoc. auto.
  - unfold next in N. destruct (number_of h) as [j|] eqn:EN; [|congruence]. destruct (Nat.eqb_spec j i) as [->|]; [|congruence]. destruct p, h; cbn [allowed] in N; try discriminate N; try (destruct (_ =? _) in N; discriminate N); try congruence. cbn [number_of] in EN. apply some_inj in EN. apply some_inj in N. injection N as ->. subst i0. exists a, []. auto.
Qed.
Lemma attached_made : forall i a fd ix, life i Fresh a = Some (Attached fd ix) -> exists t1 t2 t3, a = t1 ++ Opened i fd :: t2 ++ Bound i ix :: t3.
Proof.
  intros i a. induction a as [|h a IH] using rev_ind; intros fd ix H; [discriminate H|]. destruct (snoc_phase _ _ _ _ H) as [p [L N]]. destruct (phase_eq p (Attached fd ix)) as [->|D].
  - destruct (IH _ _ L) as [t1 [t2 [t3 ->]]]. exists t1, t2, (t3 ++ [h]). rewrite <- app_assoc. cbn [app]. rewrite <- app_assoc. auto.
  - unfold next in N. destruct (number_of h) as [j|] eqn:EN; [|congruence]. destruct (Nat.eqb_spec j i) as [->|]; [|congruence]. destruct p, h; cbn [allowed] in N; try discriminate N; try (destruct (_ =? _) in N; discriminate N); try congruence. cbn [number_of] in EN. apply some_inj in EN. apply some_inj in N. injection N as -> ->. subst i0. destruct (raw_made _ _ _ L) as [t1 [t2 ->]]. exists t1, t2, []. rewrite <- app_assoc. auto.
Qed.

Lemma run_up : forall rs sch m tr i fd, run sch (begin rs) = Some (m, tr) -> In (Usable i fd) tr -> exists ix t1 t2 t3 t4, tr = comes_up i fd ix t1 t2 t3 t4.
Proof.
  intros rs sch m tr i fd H X. apply in_split in X. destruct X as [a [b ->]]. destruct (run_life _ _ _ _ i H) as [p L]. rewrite life_app in L. destruct (life i Fresh a) as [q|] eqn:La; [|discriminate]. cbn [life] in L. destruct (next i q (Usable i fd)) as [q'|] eqn:N; [|discriminate]. unfold next in N. cbn [number_of] in N. rewrite Nat.eqb_refl in N.
  destruct q; cbn [allowed] in N; try discriminate N. destruct (Z.eqb_spec fd fd0) as [<-|]; [|discriminate N]. destruct (attached_made _ _ _ _ La) as [t1 [t2 [t3 ->]]]. exists ix, t1, t2, t3, b. unfold comes_up. rewrite reorder. auto.
Qed.

(** *** Failing *)
Definition failing (tr : list happening) (m : machine) : Prop := faults tr m /\ forall i, In (NotOpened i) tr \/ In (Refused i) tr -> length (m_fds m) = i.
Lemma move_failing : forall n tr m ch m1 ev, agrees n tr m -> failing tr m -> move n m ch m1 ev -> failing (tr ++ ev) m1.
Proof.
  intros n tr m ch m1 ev HA [HF HI] H. split; [eapply move_faults; eauto|]. intros u W. assert (K : In (NotOpened u) tr \/ In (Refused u) tr -> m_failed m || shutting (m_code m) = true) by (intros Y; rewrite <- HF; apply broke_trouble; exists u; auto).
  assert (W' : (In (NotOpened u) tr \/ In (Refused u) tr) \/ (In (NotOpened u) ev \/ In (Refused u) ev)) by (destruct W as [W|W]; apply in_app_or in W; tauto). clear W. destruct W' as [W|W].
  - specialize (HI _ W). specialize (K W). clear W HF HA. split_move H; cbn [with_socks with_code m_fds]; auto. rewrite (og_failed _ _ _ _ H), E in K. discriminate K.
  - clear K HF HA HI. split_move H; cbn [with_socks with_code m_fds]; try (destruct W as [[W|[]]|[W|[]]]; discriminate W); try (solve [destruct W as [[]|[]]]).
    + destruct W as [[W|[]]|[W|[]]]; [|discriminate W]. congruence.
    + destruct W as [[W|[]]|[W|[]]]; [discriminate W|]. injection W as <-. apply (og_fds _ _ _ _ H).
    + exfalso. destruct Q as [[_ ->]|[[_ ->]| ->]]; cbn [app In] in W; repeat (destruct W as [W|W]); try discriminate W; auto.
Qed.

Lemma run_failing : forall rs sch m tr, run sch (begin rs) = Some (m, tr) -> failing tr m.
Proof.
  intros rs sch m tr H. apply (run_agrees failing (length rs) (begin rs)) in H; [apply H|apply begin_agrees| |].
  - split; [apply (so_faults _ _ _ _ (begin_sound rs))|]. intros i [[]|[]].
  - intros. eapply move_failing; eauto.
Qed.

Lemma run_left : forall rs sch m tr i j, run sch (begin rs) = Some (m, tr) -> m_code m = [] -> In (NotOpened j) tr \/ In (Refused j) tr -> (i < j)%nat -> exists fd ix, life i Fresh tr = Some (InUse fd ix).
Proof.
  intros rs sch m tr i j H E X L. destruct (run_sound _ _ _ _ H) as [HA HS]. destruct (run_failing _ _ _ _ H) as [HF HI]. specialize (HI _ X). assert (F : m_failed m = true). { assert (B : broke tr = true) by (apply broke_trouble; exists j; auto). rewrite HF, E in B. cbn [shutting] in B. rewrite orb_false_r in B. auto. }
  assert (EI : ids m = own (m_fds m)). { pose proof (co_at _ _ (ag_course _ _ _ HA)) as AT. rewrite F in AT. inversion AT; auto. }
  destruct (nth_error (m_fds m) i) as [fd|] eqn:EN; [|apply nth_error_None in EN; lia]. exists fd. apply (ag_use _ _ _ HA); [auto|]. rewrite EI. eapply nth_error_In. apply own_nth. auto.
Qed.

Lemma run_closed : forall rs sch m tr, run sch (begin rs) = Some (m, tr) -> m_code m = [] -> m_failed m = false -> length (m_fds m) = length rs /\ forall i, (life i Fresh tr = Some Fresh \/ life i Fresh tr = Some Gone) /\ (forall fd, In (Opened i fd) tr -> In (Closed i fd) tr).
Proof.
  intros rs sch m tr H E F. destruct (run_sound _ _ _ _ H) as [HA HS]. assert (EI : ids m = [] /\ length (m_fds m) = length rs).
  { pose proof (co_at _ _ (ag_course _ _ _ HA)) as AT. remember (length rs) as n. remember (m_code m) as c. remember (m_failed m) as f. remember (ids m) as I. remember (m_fds m) as FD. destruct AT as [j fds rds A1 A2 A3|j fd x fds A1 A2 A3|j fd fds A1 A2|fds l A1 A2|l sel wr send fds gt rds A1 A2 A3 A4|j fds rds A1 A2]; try discriminate E; try discriminate F.
    - exfalso. pose proof (loop_tail n) as T. unfold more in E. apply app_eq_nil in E. destruct E as [_ E]. discriminate E.
    - destruct l; discriminate E.
    - split; [|auto]. apply skipn_all2. rewrite own_length. destruct (n - j)%nat eqn:EJ; [lia|discriminate E]. }
  destruct EI as [EI EL]. split; [auto|]. intros i. assert (V : view m i = None). { destruct (view m i) as [k|] eqn:V; [|auto]. destruct (view_in _ _ _ V) as [X _]. rewrite EI in X. destruct X. }
  destruct (ag_known _ _ _ HA i) as [p [K1 K2]]. rewrite V in K2. destruct K2 as [K2 _]. split; [destruct K2; subst; auto|]. intros fd X. destruct K2 as [-> | ->].
  - exfalso. apply in_split in X. destruct X as [a [b ->]]. rewrite life_app in K1. destruct (life i Fresh a) as [q|]; [|discriminate]. cbn [life] in K1. destruct (next i q (Opened i fd)) as [q2|] eqn:N; [|discriminate]. apply back_fresh in K1. subst q2. unfold next in N. cbn [number_of] in N. rewrite Nat.eqb_refl in N. destruct q; discriminate N.
  - apply (gone_closed _ _ _ K1 fd X).
Qed.

(** Proofs about sockets: emptying, failures, the turns of the loop (C91, C92). *)

From Coq Require Import Permutation.
From Verif Require Import BaseFacts SpecSockets PSockets PSockets2 PSockets3 PSockets4.

(** *** When a socket can be used *)
Definition settled (tr : list happening) : Prop :=
  forall i fd a b, tr = a ++ Usable i fd :: b -> In (Failed i) a \/ length (dropped i a) = drain_turns \/ queued i Fresh a = dropped i a.

Lemma split_end : forall (ev tr a b : list happening) x, tr ++ ev = a ++ x :: b -> (exists c, tr = a ++ x :: c /\ b = c ++ ev) \/ In x ev.
Proof.
  intros ev tr. induction tr as [|h tr IH]; intros a b x E; cbn [app] in E; [right; rewrite E; apply in_or_app; right; left; auto|].
  destruct a as [|h' a]; cbn [app] in E; injection E as <- E; [left; exists tr; auto|]. destruct (IH _ _ _ E) as [[c [-> ->]]|H]; [left; exists c; auto|auto].
Qed.
Lemma settled_app : forall tr ev, settled tr -> (forall i fd, ~ In (Usable i fd) ev) -> settled (tr ++ ev).
Proof. intros tr ev H N i fd a b E. destruct (split_end _ _ _ _ _ E) as [[c [-> _]]|X]; [eapply H; eauto|]. destruct (N _ _ X). Qed.
Lemma settled_last : forall tr ev i fd, settled tr -> (forall i fd, ~ In (Usable i fd) ev) -> In (Failed i) (tr ++ ev) \/ length (dropped i (tr ++ ev)) = drain_turns \/ queued i Fresh (tr ++ ev) = dropped i (tr ++ ev) -> settled (tr ++ ev ++ [Usable i fd]).
Proof.
  intros tr ev i fd H N HL j fd' a b E. rewrite app_assoc in E. destruct b as [|h b] using rev_ind.
  - apply app_inj_tail in E. destruct E as [<- E]. injection E as <- <-. auto.
  - rewrite app_comm_cons, app_assoc in E. apply app_inj_tail in E. destruct E as [E _]. apply (settled_app tr ev H N j fd' a b E).
Qed.

Lemma move_settled : forall n tr m ch m1 ev, agrees n tr m -> settled tr -> move n m ch m1 ev -> settled (tr ++ ev).
Proof.
  intros n tr m ch m1 ev HA HS H. split_move H; try (apply settled_app; [exact HS|]; intros u v W; repeat (destruct W as [W|W]; [discriminate W|]); destruct W).
  pose proof (ag_code _ _ _ HA) as HX. rewrite E in HX. destruct (HX _ (or_introl eq_refl)) as [[ix LF] LD]. destruct (ag_known _ _ _ HA i) as [p [K1 K2]]. rewrite V in K2. destruct K2 as [K2 K3].
  apply settled_last; [exact HS|intros u v W; destruct Q as [[_ ->]|[[_ ->]| ->]]; repeat (destruct W as [W|W]; [discriminate W|]); destruct W|].
  destruct Q as [[-> ->]|[[Q ->]| ->]]; [right; left; rewrite app_nil_r; lia|right; right|left; apply in_or_app; right; left; auto].
  rewrite app_nil_r, K3, Q. pose proof (attached_taken _ _ _ LF) as T. cbn beta iota in T. rewrite T. cbn [app]. rewrite app_nil_r. auto.
Qed.

(** *** Failures *)
Definition broke (tr : list happening) : bool := existsb (fun h => match h with NotOpened _ | Refused _ => true | _ => false end) tr.
Definition shutting (c : list instr) : bool := match c with Shut _ _ :: _ => true | _ => false end.
Definition faults (tr : list happening) (m : machine) : Prop := broke tr = m_failed m || shutting (m_code m).
Lemma broke_app : forall a b, broke (a ++ b) = broke a || broke b.
Proof. intros. apply existsb_app. Qed.
Lemma shutting_more : forall i n, shutting (more i n) = false.
Proof. intros i n. unfold more. destruct (n - i)%nat; auto. Qed.
Lemma shutting_closes : forall i n, shutting (map Close (seq i n)) = false.
Proof. intros i n. destruct n; auto. Qed.
Lemma shutting_turn : forall l sel wr send n, shutting (map Recv l ++ Serve sel wr send :: tail n) = false.
Proof. intros l sel wr send n. destruct l; auto. Qed.

Lemma move_faults : forall n tr m ch m1 ev, agrees n tr m -> faults tr m -> move n m ch m1 ev -> faults (tr ++ ev) m1.
Proof.
  intros n tr m ch m1 ev HA HF H. unfold faults in *. rewrite broke_app, HF. clear HF HA. split_move H; rewrite ?E; cbn [with_socks with_code m_failed m_code shutting broke existsb orb]; rewrite ?orb_false_r, ?shutting_more, ?shutting_turn;
    try (rewrite (od_failed _ _ H)); try (rewrite (og_failed _ _ _ _ H)); try reflexivity.
  - rewrite orb_true_r. auto.
  - destruct H0 as [[y [z ->]]|[y ->]]; auto.
  - destruct Q as [[_ ->]|[[_ ->]| ->]]; auto.
  - unfold closes. rewrite shutting_closes. auto.
  - unfold closes. rewrite shutting_closes. auto.
  - rewrite shutting_closes, orb_false_r. auto.
Qed.

Definition no_such (tr : list happening) : bool := existsb (fun h => match h with Index _ false x => x =? 0 | _ => false end) tr.
Definition doomed (m : machine) : Prop :=
  m_failed m = true \/ match m_code m with Shut _ _ :: _ => True | Lookup2 _ _ x :: _ | Bind _ _ x _ :: _ | Promisc _ _ x :: _ => x = 0 | _ => False end.
Definition dooms (tr : list happening) (m : machine) : Prop := no_such tr = true -> doomed m.
Lemma move_dooms : forall n tr m ch m1 ev, agrees n tr m -> dooms tr m -> move n m ch m1 ev -> dooms (tr ++ ev) m1.
Proof.
  intros n tr m ch m1 ev HA HD H XX. unfold dooms, no_such in *. rewrite existsb_app in XX. apply orb_true_iff in XX. destruct XX as [XX|XX].
  - specialize (HD XX). clear XX HA. unfold doomed in *. split_move H; cbn [with_socks with_code m_failed m_code] in *; try (rewrite E in HD); auto; destruct HD as [HD|HD]; auto; try contradiction; try (rewrite (od_failed _ _ H) in HD; discriminate HD); try (rewrite (og_failed _ _ _ _ H) in HD; discriminate HD); congruence.
  - unfold doomed. split_move H; cbn [existsb orb] in XX; try discriminate XX; [|destruct Q as [[_ ->]|[[_ ->]| ->]]; discriminate XX]. right. cbn. rewrite orb_false_r in XX. apply Z.eqb_eq in XX. auto.
Qed.

(** *** The turns of the loop *)
Definition waits (rs : list resource) : bool := existsb (fun r => has_rx r || has_tx r) rs.
Definition serving (c : list instr) : Prop := exists sel wr send, In (Serve sel wr send) c.
Record loops (rs0 : list resource) (m : machine) : Prop := {
  lo_now : main_loop (m_rounds m) rs0 = Ret (m_rs m, m_ev m);
  lo_next : In Loop (m_code m) -> forall fut, main_loop (m_rounds m ++ fut) rs0 = ('(rs2, ev2) <- main_loop fut (m_rs m);; Ret (rs2, m_ev m ++ ev2));
  lo_turn : serving (m_code m) -> waits (m_rs m) = true }.

Lemma main_nil : forall rs, main_loop [] rs = Ret (rs, []).
Proof. intros rs. cbn [main_loop]. destruct (existsb _ _); auto. Qed.

Lemma loops_same : forall rs0 m m1, loops rs0 m -> m_rounds m1 = m_rounds m -> m_rs m1 = m_rs m -> m_ev m1 = m_ev m -> (In Loop (m_code m1) -> In Loop (m_code m)) -> (serving (m_code m1) -> serving (m_code m) \/ waits (m_rs m) = true) -> loops rs0 m1.
Proof. intros rs0 m m1 [H1 H2 H3] E1 E2 E3 HC HS. constructor; rewrite ?E1, ?E2, ?E3; auto. intros X. destruct (HS X); auto. Qed.

Lemma no_loop : forall i n, ~ In Loop (map Close (seq i n)).
Proof. intros i n H. apply in_map_iff in H. destruct H as [j [E _]]. discriminate E. Qed.
Lemma no_serve : forall i n, ~ serving (map Close (seq i n)).
Proof. intros i n [sel [wr [send H]]]. apply in_map_iff in H. destruct H as [j [E _]]. discriminate E. Qed.
Lemma no_serve_more : forall i n, ~ serving (more i n).
Proof. intros i n [sel [wr [send H]]]. destruct (in_more _ _ _ H) as [[j [X _]]|[X|[j X]]]; discriminate X. Qed.
Lemma no_serve_cons : forall x i n, match x with Serve _ _ _ => False | _ => True end -> ~ serving (x :: more i n).
Proof. intros x i n N [sel [wr [send H]]]. destruct H as [->|H]; [auto|]. apply (no_serve_more i n). exists sel, wr, send. auto. Qed.
Lemma loop_tail : forall n, In Loop (tail n).
Proof. intros. left. auto. Qed.

Lemma move_loops : forall n tr rs0 m ch m1 ev, agrees n tr m -> loops rs0 m -> move n m ch m1 ev -> loops rs0 m1.
Proof.
  intros n tr rs0 m ch m1 ev HA HL H. split_move H.
  - eapply loops_same; eauto.
  - eapply loops_same; eauto; [intros []|intros [? [? [? []]]]].
  - eapply loops_same; eauto; [rewrite E; intros [X|X]; [discriminate X|right; auto]|]. intros X. exfalso. revert X. apply no_serve_cons. exact I.
  - eapply loops_same; eauto; [rewrite E; intros [X|X]; [discriminate X|right; auto]|]. intros X. exfalso. revert X. apply no_serve_cons. exact I.
  - eapply loops_same; eauto; [rewrite E; intros [X|X]; [discriminate X|right; auto]|]. intros X. exfalso. revert X. apply no_serve_cons. exact I.
  - eapply loops_same; eauto; [rewrite E; intros [X|X]; [discriminate X|right; auto]|]. intros X. exfalso. revert X. apply no_serve_cons. exact I.
  - eapply loops_same; eauto; [intros [X|[]]; discriminate X|intros [? [? [? [X|[]]]]]; discriminate X].
  - eapply loops_same; eauto; [rewrite E; intros [X|X]; [discriminate X|right; auto]|]. intros X. exfalso. revert X. apply no_serve_cons. exact I.
  - eapply loops_same; eauto; [rewrite E; intros [X|X]; [discriminate X|right; auto]|]. intros X. exfalso. revert X. apply no_serve_cons. exact I.
  - eapply loops_same; eauto; [rewrite E; intros [X|X]; [discriminate X|right; auto]|]. intros X. exfalso. revert X. apply no_serve_cons. exact I.
  - eapply loops_same; eauto; [rewrite E; intros [X|X]; [discriminate X|right; auto]|]. intros X. exfalso. revert X. apply no_serve_cons. exact I.
  - eapply loops_same; eauto; [symmetry; apply (og_rounds _ _ _ _ H)|rewrite E; intros X; right; auto|]. intros X. destruct (no_serve_more _ _ X).
  - eapply loops_same; eauto; [symmetry; apply (og_rounds _ _ _ _ H)|intros []|intros [? [? [? []]]]].
  - eapply loops_same; eauto; [intros X; rewrite E; left; auto|]. intros X. destruct (no_serve _ _ X).
  - constructor; cbn [m_rounds m_rs m_ev m_code]; [|intros X; destruct (no_loop _ _ X)|intros X; destruct (no_serve _ _ X)]. rewrite (lo_next _ _ HL) by (rewrite E; apply loop_tail). cbn [main_loop]. rewrite B. cbn [rd_late rd_select]. apply orb_true_iff in L. destruct late; cbn [bind]; [rewrite app_nil_r; auto|]. destruct L as [L|L]; [discriminate L|]. rewrite L. cbn [bind]. rewrite app_nil_r. auto.
  - eapply loops_same; eauto. intros _. rewrite E. left. auto.
  - eapply loops_same; eauto; [intros _; rewrite E; right; apply in_or_app; right; right; left; auto|]. intros _. left. exists sel, wr, send. rewrite E. right. apply in_or_app. right. left. auto.
  - eapply loops_same; eauto; [intros _; rewrite E; right; apply in_or_app; right; right; left; auto|]. intros _. left. exists sel, wr, send. rewrite E. right. apply in_or_app. right. left. auto.
  - assert (W : waits (m_rs m) = true) by (apply (lo_turn _ _ HL); exists sel, wr, send; rewrite E; left; auto).
    assert (N : forall fut, main_loop ((m_rounds m ++ [MkRound sel false (got (m_got m)) wr send]) ++ fut) rs0 = ('(rs2, ev2) <- main_loop fut rs;; Ret (rs2, (m_ev m ++ ev) ++ ev2))).
    { intros fut. rewrite <- app_assoc. cbn [app]. rewrite (lo_next _ _ HL) by (rewrite E; right; left; auto). cbn [main_loop]. unfold waits in W. rewrite W. cbn [rd_late rd_select]. destruct (Z.leb_spec sel 0); [lia|]. rewrite P. cbn [bind]. destruct (main_loop fut rs) as [[rs2 ev2]|c]; cbn [bind]; [rewrite app_assoc|]; auto. }
    constructor; cbn [m_rounds m_rs m_ev m_code]; [|intros _; exact N|].
    + rewrite <- (app_nil_r (m_rounds m ++ _)), N, main_nil. cbn [bind]. rewrite app_nil_r. auto.
    + intros X. exfalso. revert X. rewrite <- more_end. apply no_serve_more.
  - eapply loops_same; eauto; [intros XX; destruct (no_loop _ _ XX)|intros XX; destruct (no_serve _ _ XX)].
Qed.

(** *** Nothing waits *)
Definition fed (m : machine) : Prop := forall i k, In (Recv i) (m_code m) -> view m i = Some k -> k_queue k <> [].

Lemma no_recv : forall i n j, ~ In (Recv j) (map Close (seq i n)).
Proof. intros i n j H. apply in_map_iff in H. destruct H as [u [X _]]. discriminate X. Qed.
Lemma no_recv_more : forall i n j, ~ In (Recv j) (more i n).
Proof. intros i n j H. destruct (in_more _ _ _ H) as [[u [X _]]|[X|[u X]]]; discriminate X. Qed.
Lemma in_turn : forall j l sel wr send n, In (Recv j) (map Recv l ++ Serve sel wr send :: tail n) -> In j l.
Proof.
  intros j l sel wr send n H. apply in_app_or in H. destruct H as [H|[H|H]]; [|discriminate H|].
  - apply in_map_iff in H. destruct H as [u [X H]]. injection X as ->. auto.
  - rewrite <- more_end in H. destruct (no_recv_more _ _ _ H).
Qed.

Lemma move_fed : forall n tr m ch m1 ev, agrees n tr m -> fed m -> move n m ch m1 ev -> fed m1.
Proof.
  intros n tr m ch m1 ev HA HF H. pose proof (ag_course _ _ _ HA) as HC. pose proof (co_no _ _ HC) as N1. pose proof (co_fd _ _ HC) as N2. split_move H; intros v k' W VV; cbn [with_socks with_code m_code] in W.
  - unfold view, with_socks in VV. cbn [m_socks] in VV. rewrite find_map_same in VV by (intros k; unfold enqueue; destruct (_ || _); auto). fold (view m v) in VV. destruct (view m v) as [k|] eqn:V; [|discriminate]. apply some_inj in VV. subst k'. specialize (HF _ _ W V). unfold enqueue. destruct (_ || _); cbn [set_queue k_queue]; [|auto]. destruct (k_queue k); [congruence|discriminate].
  - destruct W.
  - destruct W as [W|W]; [discriminate W|destruct (no_recv_more _ _ _ W)].
  - destruct W as [W|W]; [discriminate W|destruct (no_recv_more _ _ _ W)].
  - destruct W as [W|W]; [discriminate W|destruct (no_recv_more _ _ _ W)].
  - destruct W as [W|W]; [discriminate W|destruct (no_recv_more _ _ _ W)].
  - destruct W as [W|[]]. discriminate W.
  - destruct W as [W|W]; [discriminate W|destruct (no_recv_more _ _ _ W)].
  - destruct W as [W|W]; [discriminate W|destruct (no_recv_more _ _ _ W)].
  - destruct W as [W|W]; [discriminate W|destruct (no_recv_more _ _ _ W)].
  - destruct W as [W|W]; [discriminate W|destruct (no_recv_more _ _ _ W)].
  - destruct (no_recv_more _ _ _ W).
  - destruct W.
  - destruct (no_recv _ _ _ W).
  - destruct (no_recv _ _ _ W).
  - apply in_turn in W. apply filter_In in W. destruct W as [_ W]. apply (R v k' W VV).
  - apply (HF v); [rewrite E; right; auto|exact VV].
  - apply in_turn in W. assert (HI : In (i, k_fd k) (ids m)) by (rewrite (od_ids _ _ H); eapply nth_error_In; apply own_nth; eauto). unfold view in VV. cbn [m_socks] in VV. rewrite (view_on_sock m i (k_fd k) (set_queue q) _ N1 N2 HI (fun _ => eq_refl) eq_refl v) in VV.
    destruct (Nat.eqb_spec v i) as [->|D']; [exfalso; apply NoDup_remove_2 in D; apply D, in_or_app; auto|]. apply (HF v); [rewrite E; right; apply in_or_app; left; apply in_map; auto|exact VV].
  - rewrite <- more_end in W. destruct (no_recv_more _ _ _ W).
  - destruct (no_recv _ _ _ W).
Qed.

(** Proofs about how far an execution has come: command lines (C93). *)

From Verif Require Import BaseFacts SpecProgress PSockets PSockets2 PSockets3 PSockets4 PSockets5 PSockets6 PSockets7 PProgress PParse PCmd PPair PExec PRecv PSend PQuiet PTotal.

Lemma underway_rs : forall ws sch cs m tr, underway ws sch cs m tr -> exists rs, run sch (begin rs) = Some (m, tr) /\ length rs = length (interfaces cs) /\
  (no_padding cs -> Forall sane_res rs /\ Forall homog rs /\ NoDup (map r_name rs) /\ size rs <= 100).
Proof.
  intros ws sch cs m tr [cs0 [rs [HP [HF [HR H]]]]]. exists rs. split; [auto|]. destruct (parsed_good _ _ HP) as [G1 G2]. destruct (filled_all_ready _ _ _ G1 G1 HF) as [F1 F2]. destruct (grouping cs (ready_fits _ F1) ltac:(lia)) as [rs' [ER HG]]. rewrite HR in ER. apply ret_inj in ER. subst rs'.
  split; [rewrite <- (gr_names _ _ HG), map_length; auto|]. intros NP. split; [eapply grouped_sane; eauto|]. split; [eapply grouped_homog; eauto|]. split; [rewrite (gr_names _ _ HG); apply distinct_nodup|eapply grouped_size; eauto; lia].
Qed.

Lemma underway_steps : forall ws sch cs m tr, underway ws sch cs m tr -> let n := Z.of_nat (length (interfaces cs)) in count own_step sch <= 10008 * n + 1 + (n + 2) * count is_wake sch.
Proof.
  intros ws sch cs m tr H. destruct (underway_rs _ _ _ _ _ H) as [rs [R [L _]]]. cbv zeta. pose proof (run_steps _ _ _ _ R) as S. pose proof (work_pos (m_code m)). rewrite <- L. cbn [begin m_code m_rs] in S. rewrite !work_app, work_socket, work_ones, seq_length in S by auto. change (work [Loop]) with 1 in S. lia.
Qed.

Lemma underway_deadline : forall ws sch cs m tr sch2 m2 tr2, underway ws sch cs m tr -> run sch2 m = Some (m2, tr2) -> Forall time_up sch2 -> count own_step sch2 <= 10008 * Z.of_nat (length (interfaces cs)) + 2.
Proof.
  intros ws sch cs m tr sch2 m2 tr2 H R2 F. destruct (underway_rs _ _ _ _ _ H) as [rs [R [L _]]]. pose proof (run_deadline _ _ _ _ R2 F). pose proof (run_left_work _ _ _ _ R). pose proof (work_pos (m_code m2)). rewrite L in *. lia.
Qed.

Lemma fresh_existsb : forall m r, ~ In r (map k_fd (m_socks m)) -> existsb (fun k => k_fd k =? r) (m_socks m) = false.
Proof.
  intros m r H. destruct (existsb _ _) eqn:E; [|auto]. apply existsb_exists in E. destruct E as [k [H1 H2]]. apply Z.eqb_eq in H2. destruct H. rewrite <- H2. apply in_map. auto.
Qed.

Lemma in_opening : forall n m i fd fds, course n m -> ids m = own fds ++ [(i, fd)] -> exists k, sock_of fd m = Some k.
Proof.
  intros n m i fd fds HC E. destruct (view_sock m i fd (co_no _ _ HC) (co_fd _ _ HC)) as [k [_ [X _]]]; [rewrite E; apply in_or_app; right; left; auto|eauto].
Qed.

(** It only waits in select. *)
Lemma underway_goes : forall ws sch cs m tr x rest r, underway ws sch cs m tr -> no_padding cs -> Forall behaved sch -> m_code m = x :: rest -> x <> Loop -> 0 <= r -> ~ In r (map k_fd (m_socks m)) ->
  exists m1 ev, step (Go r) m = Some (m1, ev).
Proof.
  intros ws sch cs m tr x rest r H NP B E NL R0 RF. destruct (underway_rs _ _ _ _ _ H) as [rs [R [L G]]]. destruct (G NP) as [G1 [G2 [G3 G4]]]. destruct (run_sound _ _ _ _ R) as [HA HS]. pose proof (ag_course _ _ _ HA) as HC. pose proof (co_at _ _ HC) as AT. pose proof (run_clean _ _ _ _ _ untag_fits R (begin_clean _ rs) B) as CL.
  pose proof (fresh_existsb _ _ RF) as FE. assert (RN : (r <? 0) = false) by (apply Z.ltb_ge; auto). cbn [step]. rewrite E.
  destruct x as [i|i fd|i fd x|i fd x y|i fd x|i fd|i fd d|i fd| |i|sel wr send|i]; cbn [go]; rewrite ?RN, ?FE; cbn [orb]; eauto; try (destruct (x =? 0); eauto).
  - destruct d as [|d]; [eauto|]. assert (X : exists k, sock_of fd m = Some k).
    { rewrite E in AT. remember (Drain i fd (S d) :: rest) as c. remember (ids m) as I. remember (m_fds m) as FD. remember (length rs) as n. destruct AT as [j fds rds A1 A2 A3|j fd' x fds A1 A2 A3|j fd' fds A1 A2|fds l A1 A2|l sel wr send fds gt rds A1 A2 A3 A4|j fds rds A1 A2]; try discriminate Heqc.
      - exfalso. destruct (Nat.eq_dec j n) as [->|N]; [rewrite more_end in Heqc; discriminate Heqc|]. rewrite map_Socket_more in Heqc by lia. discriminate Heqc.
      - injection Heqc as -> _. inversion A3; subst. eapply in_opening; eauto.
      - exfalso. destruct l; discriminate Heqc.
      - exfalso. destruct (n - j)%nat; discriminate Heqc. }
    destruct X as [k ->]. destruct (k_queue k); eauto.
  - congruence.
  - destruct (run_nowait _ _ _ _ _ _ R E) as [m1 [a X]]. cbn [step] in X. rewrite E in X. cbn [go] in X. destruct (nth_error (m_fds m) i) as [fd|]; [|discriminate X]. destruct (sock_of fd m) as [k|]; [|discriminate X]. destruct (k_queue k) as [|b q]; [destruct (0 <? 0); discriminate X|]. eauto.
  - set (rd := MkRound sel false (got (m_got m)) wr send). assert (SL : 0 < sel).
    { rewrite E in AT. remember (Serve sel wr send :: rest) as c. remember (ids m) as I. remember (m_fds m) as FD. remember (length rs) as n. destruct AT as [j fds rds A1 A2 A3|j fd' x fds A1 A2 A3|j fd' fds A1 A2|fds l A1 A2|l sel' wr' send' fds gt rds A1 A2 A3 A4|j fds rds A1 A2]; try discriminate Heqc.
      - exfalso. destruct (Nat.eq_dec j n) as [->|N]; [rewrite more_end in Heqc; discriminate Heqc|]. rewrite map_Socket_more in Heqc by lia. discriminate Heqc.
      - exfalso. injection Heqc as -> _. inversion A3.
      - destruct l; [|discriminate Heqc]. injection Heqc as -> _ _ _. auto.
      - exfalso. destruct (n - j)%nat; discriminate Heqc. }
    assert (LO : In Loop (m_code m)).
    { clear - AT E. remember (m_code m) as c. remember (ids m) as I. remember (m_fds m) as FD. remember (length rs) as n. destruct AT as [j fds rds A1 A2 A3|j fd' x fds A1 A2 A3|j fd' fds A1 A2|fds l A1 A2|l sel' wr' send' fds gt rds A1 A2 A3 A4|j fds rds A1 A2]; try discriminate E.
      - unfold more. apply in_or_app. right. left. auto.
      - exfalso. injection E as -> _. inversion A3.
      - apply in_or_app. right. right. left. auto.
      - exfalso. destruct (n - j)%nat; discriminate E. }
    pose proof (lo_next _ _ (so_loops _ _ _ _ HS) LO [rd]) as LN. destruct (main_total (m_rounds m ++ [rd]) rs) as [rs' [ev' T]]; auto.
    + apply all_sent_app; [apply (cl_sent _ _ CL)|]. intros rd' k [<-|[]]. cbn [rd rd_send]. eapply (cl_code _ _ CL). rewrite E. left. reflexivity.
    + apply Forall_app. split; [apply (cl_fit _ _ CL)|]. constructor; [|constructor]. intros i m0 X. cbn [rd rd_rx] in X. destruct (got_in _ _ _ X) as [p [P1 <-]]. apply (cl_got _ _ CL). auto.
    + rewrite T in LN. cbn [main_loop] in LN. pose proof (lo_turn _ _ (so_loops _ _ _ _ HS)) as W. unfold waits in W. rewrite W in LN by (exists sel, wr, send; rewrite E; left; auto). cbn [rd rd_late rd_select] in LN. replace (sel <=? 0) with false in LN by lia. fold rd in LN. destruct (process rd (m_rs m)) as [[rs1 ev1]|]; [eauto|]. cbn [bind] in LN. discriminate LN.
  - assert (X : exists fd, nth_error (m_fds m) i = Some fd); [|destruct X as [fd ->]; eauto]. rewrite E in AT. remember (Close i :: rest) as c. remember (ids m) as I. remember (m_fds m) as FD. remember (length rs) as n. destruct AT as [j fds rds A1 A2 A3|j fd' x fds A1 A2 A3|j fd' fds A1 A2|fds l A1 A2|l sel' wr' send' fds gt rds A1 A2 A3 A4|j fds rds A1 A2]; try discriminate Heqc.
    + exfalso. destruct (Nat.eq_dec j n) as [->|N]; [rewrite more_end in Heqc; discriminate Heqc|]. rewrite map_Socket_more in Heqc by lia. discriminate Heqc.
    + exfalso. injection Heqc as -> _. inversion A3.
    + exfalso. destruct l; discriminate Heqc.
    + destruct (n - j)%nat as [|q] eqn:EQ; [discriminate Heqc|]. cbn [seq map] in Heqc. injection Heqc as -> _. destruct (nth_error fds i) as [fd|] eqn:EN; [eauto|]. apply nth_error_None in EN. lia.
Qed.

Lemma underway_loop : forall m rest, m_code m = Loop :: rest -> (exists m1 ev, forall r, step (Go r) m = Some (m1, ev)) \/ forall sel late ready wr send, late || (sel <=? 0) = true -> exists m1 ev, step (Wake sel late ready wr send) m = Some (m1, ev).
Proof.
  intros m rest E. cbn [step]. rewrite E. cbn [go]. unfold wake. destruct (existsb _ _).
  - right. intros sel late ready wr send ->. eauto.
  - left. eauto.
Qed.

Lemma run_one : forall ch m m1 ev, step ch m = Some (m1, ev) -> run [ch] m = Some (m1, ev).
Proof. intros ch m m1 ev H. cbn [run]. rewrite H, app_nil_r. auto. Qed.

Lemma underway_more : forall ws sch cs m tr sch2 m2 tr2, underway ws sch cs m tr -> run sch2 m = Some (m2, tr2) -> underway ws (sch ++ sch2) cs m2 (tr ++ tr2).
Proof. intros ws sch cs m tr sch2 m2 tr2 [cs0 [rs [A [B [C D]]]]] R. exists cs0, rs. repeat (split; [assumption|]). eapply run_app; eauto. Qed.

Lemma underway_over : forall ws sch cs m tr, underway ws sch cs m tr -> m_code m = [] -> exists r ev, executes ws sch cs r ev tr (m_rounds m).
Proof.
  intros ws sch cs m tr [cs0 [rs [HP [HF [HR H]]]]] E. destruct (parsed_good _ _ HP) as [G1 G2]. destruct (filled_all_ready _ _ _ G1 G1 HF) as [F1 F2]. pose proof (undefined_of_filled _ _ HF) as HU.
  assert (EQ : map (paired cs0) cs0 = cs). { eapply Forall2_filled_eq; [|exact HF]. apply Forall2_map_filled. intros c Hc. apply undefined_nil; auto. }
  destruct (pcap_total _ F1) as [e1 P1]. destruct (hex_total _ F1) as [e2 P2]. destruct m as [c fds rs1 ss gt rds ev4 failed]. cbn [m_code] in E. subst c. cbn [m_rounds].
  assert (X : exists r ev, exec_with cs0 sch = Ret (Some (r, ev, tr, rds))).
  { unfold exec_with. rewrite pair_cmds_spec, HU, EQ. cbn [length Z.of_nat]. change (negb (0 =? 0)) with false. cbn iota. rewrite P1. cbn [bind]. rewrite P2. cbn [bind]. rewrite HR. cbn [bind]. rewrite H. destruct failed; [eauto|]. destruct (check_all rs1). eauto. }
  destruct X as [r [ev X]]. exists r, ev, cs0. auto.
Qed.

Lemma fresh_fd : forall m : machine, exists r, 0 <= r /\ ~ In r (map k_fd (m_socks m)).
Proof.
  intros m. exists (1 + fold_right Z.max 0 (map k_fd (m_socks m))). generalize (map k_fd (m_socks m)). intros l. assert (P : 0 <= fold_right Z.max 0 l /\ forall x, In x l -> x <= fold_right Z.max 0 l).
  { induction l as [|x l [I1 I2]]; [split; [cbn; lia|intros ? []]|]. cbn [fold_right]. split; [lia|]. intros y [<-|Y]; [lia|]. specialize (I2 y Y). lia. }
  destruct P as [P1 P2]. split; [lia|]. intros X. specialize (P2 _ X). lia.
Qed.

Lemma underway_ends : forall ws sch cs m tr, underway ws sch cs m tr -> no_padding cs -> Forall behaved sch ->
  exists sch2 r ev tr2 rds, executes ws (sch ++ sch2) cs r ev (tr ++ tr2) rds /\ forallb own_step sch2 = true /\ Forall time_up sch2 /\ Forall behaved sch2.
Proof.
  intros ws sch cs m tr H NP. remember (Z.to_nat (work (m_code m))) as w eqn:W. revert sch m tr W H. induction w as [w IH] using lt_wf_ind. intros sch m tr W H B. destruct (m_code m) as [|x rest] eqn:E.
  - destruct (underway_over _ _ _ _ _ H E) as [r [ev X]]. exists [], r, ev, [], (m_rounds m). rewrite !app_nil_r. auto.
  - assert (ST : exists ch m1 ev, step ch m = Some (m1, ev) /\ own_step ch = true /\ time_up ch /\ behaved ch).
    { assert (D : x = Loop \/ x <> Loop) by (destruct x; first [left; reflexivity|right; discriminate]). destruct D as [->|D].
      - destruct (underway_loop _ _ E) as [[m1 [ev X]]|X]; [exists (Go 0); eauto 8; cbn; exists m1, ev; split; [apply X|]; auto|]. destruct (X 0 true (fun _ => false) (fun _ => false) (fun _ => true) eq_refl) as [m1 [ev Y]]. eexists. exists m1, ev. split; [exact Y|]. cbn. auto.
      - destruct (fresh_fd m) as [r [R1 R2]]. destruct (underway_goes _ _ _ _ _ _ _ _ H NP B E D R1 R2) as [m1 [ev X]]. exists (Go r), m1, ev. unfold behaved, smooth. cbn [own_step time_up]. auto. }
    destruct ST as [ch [m1 [ev [ST [O [T BH]]]]]]. pose proof (run_one _ _ _ _ ST) as R1. pose proof (run_deadline _ _ _ _ R1 (Forall_cons _ T (Forall_nil _))) as WD. rewrite count_cons, O in WD. change (count own_step []) with 0 in WD. pose proof (work_pos (m_code m1)) as WP.
    destruct (IH (Z.to_nat (work (m_code m1)))) with (sch := sch ++ [ch]) (m := m1) (tr := tr ++ ev) as [sch2 [r [ev2 [tr2 [rds [X1 [X2 [X3 X4]]]]]]]]; auto.
    + subst w. rewrite <- E in *. apply Z2Nat.inj_lt; lia.
    + eapply underway_more; eauto.
    + apply Forall_app. auto.
    + exists (ch :: sch2), r, ev2, (ev ++ tr2), rds. rewrite <- !app_assoc in X1. cbn [app] in X1. split; [auto|]. cbn [forallb]. rewrite O, X2. auto.
Qed.

(** Time, captures, options (C51, C52, C59-C61). *)

From Verif Require Import PTextIp PTextNum Frame PBits PSer Exec SpecExec PCmd PPair PExec PRecv PSyntax PStatus Main SpecMain.

(** ** Time (C52) *)

Lemma timeout_exact : forall m, 0 <= m -> normal (timeout_tv m) /\ 0 <= tv_sec (timeout_tv m) /\ microseconds (timeout_tv m) = 1000 * m.
Proof.
  intros m H. unfold normal, microseconds, timeout_tv. cbn [tv_sec tv_usec]. rewrite Z.quot_div_nonneg by lia. lia.
Qed.

Lemma timeradd_exact : forall a b, normal a -> normal b -> normal (timeradd a b) /\ microseconds (timeradd a b) = microseconds a + microseconds b.
Proof. unfold normal, microseconds, timeradd. intros a b Ha Hb. destruct (Z.leb_spec 1000000 (tv_usec a + tv_usec b)); cbn [tv_sec tv_usec]; lia. Qed.

Lemma timersub_exact : forall a b, normal a -> normal b -> normal (timersub a b) /\ microseconds (timersub a b) = microseconds a - microseconds b.
Proof. unfold normal, microseconds, timersub. intros a b Ha Hb. destruct (Z.ltb_spec (tv_usec a - tv_usec b) 0); cbn [tv_sec tv_usec]; lia. Qed.

Lemma timer_gt_exact : forall a b, normal a -> normal b -> timer_gt a b = (microseconds b <? microseconds a).
Proof. unfold normal, microseconds, timer_gt. intros a b Ha Hb. destruct (Z.eqb_spec (tv_sec a) (tv_sec b)); lia. Qed.

Lemma timer_lt_exact : forall a b, normal a -> normal b -> timer_lt a b = (microseconds a <? microseconds b).
Proof. unfold normal, microseconds, timer_lt. intros a b Ha Hb. destruct (Z.eqb_spec (tv_sec a) (tv_sec b)); lia. Qed.

Lemma end_exact : forall m b, 0 <= m -> normal b -> normal (end_of m b) /\ microseconds (end_of m b) = microseconds b + 1000 * m.
Proof. intros m b Hm Hb. destruct (timeout_exact m Hm) as [N [_ E]]. unfold end_of. destruct (timeradd_exact b _ Hb N) as [A B]. split; [auto|lia]. Qed.

Lemma timed_loop_main : forall e rds left rs rs' ev,
  (exists ls, timed_loop e left rds rs = Ret (rs', ev, ls)) <-> main_loop (map (timed e) rds) rs = Ret (rs', ev).
Proof.
  intros e. induction rds as [|rd rds IH]; intros left rs rs' ev; cbn [timed_loop main_loop map].
  - destruct (existsb _ rs); (split; [intros [ls H]; congruence|intros H; eexists; apply ret_inj, pair_inj in H; destruct H as [-> ->]; reflexivity]).
  - destruct (existsb _ rs); [|split; [intros [ls H]; congruence|intros H; eexists; apply ret_inj, pair_inj in H; destruct H as [-> ->]; reflexivity]].
    change (rd_late (timed e rd)) with (timer_gt (tr_now rd) e). change (rd_select (timed e rd)) with (tr_select rd).
    destruct (timer_gt (tr_now rd) e); [split; [intros [ls H]; congruence|intros H; eexists; apply ret_inj, pair_inj in H; destruct H as [-> ->]; reflexivity]|].
    destruct (tr_select rd <=? 0); [split; [intros [ls H]; congruence|intros H; eexists; apply ret_inj, pair_inj in H; destruct H as [-> ->]; reflexivity]|].
    destruct (process (timed e rd) rs) as [[rs1 ev1]|c]; cbn [bind]; [|split; [intros [ls H]|intros H]; discriminate]. split.
    + intros [ls H]. binv H. destruct a as [[rs2 ev2] ls2]. assert (EQ := ret_inj _ _ _ H). apply pair_inj in EQ. destruct EQ as [EQ _]. apply pair_inj in EQ. destruct EQ as [<- <-].
      assert (K : main_loop (map (timed e) rds) rs1 = Ret (rs2, ev2)) by (apply (IH (timersub e (tr_now rd))); eauto). rewrite K. reflexivity.
    + intros H. binv H. destruct a as [rs2 ev2]. apply ret_inj, pair_inj in H. destruct H as [<- <-]. apply (IH (timersub e (tr_now rd))) in E. destruct E as [ls E]. rewrite E. cbn [bind]. eauto.
Qed.

(** The time-outs passed to select. *)
Lemma select_timeouts : forall m b, 0 <= m -> normal b -> forall rds now rs rs' ev ls, normal now -> Forall (fun rd => normal (tr_now rd)) rds ->
  timed_loop (end_of m b) (timersub (end_of m b) now) rds rs = Ret (rs', ev, ls) ->
  forall k l, nth_error ls k = Some l -> exists t, nth_error (now :: map tr_now rds) k = Some t /\ normal l /\ microseconds l = microseconds b + 1000 * m - microseconds t /\
  (k <> 0%nat -> 0 <= microseconds l).
Proof.
  intros m b Hm Hb. destruct (end_exact m b Hm Hb) as [NE EE]. induction rds as [|rd rds IH]; intros now rs rs' ev ls Hn Hr H k l Hk; cbn [timed_loop] in H.
  - assert (A : In l [timersub (end_of m b) now] /\ k = 0%nat).
    { destruct (existsb _ rs); [assert (ls = [timersub (end_of m b) now]) by congruence|assert (ls = []) by congruence]; subst ls; destruct k as [|k]; try discriminate Hk; [|destruct k; discriminate Hk]. split; [left; cbn in Hk; congruence|auto]. }
    destruct A as [[<-|[]] ->]. exists now. destruct (timersub_exact _ _ NE Hn) as [N1 N2]. split; [reflexivity|]. split; [auto|]. split; [lia|congruence].
  - pose proof (Forall_inv Hr) as Hn1. pose proof (Forall_inv_tail Hr) as Hr1. cbn beta in Hn1.
    assert (FIRST : k = 0%nat -> l = timersub (end_of m b) now -> exists t, nth_error (now :: map tr_now (rd :: rds)) k = Some t /\ normal l /\ microseconds l = microseconds b + 1000 * m - microseconds t /\ (k <> 0%nat -> 0 <= microseconds l)).
    { intros -> ->. exists now. destruct (timersub_exact _ _ NE Hn) as [N1 N2]. split; [reflexivity|]. split; [auto|]. split; [lia|congruence]. }
    destruct (existsb _ rs); [|assert (ls = []) by congruence; subst ls; destruct k; discriminate Hk].
    destruct (timer_gt (tr_now rd) (end_of m b)) eqn:EL.
    { assert (ls = [timersub (end_of m b) now]) by congruence. subst ls. destruct k as [|k]; [|destruct k; discriminate Hk]. apply FIRST; [auto|cbn in Hk; congruence]. }
    destruct (tr_select rd <=? 0).
    { assert (ls = [timersub (end_of m b) now]) by congruence. subst ls. destruct k as [|k]; [|destruct k; discriminate Hk]. apply FIRST; [auto|cbn in Hk; congruence]. }
    binv H. destruct a as [rs1 ev1]. binv H. destruct a as [[rs2 ev2] ls2]. assert (ls = timersub (end_of m b) now :: ls2) by congruence. subst ls.
    destruct k as [|k]; [apply FIRST; [auto|cbn in Hk; congruence]|]. cbn [nth_error] in Hk. rewrite timer_gt_exact in EL by auto.
    destruct (IH _ _ _ _ _ Hn1 Hr1 E0 k l Hk) as [t [T1 [T2 [T3 T4]]]]. exists t. split; [exact T1|]. split; [auto|]. split; [auto|]. intros _. destruct k as [|k]; [|apply T4; discriminate]. cbn [nth_error] in T1. assert (tr_now rd = t) by congruence. subst t. lia.
Qed.

(** A negative time-out. *)
Lemma negative_late : forall m b now, m < 0 -> normal b -> normal now -> microseconds b <= microseconds now -> timer_gt now (end_of m b) = true.
Proof.
  intros m b now Hm Hb Hn Hle. unfold normal, microseconds, end_of, timer_gt, timeradd, timeout_tv in *. cbn [tv_sec tv_usec].
  assert (HQ : Z.quot m 1000 = - (- m / 1000)). { replace m with (- (- m)) at 1 by lia. rewrite Z.quot_opp_l by lia. rewrite Z.quot_div_nonneg by lia. lia. } rewrite HQ.
  destruct (Z.leb_spec 1000000 (tv_usec b + (m - - (- m / 1000) * 1000) * 1000)); cbn [tv_sec tv_usec]; [lia|].
  destruct (Z.eqb_spec (tv_sec now) (tv_sec b + - (- m / 1000))); lia.
Qed.

(** A round after the end of the time-out ends the run. *)
Lemma late_round : forall rds1 rd rds2 rs, rd_late rd = true -> main_loop (rds1 ++ rd :: rds2) rs = main_loop rds1 rs.
Proof.
  induction rds1 as [|r rds1 IH]; intros rd rds2 rs H; cbn [app main_loop]; [rewrite H; auto|]. destruct (existsb _ rs); [|auto]. destruct (rd_late r); [auto|]. destruct (rd_select r <=? 0); [auto|].
  destruct (process r rs) as [[rs1 ev1]|]; cbn [bind]; [|auto]. rewrite IH by auto. auto.
Qed.

Lemma late_run : forall ws o rds1 rd rds2, rd_late rd = true -> argc_cmds ws (MkEnv o (rds1 ++ rd :: rds2)) = argc_cmds ws (MkEnv o rds1).
Proof. intros ws o rds1 rd rds2 H. unfold argc_cmds, exec_cmds. cbn [e_open e_rounds]. destruct (parse_cmds ws) as [[cs|]|]; cbn [bind]; auto. destruct (pair_cmds cs) as [[cs1 err] ev0]. destruct (negb _); [auto|]. destruct (pcap_events cs1); cbn [bind]; auto. destruct (hex_events cs1); cbn [bind]; auto. destruct (add_all cs1 []) as [rs|]; cbn [bind]; auto. rewrite late_round by auto. auto. Qed.

Lemma late_exact : forall m b rd, 0 <= m -> normal b -> normal (tr_now rd) ->
  rd_late (timed (end_of m b) rd) = true <-> microseconds b + 1000 * m < microseconds (tr_now rd).
Proof. intros m b rd Hm Hb Hn. destruct (end_exact m b Hm Hb) as [N E]. cbn [rd_late timed]. rewrite timer_gt_exact by auto. lia. Qed.

Lemma timeout_begin : forall m b, 0 <= m -> normal b -> timersub (end_of m b) b = timeout_tv m.
Proof.
  intros m b Hm Hb. destruct (timeout_exact m Hm) as [N [_ E]]. destruct (end_exact m b Hm Hb) as [N1 E1]. destruct (timersub_exact _ _ N1 Hb) as [N2 E2].
  destruct (timersub (end_of m b) b) as [x y], (timeout_tv m) as [x' y']. unfold normal, microseconds in *. cbn [tv_sec tv_usec] in *. f_equal; lia.
Qed.

Lemma select_never_beyond : forall m b, 0 <= m -> normal b -> forall rds rs rs' ev ls, Forall (fun rd => normal (tr_now rd)) rds ->
  timed_loop (end_of m b) (timeout_tv m) rds rs = Ret (rs', ev, ls) ->
  forall k l, nth_error ls k = Some l -> exists t, nth_error (times_read b rds) k = Some t /\ normal l /\ microseconds l = microseconds b + 1000 * m - microseconds t /\ 0 <= microseconds l.
Proof.
  intros m b Hm Hb rds rs rs' ev ls HR H k l Hk. rewrite <- (timeout_begin m b Hm Hb) in H. destruct (select_timeouts m b Hm Hb rds b rs rs' ev ls Hb HR H k l Hk) as [t [A [B [C D]]]].
  exists t. split; [exact A|]. split; [auto|]. split; [auto|]. destruct k as [|k]; [|apply D; discriminate]. cbn [nth_error] in A. apply some_inj in A. subst t. lia.
Qed.

Lemma timed_run : forall ws m s rds1 rd rds2, 0 <= m -> normal (s_begin s) -> normal (tr_now rd) -> s_rounds s = rds1 ++ rd :: rds2 ->
  microseconds (s_begin s) + 1000 * m < microseconds (tr_now rd) ->
  argc_cmds ws (env_of m s) = argc_cmds ws (MkEnv (s_open s) (map (timed (end_of m (s_begin s))) rds1)).
Proof.
  intros ws m s rds1 rd rds2 Hm Hb Hn HR HT. unfold env_of. rewrite HR, map_app. cbn [map]. apply late_run. cbn [rd_late timed].
  destruct (end_exact m _ Hm Hb) as [N E]. rewrite timer_gt_exact by auto. lia.
Qed.

Lemma negative_run : forall ws m s, m < 0 -> normal (s_begin s) -> Forall (fun rd => normal (tr_now rd) /\ microseconds (s_begin s) <= microseconds (tr_now rd)) (s_rounds s) ->
  argc_cmds ws (env_of m s) = argc_cmds ws (MkEnv (s_open s) []).
Proof.
  intros ws m s Hm Hb HR. unfold env_of. destruct (s_rounds s) as [|rd rds]; [auto|]. destruct (Forall_inv HR) as [A B]. apply (late_run ws (s_open s) [] (timed (end_of m (s_begin s)) rd)). cbn [rd_late timed]. apply negative_late; auto.
Qed.

(** ** Captures (C51) *)

Lemma comma_code : forall c, (code c =? 44) = Ascii.eqb c ","%char.
Proof. intros [[] [] [] [] [] [] [] []]; vm_compute; reflexivity. Qed.

Lemma cut_none : forall e, ~ contains "," e -> cut_comma e = (e, None).
Proof.
  induction e as [|c e IH]; intros H; [auto|]. cbn [cut_comma]. rewrite comma_code. destruct (Ascii.eqb_spec c ","%char) as [->|Hc]; [exfalso; apply H; left; auto|]. rewrite IH; [auto|]. intros X. apply H. right. auto.
Qed.

Lemma cut_some : forall e s, ~ contains "," e -> cut_comma (e ++ "," ++ s)%string = (e, Some s).
Proof.
  induction e as [|c e IH]; intros s H; [reflexivity|]. change (String c e ++ "," ++ s)%string with (String c (e ++ "," ++ s)). cbn [cut_comma]. rewrite comma_code. destruct (Ascii.eqb_spec c ","%char) as [->|Hc]; [exfalso; apply H; left; auto|]. rewrite IH; [auto|]. intros X. apply H. right. auto.
Qed.

Lemma split_joined : forall n es, es <> [] -> Forall (fun e => ~ contains "," e) es -> split_elems n (Some (joined "," es)) = firstn n es.
Proof.
  induction n as [|n IH]; intros es HN HF; [destruct es; auto|]. destruct es as [|e [|e2 es]]; [congruence| |].
  - cbn [split_elems joined firstn]. rewrite (cut_none e (Forall_inv HF)). destruct n; auto.
  - change (joined "," (e :: e2 :: es)) with (e ++ "," ++ joined "," (e2 :: es))%string. cbn [split_elems]. rewrite (cut_some _ _ (Forall_inv HF)). rewrite IH; [reflexivity|discriminate|apply (Forall_inv_tail HF)].
Qed.

Lemma nth_firstn5 : forall (es : list string) i, (i < 5)%nat -> nth i (firstn 5 es) EmptyString = nth i es EmptyString.
Proof. intros es i H. destruct es as [|a [|b [|c [|d [|e es]]]]]; do 5 (destruct i as [|i]; [reflexivity|]); lia. Qed.

Lemma elem_nth : forall es i, elem es i = match nth i es EmptyString with EmptyString => None | a => Some a end.
Proof.
  intros es i. unfold elem. destruct (nth_error es i) as [a|] eqn:E; [rewrite (nth_error_nth _ _ _ E); destruct a; auto|]. apply nth_error_None in E. rewrite nth_overflow by auto. auto.
Qed.

Lemma joined_app : forall a b, a <> [] -> b <> [] -> joined " " (a ++ b) = (joined " " a ++ " " ++ joined " " b)%string.
Proof.
  induction a as [|x a IH]; intros b HA HB; [congruence|]. destruct a as [|y a]; [destruct b; [congruence|reflexivity]|].
  change (joined " " ((x :: y :: a) ++ b)) with (x ++ " " ++ joined " " ((y :: a) ++ b))%string. rewrite IH by (auto; discriminate). change (joined " " (x :: y :: a)) with (x ++ " " ++ joined " " (y :: a))%string. rewrite !str_app_assoc. auto.
Qed.

Lemma capture_spec : forall s es, elements s es -> capture_add s = (joined " " (capture_words es), capture_file es).
Proof.
  intros s es [HN [HF ->]]. unfold capture_add. rewrite split_joined by auto. rewrite !elem_nth, !nth_firstn5 by lia.
  assert (HFile : match match nth 3 es EmptyString with EmptyString => None | a => Some a end with Some f => f | None => (nth 0 es EmptyString ++ ".pcap")%string end = capture_file es) by (unfold capture_file; destruct (nth 3 es EmptyString); auto).
  rewrite HFile. f_equal. unfold capture_words, option_words. generalize (capture_file es) (nth 0 es EmptyString). intros file ifn.
  destruct (nth 1 es EmptyString) as [|c1 s1], (nth 2 es EmptyString) as [|c2 s2], (nth 4 es EmptyString) as [|c4 s4]; cbn [app opt_arg joined]; repeat rewrite str_app_assoc; cbn [String.append]; repeat rewrite str_app_assoc; cbn [String.append]; rewrite ?str_app_nil; reflexivity.
Qed.

Lemma elements_exist : forall s, exists es, elements s es.
Proof.
  induction s as [|c s [es [H1 [H2 ->]]]].
  - exists [EmptyString]. split; [discriminate|]. split; [constructor; [intros []|constructor]|reflexivity].
  - destruct es as [|e es]; [congruence|]. destruct (Ascii.eqb_spec c ","%char) as [->|Hc].
    + exists (EmptyString :: e :: es). split; [discriminate|]. split; [constructor; [intros []|auto]|reflexivity].
    + exists (String c e :: es). split; [discriminate|]. split; [|destruct es; reflexivity]. constructor; [|apply (Forall_inv_tail H2)]. intros [X|X]; [congruence|]. apply (Forall_inv H2). auto.
Qed.

(** ** Processes (C59) *)

Definition started (c : capture) (p : Z) : capture := MkCap (cap_cmd c) p true (cap_success c).

Lemma start_all : forall pids cs, length pids = length cs -> Forall (fun p => 0 < p) pids -> capture_all_start pids cs = map (fun x => started (fst x) (snd x)) (combine cs pids).
Proof.
  induction pids as [|p pids IH]; intros [|c cs] HL HP; try discriminate; [auto|]. cbn [capture_all_start combine map fst snd]. rewrite IH by (cbn in HL; try lia; apply (Forall_inv_tail HP)). f_equal. unfold capture_start. destruct (Z.ltb_spec 0 p); [auto|]. pose proof (Forall_inv HP). cbn beta in *. lia.
Qed.

Definition pid_list (cs : list capture) : list Z := map cap_pid (filter cap_running cs).

Lemma child_exit_pids : forall p st cs, map cap_pid (child_exit p st cs) = map cap_pid cs.
Proof. intros p st. induction cs as [|c cs IH]; [auto|]. cbn [child_exit]. destruct (cap_pid c =? p); [destruct st; auto|]. cbn [map]. rewrite IH. auto. Qed.

Lemma child_exit_running : forall p st cs, NoDup (map cap_pid cs) -> pid_list (child_exit p st cs) = filter (fun q => negb (Z.eqb q p)) (pid_list cs).
Proof.
  intros p st. induction cs as [|c cs IH]; intros HN; [auto|]. cbn [map] in HN. inversion HN as [|x l N1 N2]; subst. cbn [child_exit]. unfold pid_list in *.
  assert (REST : ~ In p (map cap_pid cs) -> filter (fun q => negb (q =? p)) (map cap_pid (filter cap_running cs)) = map cap_pid (filter cap_running cs)).
  { intros HI. clear - HI. induction cs as [|c cs IH]; [auto|]. cbn [filter map In] in *. destruct (cap_running c); [|apply IH; tauto]. cbn [map filter]. destruct (Z.eqb_spec (cap_pid c) p); [tauto|]. cbn [negb]. rewrite IH by tauto. auto. }
  destruct (Z.eqb_spec (cap_pid c) p) as [E|E].
  - subst p. assert (A : forall c', cap_running c' = false -> map cap_pid (filter cap_running (c' :: cs)) = map cap_pid (filter cap_running cs)) by (intros c' H; cbn [filter]; rewrite H; auto).
    assert (G : map cap_pid (filter cap_running cs) = filter (fun q => negb (q =? cap_pid c)) (map cap_pid (filter cap_running (c :: cs)))).
    { cbn [filter]. destruct (cap_running c); [cbn [map filter]; rewrite Z.eqb_refl; cbn [negb]|]; symmetry; auto. }
    destruct st; rewrite A by reflexivity; auto.
  - cbn [filter]. destruct (cap_running c); [cbn [map filter]; destruct (Z.eqb_spec (cap_pid c) p); [congruence|]; cbn [negb]; f_equal; auto|auto].
Qed.

Lemma filter_filter : forall A (p q : A -> bool) l, filter p (filter q l) = filter (fun x => q x && p x)%bool l.
Proof. intros A p q. induction l as [|x l IH]; [auto|]. cbn [filter]. destruct (q x) eqn:Q; cbn [filter andb]; rewrite IH; auto. Qed.

Lemma reap_running : forall evs cs, NoDup (map cap_pid cs) -> pid_list (reap evs cs) = alive evs (pid_list cs) /\ map cap_pid (reap evs cs) = map cap_pid cs.
Proof.
  unfold reap, alive. induction evs as [|[p st] evs IH]; intros cs HN; cbn [fold_left map fst snd existsb].
  - split; [|auto]. induction (pid_list cs) as [|x l IHl]; [auto|]. cbn [filter negb] in *. f_equal. exact IHl.
  - destruct (IH (child_exit p st cs)) as [A B]; [rewrite child_exit_pids; auto|]. rewrite A, B, child_exit_running, child_exit_pids by auto. split; [|auto]. rewrite filter_filter. apply filter_ext. intros q. rewrite negb_orb. auto.
Qed.

Lemma alive_app : forall a b l, alive (a ++ b) l = alive b (alive a l).
Proof.
  intros a b l. unfold alive. rewrite filter_filter. apply filter_ext. intros q. rewrite map_app, existsb_app, negb_orb. auto.
Qed.

Lemma signals_pids : forall sig cs, map (fun k => Kill (fst k) (snd k)) (signal_running sig cs) = map (fun p => Kill p sig) (pid_list cs).
Proof. intros sig cs. unfold signal_running, pid_list. rewrite !map_map. auto. Qed.

Lemma started_pids : forall caps pids, length pids = length caps -> let cs := map (fun x => started (fst x) (snd x)) (combine (map new_capture caps) pids) in
  pid_list cs = pids /\ map cap_pid cs = pids /\ starts cs = map (fun x => Start (fst (capture_add (fst x))) (snd x)) (combine caps pids).
Proof.
  unfold pid_list, starts. induction caps as [|c caps IH]; intros [|p pids] HL; try discriminate; [cbn; auto|]. destruct (IH pids ltac:(cbn in HL; lia)) as [A [B C]].
  cbn [map combine fst snd started filter cap_running cap_pid flat_map app cap_cmd new_capture]. rewrite A, B, C. auto.
Qed.

Lemma session_run : forall args s st acts m caps ws cs, session args s = Ret (st, acts) -> getopt args = ORun m caps ws -> parse_cmds ws = Ret (Some cs) ->
  length (s_pids s) = length caps -> Forall (fun p => 0 < p) (s_pids s) -> NoDup (s_pids s) ->
  exists r ev, argc_cmds ws (env_of m s) = Ret (r, ev) /\ st = exit_status r /\
  acts = map (fun c => Remove (snd (capture_add c))) caps ++
         map (fun x => Start (fst (capture_add (fst x))) (snd x)) (combine caps (s_pids s)) ++
         map Happens ev ++
         (if (0 <? zlen caps) && timer_lt (s_done s) (end_of m (s_start s)) then [Sleep (timersub (end_of m (s_start s)) (s_done s))] else []) ++
         map (fun p => Kill p SIGINT) (alive (s_before s) (s_pids s)) ++
         map (fun p => Kill p SIGTERM) (alive (s_before s ++ s_int s) (s_pids s)).
Proof.
  intros args s st acts m caps ws cs H HG HP HL HPos HN. unfold session in H. rewrite HG, HP in H. cbn [bind] in H. binv H. destruct a as [r ev].
  rewrite start_all in H by (rewrite ?map_length; auto). destruct (started_pids caps _ HL) as [A [B C]]. cbv zeta in A, B, C. set (cps := map _ (combine (map new_capture caps) (s_pids s))) in *.
  unfold capture_all_stop in H. cbn [fst snd] in H. exists r, ev. split; [unfold argc_cmds; rewrite HP; cbn [bind]; auto|].
  apply ret_inj, pair_inj in H. destruct H as [<- <-]. split; [auto|]. rewrite C. do 4 f_equal. rewrite map_app, !signals_pids.
  destruct (reap_running (s_before s) cps) as [R1 R2]; [rewrite B; auto|]. destruct (reap_running (s_int s) (reap (s_before s) cps)) as [R3 R4]; [rewrite R2, B; auto|]. rewrite R3, R1, A, alive_app. auto.
Qed.

(** The same in terms of the requests. *)
Lemma life_cycle : forall args s st acts m caps ess ws cs, session args s = Ret (st, acts) -> getopt args = ORun m caps ws -> parse_cmds ws = Ret (Some cs) -> Forall2 elements caps ess ->
  length (s_pids s) = length caps -> Forall (fun p => 0 < p) (s_pids s) -> NoDup (s_pids s) -> 0 <= m -> normal (s_start s) -> normal (s_done s) ->
  exists r ev nap, argc_cmds ws (env_of m s) = Ret (r, ev) /\ st = exit_status r /\
  acts = map (fun es => Remove (capture_file es)) ess ++
         map (fun x => Start (joined " " (capture_words (fst x))) (snd x)) (combine ess (s_pids s)) ++
         map Happens ev ++ nap ++
         map (fun p => Kill p SIGINT) (alive (s_before s) (s_pids s)) ++
         map (fun p => Kill p SIGTERM) (alive (s_before s ++ s_int s) (s_pids s)) /\
  let rest := microseconds (s_start s) + 1000 * m - microseconds (s_done s) in
  (caps <> [] /\ 0 < rest /\ (exists tv, nap = [Sleep tv] /\ normal tv /\ microseconds tv = rest) \/ (caps = [] \/ rest <= 0) /\ nap = []).
Proof.
  intros args s st acts m caps ess ws cs H HG HP HE HL HPos HN Hm HS HD. destruct (session_run _ _ _ _ _ _ _ _ H HG HP HL HPos HN) as [r [ev [A [B C]]]].
  destruct (end_exact m _ Hm HS) as [N E]. rewrite timer_lt_exact in C by auto. rewrite E in C.
  assert (R1 : map (fun c => Remove (snd (capture_add c))) caps = map (fun es => Remove (capture_file es)) ess) by (clear - HE; induction HE as [|c es caps ess HX HE IH]; [auto|]; cbn [map]; rewrite IH, (capture_spec _ _ HX); auto).
  assert (R2 : forall pids, map (fun x => Start (fst (capture_add (fst x))) (snd x)) (combine caps pids) = map (fun x => Start (joined " " (capture_words (fst x))) (snd x)) (combine ess pids)) by (clear - HE; induction HE as [|c es caps ess HX HE IH]; [auto|]; intros [|p pids]; [auto|]; cbn [map combine fst snd]; rewrite IH, (capture_spec _ _ HX); auto).
  rewrite R1, R2 in C. exists r, ev, (if (0 <? zlen caps) && (microseconds (s_done s) <? microseconds (s_start s) + 1000 * m) then [Sleep (timersub (end_of m (s_start s)) (s_done s))] else []).
  split; [auto|]. split; [auto|]. split; [exact C|]. cbv zeta. destruct (timersub_exact _ _ N HD) as [T1 T2]. rewrite E in T2.
  destruct caps as [|c caps]; [right; auto|]. unfold zlen. cbn [length]. destruct (Z.ltb_spec 0 (Z.of_nat (S (length caps)))); [|lia]. cbn [andb].
  destruct (Z.ltb_spec (microseconds (s_done s)) (microseconds (s_start s) + 1000 * m)); [left|right; split; [right; lia|auto]]. split; [discriminate|]. split; [lia|]. eexists. split; [reflexivity|]. auto.
Qed.

(** A refused command line. *)
Lemma no_effect : forall args s st acts, session args s = Ret (st, acts) ->
  (exists m caps ws, getopt args = ORun m caps ws /\ (exists cs, parse_cmds ws = Ret (Some cs))) \/
  (st = 255 \/ st = 0 /\ exists caps, getopt args = OVersion caps) /\ (forall a, In a acts -> exists f, a = Remove f).
Proof.
  intros args s st acts H. unfold session in H. assert (X : forall caps a, In a (map (fun c => Remove (snd (capture_add c))) caps) -> exists f, a = Remove f) by (intros caps a HI; apply in_map_iff in HI; destruct HI as [c [<- _]]; eauto).
  destruct (getopt args) as [caps|caps|m caps ws].
  - right. apply ret_inj, pair_inj in H. destruct H as [<- <-]. split; [right; eauto|apply X].
  - right. apply ret_inj, pair_inj in H. destruct H as [<- <-]. split; [left; auto|apply X].
  - destruct (parse_cmds ws) as [[cs|]|] eqn:E; [left; eauto 8| |discriminate]. right. cbn [bind] in H. apply ret_inj, pair_inj in H. destruct H as [<- <-]. split; [left; auto|apply X].
Qed.

Lemma session_refused : forall args s m caps ws, getopt args = ORun m caps ws -> parse_cmds ws = Ret None ->
  session args s = Ret (255, map (fun c => Remove (snd (capture_add c))) caps).
Proof. intros args s m caps ws HG HP. unfold session. rewrite HG, HP. reflexivity. Qed.

Lemma session_main : forall args s st acts, session args s = Ret (st, acts) ->
  exists m, ef_main args (env_of m s) = Ret (st, flat_map (fun a => match a with Happens e => [e] | _ => [] end) acts).
Proof.
  intros args s st acts H. unfold session in H. unfold ef_main.
  assert (RM : forall caps, flat_map (fun a => match a with Happens e => [e] | _ => [] end) (map (fun c => Remove (snd (capture_add c))) caps) = []) by (induction caps; auto).
  destruct (getopt args) as [caps|caps|m caps ws].
  - exists 0. apply ret_inj, pair_inj in H. destruct H as [<- <-]. rewrite RM. auto.
  - exists 0. apply ret_inj, pair_inj in H. destruct H as [<- <-]. rewrite RM. auto.
  - exists m. unfold argc_cmds. binv H. destruct a as [cs|]; [|rewrite E; apply ret_inj, pair_inj in H; destruct H as [<- <-]; cbn [bind]; rewrite RM; auto].
    binv H. destruct a as [r ev]. rewrite E. cbn [bind]. rewrite E0. cbn [bind]. destruct (capture_all_stop _ _ _ _) as [x sigs]. apply ret_inj, pair_inj in H. destruct H as [<- <-]. f_equal. f_equal.
    rewrite !flat_map_app, RM. cbn [app].
    assert (ST : forall l, flat_map (fun a => match a with Happens e => [e] | _ => [] end) (starts l) = []) by (unfold starts; induction l as [|c l IH]; [auto|]; cbn [flat_map]; rewrite flat_map_app, IH; destruct (cap_running c); auto).
    assert (HE : flat_map (fun a => match a with Happens e => [e] | _ => [] end) (map Happens ev) = ev) by (clear; induction ev as [|x ev IH]; [auto|]; cbn [map flat_map app]; rewrite IH; auto).
    assert (KE : flat_map (fun a => match a with Happens e => [e] | _ => [] end) (map (fun k => Kill (fst k) (snd k)) sigs) = []) by (clear; induction sigs; auto).
    rewrite ST, HE, KE. cbn [app]. destruct (_ && _)%bool; cbn [flat_map app]; rewrite ?app_nil_r; auto.
Qed.

(** ** Options (C61) *)

Lemma getopt_operand : forall fuel w r t caps ops, part_ok (Operand w) -> getopt_loop (S fuel) (w :: r) t caps ops = getopt_loop fuel r t caps (ops ++ [w]).
Proof.
  intros fuel w r t caps ops H. cbn [part_ok] in H. cbn [getopt_loop]. destruct w as [|c1 [|c2 w]]; auto. destruct (Z.eqb_spec (code c1) 45) as [E|E]; [|auto].
  exfalso. apply (H c2 w). f_equal. destruct c1 as [[] [] [] [] [] [] [] []]; vm_compute in E; try discriminate E; reflexivity.
Qed.

Lemma last_cons : forall (l : list Z) x d, last (x :: l) d = last l x.
Proof.
  assert (K : forall (l : list Z) y d d', last (y :: l) d = last (y :: l) d') by (induction l as [|z l IH]; intros y d d'; [auto|apply (IH z)]).
  intros [|y l] x d; [auto|]. change (last (y :: l) d = last (y :: l) x). apply K.
Qed.

Lemma getopt_parts : forall ps fuel t caps ops rest, Forall part_ok ps -> (length (flat_map part_words ps) <= fuel)%nat ->
  exists fuel', (fuel <= fuel' + length (flat_map part_words ps))%nat /\
  getopt_loop fuel (flat_map part_words ps ++ rest) t caps ops =
  getopt_loop fuel' rest (last (flat_map time_of ps) t) (caps ++ flat_map capture_of ps) (ops ++ flat_map operand_of ps).
Proof.
  induction ps as [|p ps IH]; intros fuel t caps ops rest HF HL.
  - exists fuel. cbn [flat_map app last]. rewrite !app_nil_r. split; [lia|auto].
  - pose proof (Forall_inv HF) as HP. pose proof (Forall_inv_tail HF) as HF'. cbn [flat_map] in *. rewrite app_length in *.
    destruct p as [n|n|c|c|w]; cbn [part_words length time_of capture_of operand_of app] in *.
    + destruct fuel as [|fuel]; [lia|]. destruct (IH fuel (atoi n) caps ops rest HF' ltac:(lia)) as [f' [F1 F2]]. exists f'. split; [lia|].
      change (getopt_loop (S fuel) ("-t"%string :: n :: flat_map part_words ps ++ rest) t caps ops) with (getopt_loop fuel (flat_map part_words ps ++ rest) (atoi n) caps ops). rewrite F2. rewrite last_cons. auto.
    + destruct fuel as [|fuel]; [lia|]. destruct (IH fuel (atoi n) caps ops rest HF' ltac:(lia)) as [f' [F1 F2]]. exists f'. split; [lia|].
      destruct n as [|c0 n0]; [cbn in HP; congruence|].
      change (getopt_loop (S fuel) (("-t" ++ String c0 n0)%string :: flat_map part_words ps ++ rest) t caps ops) with (getopt_loop fuel (flat_map part_words ps ++ rest) (atoi (String c0 n0)) caps ops). rewrite F2. rewrite last_cons. auto.
    + destruct fuel as [|fuel]; [lia|]. destruct (IH fuel t (caps ++ [c]) ops rest HF' ltac:(lia)) as [f' [F1 F2]]. exists f'. split; [lia|].
      change (getopt_loop (S fuel) ("-c"%string :: c :: flat_map part_words ps ++ rest) t caps ops) with (getopt_loop fuel (flat_map part_words ps ++ rest) t (caps ++ [c]) ops). rewrite F2, <- app_assoc. auto.
    + destruct fuel as [|fuel]; [lia|]. destruct (IH fuel t (caps ++ [c]) ops rest HF' ltac:(lia)) as [f' [F1 F2]]. exists f'. split; [lia|].
      destruct c as [|c0 n0]; [cbn in HP; congruence|].
      change (getopt_loop (S fuel) (("-c" ++ String c0 n0)%string :: flat_map part_words ps ++ rest) t caps ops) with (getopt_loop fuel (flat_map part_words ps ++ rest) t (caps ++ [String c0 n0]) ops). rewrite F2, <- app_assoc. auto.
    + destruct fuel as [|fuel]; [lia|]. destruct (IH fuel t caps (ops ++ [w]) rest HF' ltac:(lia)) as [f' [F1 F2]]. exists f'. split; [lia|].
      rewrite getopt_operand by auto. rewrite F2, <- app_assoc. auto.
Qed.

Lemma code_eqb : forall c d, (code c =? code d) = Ascii.eqb c d.
Proof.
  intros c d. unfold code. destruct (Ascii.eqb_spec c d) as [->|N]; [lia|]. apply Z.eqb_neq. intros H. apply N.
  rewrite <- (Ascii.ascii_N_embedding c), <- (Ascii.ascii_N_embedding d). f_equal. lia.
Qed.

Lemma cluster_help : forall c x r t caps, c <> "v"%char -> c <> "t"%char -> c <> "c"%char -> cluster (String c x) r t caps = CLstop (OUsage caps).
Proof.
  intros c x r t caps H1 H2 H3. cbn [cluster].
  change 118 with (code "v"). change 116 with (code "t"). change 99 with (code "c"). change 104 with (code "h"). rewrite !code_eqb.
  destruct (Ascii.eqb_spec c "v"), (Ascii.eqb_spec c "t"), (Ascii.eqb_spec c "c"), (Ascii.eqb_spec c "h"); congruence.
Qed.

Lemma options : forall ps rest k, Forall part_ok ps -> ending rest k ->
  getopt (flat_map part_words ps ++ rest) = k (last (flat_map time_of ps) 100) (flat_map capture_of ps) (flat_map operand_of ps).
Proof.
  intros ps rest k HF HR. unfold getopt. destruct (getopt_parts ps (S (length (flat_map part_words ps ++ rest))) 100 [] [] rest HF) as [f [F1 F2]]; [rewrite app_length; lia|]. rewrite F2. rewrite app_length in F1.
  destruct f as [|f]; [lia|]. cbn [app]. destruct HR as [|ws|x ws|c x ws H1 H2 H3 H4|w [-> | ->]]; try reflexivity.
  cbn [getopt_loop]. change (code "-" =? 45) with true. cbn iota. destruct (String.eqb_spec (String "-" (String c x)) "--"); [congruence|]. rewrite cluster_help by auto. auto.
Qed.

Lemma every_line : forall args, exists ps rest k, Forall part_ok ps /\ ending rest k /\ args = flat_map part_words ps ++ rest.
Proof.
  intros args. remember (length args) as n eqn:E. revert args E. induction n as [n IH] using (well_founded_induction Wf_nat.lt_wf). intros args E.
  destruct args as [|w args]; [exists [], [], (fun t caps ops => ORun t caps ops); split; [constructor|]; split; [constructor|auto]|]. cbn [length] in E.
  assert (ADD : forall p, part_ok p -> forall rest, (length rest < n)%nat -> w :: args = part_words p ++ rest -> exists ps rest k, Forall part_ok ps /\ ending rest k /\ w :: args = flat_map part_words ps ++ rest).
  { intros p Hp rest Hl Hr. destruct (IH _ Hl rest eq_refl) as [ps [r [k [A [B C]]]]]. exists (p :: ps), r, k. split; [constructor; auto|]. split; [auto|]. rewrite Hr, C. cbn [flat_map]. rewrite app_assoc. auto. }
  assert (STOP : forall rest k, ending rest k -> w :: args = rest -> exists ps rest k, Forall part_ok ps /\ ending rest k /\ w :: args = flat_map part_words ps ++ rest).
  { intros rest k H ->. exists [], rest, k. split; [constructor|]. split; auto. }
  assert (OPND : part_ok (Operand w) -> exists ps rest k, Forall part_ok ps /\ ending rest k /\ w :: args = flat_map part_words ps ++ rest) by (intros H; apply (ADD (Operand w) H args); [lia|auto]).
  destruct w as [|d [|c x]]; [apply OPND; discriminate|apply OPND; discriminate|]. destruct (Ascii.eqb_spec d "-") as [->|N]; [|apply OPND; cbn [part_ok]; congruence].
  destruct (String.eqb_spec (String "-" (String c x)) "--") as [EQ|NE]; [rewrite EQ in *; eapply STOP; [apply End_dashes|auto]|].
  destruct (Ascii.eqb_spec c "v") as [->|Nv]; [eapply STOP; [apply (End_version x)|auto]|].
  destruct (Ascii.eqb_spec c "t") as [->|Nt].
  { destruct x as [|x0 x]; [|apply (ADD (Time1 (String x0 x)) ltac:(discriminate) args); [lia|auto]].
    destruct args as [|a args]; [eapply STOP; [apply (End_missing "-t"); auto|auto]|]. apply (ADD (Time a) I args); [cbn [length] in E; lia|auto]. }
  destruct (Ascii.eqb_spec c "c") as [->|Nc].
  { destruct x as [|x0 x]; [|apply (ADD (Capture1 (String x0 x)) ltac:(discriminate) args); [lia|auto]].
    destruct args as [|a args]; [eapply STOP; [apply (End_missing "-c"); auto|auto]|]. apply (ADD (Capture a) I args); [cbn [length] in E; lia|auto]. }
  eapply STOP; [exact (End_help c x args Nv Nt Nc NE)|auto].
Qed.

(** ** Files and output (C60) *)

Lemma pcap_written : forall cs ev, pcap_events cs = Ret ev -> written ev = map (fun c => (str_of (c_arg0 c), frame_of c)) (filter is_pcap cs) /\ printed ev = [].
Proof.
  induction cs as [|c cs IH]; intros ev H; cbn [pcap_events] in H; [apply ret_inj in H; subst; auto|]. binv H. binv H. apply ret_inj in H. subst ev. destruct (IH _ E0) as [I1 I2]. unfold written, printed in *. rewrite !flat_map_app, I1, I2. cbn [filter].
  destruct (is_pcap c) eqn:EP; unfold is_pcap in EP; destruct (c_type c) eqn:ET; try discriminate EP; try (apply ret_inj in E; subst; auto; fail). destruct (c_buf c) as [b|] eqn:EB; [|discriminate]. apply ret_inj in E. subst. cbn [flat_map app map]. unfold frame_of at 2. rewrite EB. auto.
Qed.

Lemma hex_printed : forall cs ev, hex_events cs = Ret ev -> Forall (fun c => is_hex c = true -> c_buf c <> None) cs -> printed ev = map frame_of (filter is_hex cs) /\ written ev = [].
Proof.
  induction cs as [|c cs IH]; intros ev H HF; cbn [hex_events] in H; [apply ret_inj in H; subst; auto|]. binv H. binv H. apply ret_inj in H. subst ev. destruct (IH _ E0 (Forall_inv_tail HF)) as [I1 I2]. pose proof (Forall_inv HF) as HC. cbn beta in HC. unfold written, printed in *. rewrite !flat_map_app, I1, I2. cbn [filter].
  destruct (is_hex c) eqn:EP; unfold is_hex in EP; destruct (c_type c) eqn:ET; try discriminate EP; try (apply ret_inj in E; subst; auto; fail). destruct (c_buf c) as [b|] eqn:EB; [|destruct (HC eq_refl eq_refl)]. cbn [map]. assert (EF : frame_of c = b) by (unfold frame_of; rewrite EB; auto). rewrite EF.
  destruct (c_mask c); [destruct (_ <? _); [discriminate|]|]; apply ret_inj in E; subst; auto.
Qed.

Lemma no_if_written : forall ev, Forall (fun x => event_if x <> None) ev -> written ev = [] /\ printed ev = [].
Proof. induction ev as [|x ev IH]; intros H; [auto|]. destruct (IH (Forall_inv_tail H)) as [A B]. pose proof (Forall_inv H) as X. unfold written, printed in *. cbn [flat_map]. rewrite A, B. destruct x; cbn in X; try congruence; auto. Qed.

Lemma filled_arg0 : forall all c c', filled_in all c c' -> c_arg0 c' = c_arg0 c /\ c_type c' = c_type c.
Proof.
  intros all c c' [A B]. destruct (reference c) as [n|] eqn:E.
  - apply reference_refers in E. destruct (A _ E) as [d [_ ->]]. auto.
  - rewrite B; [auto|]. intros n H. apply reference_refers in H. congruence.
Qed.

Lemma pcap_file : forall ws cs0 cs, parse_cmds ws = Ret (Some cs0) -> Forall2 (filled_in cs0) cs0 cs -> forall c, In c cs -> is_pcap c = true -> exists f, c_arg0 c = Some f.
Proof.
  intros ws cs0 cs HP HF. apply cmds_segments in HP. destruct HP as [segs [_ [HS _]]].
  assert (K : Forall (fun c => is_pcap c = true -> exists f, c_arg0 c = Some f) cs0).
  { clear HF. induction HS as [|seg c segs cs1 H HS IH]; [constructor|]. constructor; [|auto]. intros Hp. apply command_syntax in H. destruct H; try discriminate Hp; eexists; reflexivity. }
  assert (G : forall all l l', Forall2 (filled_in all) l l' -> Forall (fun c => is_pcap c = true -> exists f, c_arg0 c = Some f) l -> forall c, In c l' -> is_pcap c = true -> exists f, c_arg0 c = Some f).
  { clear. intros all l l' H. induction H as [|x y l l' HX H IH]; intros HL c [] Hp; [subst c|apply IH; auto; eapply Forall_inv_tail; eauto].
    destruct (filled_arg0 _ _ _ HX) as [A B]. rewrite A. apply (Forall_inv HL). unfold is_pcap in *. rewrite <- B. auto. }
  eauto.
Qed.

(** What is written and printed, and that it comes first. *)
Lemma files_and_output : forall ws e cs0 cs r ev, parse_cmds ws = Ret (Some cs0) -> Forall2 (filled_in cs0) cs0 cs -> argc_cmds ws e = Ret (r, ev) ->
  written ev = map (fun c => (file_of c, frame_of c)) (filter is_pcap cs) /\ printed ev = map frame_of (filter is_hex cs) /\
  exists ev1 ev2, ev = ev1 ++ ev2 /\ Forall (fun x => event_if x = None) ev1 /\ Forall (fun x => event_if x <> None) ev2.
Proof.
  intros ws e cs0 cs r ev HP HF HA. destruct (parsed_good _ _ HP) as [HG HL]. destruct (filled_all_ready cs0 cs0 _ HG HG HF) as [HR HLen].
  assert (HE : argc_cmds ws e = exec_cmds cs e) by (unfold argc_cmds; rewrite HP; cbn [bind]; eapply exec_filled; eauto; eapply undefined_of_filled; eauto). rewrite HE in HA. clear HE.
  assert (HN : Forall (fun c => reference c = None) cs).
  { assert (K : forall l l', Forall2 (filled_in cs0) l l' -> Forall (fun c => reference c = None) l') by (intros l l' X; induction X; constructor; auto; eapply filled_reference; eauto). eauto. }
  unfold exec_cmds in HA. rewrite pair_cmds_spec in HA. destruct (undefined_none cs cs HN) as [HU HQ]. change (flat_map (uref cs) cs) with (undefined_refs cs) in HU. rewrite HU, HQ in HA. cbn [length Z.of_nat map app] in HA.
  change (negb (0 =? 0)) with false in HA. cbn iota in HA. binv HA. binv HA. destruct (grouping cs (ready_fits _ HR) ltac:(lia)) as [rs [ER GR]]. rewrite ER in HA. cbn [bind] in HA.
  destruct (pcap_written _ _ E) as [W1 W2]. destruct (hex_printed _ _ E0) as [W3 W4].
  { apply Forall_forall. intros c Hc Hh HB. rewrite Forall_forall in HR. destruct (y_buf _ (HR c Hc) HB) as [Y|Y]; unfold is_hex, is_rx, is_name in *; destruct (c_type c); discriminate. }
  assert (NE : written (name_events cs) = [] /\ printed (name_events cs) = []).
  { clear. unfold written, printed, name_events. induction cs as [|c cs [I1 I2]]; [auto|]. cbn [flat_map]. rewrite !flat_map_app, I1, I2. destruct (c_type c), (c_buf c), (c_name c); auto. }
  assert (HS : exists ev2, ev = (name_events cs ++ a ++ a0) ++ ev2 /\ Forall (fun x => event_if x <> None) ev2).
  { destruct (forallb _ rs).
    - binv HA. destruct a1 as [rs1 ev4]. rewrite check_all_spec in HA. apply ret_inj, pair_inj in HA. destruct HA as [_ <-]. exists (ev4 ++ flat_map final rs1). split; [rewrite !app_assoc; auto|]. apply Forall_app. split.
      + destruct (main_sim _ _ _ _ E1 (grouped_homog _ _ GR) ltac:(rewrite (gr_names _ _ GR); apply distinct_nodup)) as [_ [K _]]. unfold known in K. eapply Forall_impl; [|exact K]. intros x [n [X _]]. congruence.
      + apply Forall_forall. intros x Hx. apply in_flat_map in Hx. destruct Hx as [q [_ X]]. unfold final in X. apply in_map_iff in X. destruct X as [c [<- _]]. discriminate.
    - apply ret_inj, pair_inj in HA. destruct HA as [_ <-]. exists []. rewrite app_nil_r, !app_assoc. auto. }
  destruct HS as [ev2 [-> K]]. destruct (no_if_written _ K) as [V1 V2]. destruct NE as [N1 N2].
  split; [|split; [|exists (name_events cs ++ a ++ a0), ev2; split; [auto|split; [|auto]]]].
  - unfold written in *. rewrite !flat_map_app, V1, N1, W1, W4, !app_nil_r. cbn [app]. apply map_ext_in. intros c Hc. apply filter_In in Hc. destruct Hc as [Hc Hp]. destruct (pcap_file _ _ _ HP HF c Hc Hp) as [f Hf]. unfold file_of. rewrite Hf. auto.
  - unfold printed in *. rewrite !flat_map_app, V2, N2, W2, W3, app_nil_r. auto.
  - rewrite !Forall_app. split; [apply no_if_name|]. split; [eapply no_if_pcap; eauto|eapply no_if_hex; eauto].
Qed.

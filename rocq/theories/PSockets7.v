(** Proofs about sockets: command lines (C91, C92). *)

From Coq Require Import Permutation.
From Verif Require Import BaseFacts SpecSockets PSockets PSockets2 PSockets3 PSockets4 PSockets5 PSockets6 PParse PCmd PPair PRecv PQuiet.

Lemma executes_finished : forall ws sch cs r ev tr rds, executes ws sch cs r ev tr rds -> exists cs0 rs m, parse_cmds ws = Ret (Some cs0) /\ Forall2 (filled_in cs0) cs0 cs /\ finished cs0 r ev tr rds rs m /\ map r_name rs = interfaces cs.
Proof.
  intros ws sch cs r ev tr rds [cs0 [H1 [H2 H3]]]. destruct (exec_finished _ _ _ _ _ _ H3) as [rs [m F]]. exists cs0, rs, m. split; [auto|]. split; [auto|]. split; [auto|].
  destruct (fi_rs _ _ _ _ _ _ _ F) as [ev0 [A1 A2]]. rewrite pair_cmds_spec in A2. cbn [fst] in A2. pose proof (undefined_of_filled _ _ H2) as HU.
  assert (E : map (paired cs0) cs0 = cs). { eapply Forall2_filled_eq; [|exact H2]. apply Forall2_map_filled. intros c Hc. unfold undefined_refs in HU. fold (uref cs0) in HU. clear - HU Hc. revert HU. generalize (uref cs0) as f. intros f HU. induction cs0 as [|x l IH]; [destruct Hc|]. cbn [flat_map] in HU. apply app_eq_nil in HU. destruct HU as [U1 U2]. destruct Hc as [<-|Hc]; auto. }
  destruct (parsed_good _ _ H1) as [G1 G2]. destruct (filled_all_ready _ _ _ G1 G1 H2) as [F1 F2]. destruct (grouping cs (ready_fits _ F1) ltac:(lia)) as [rs' [ER HG]]. rewrite E in A2. rewrite A2 in ER. apply ret_inj in ER. subst rs'. apply (gr_names _ _ HG).
Qed.

Lemma executes_env : forall ws sch cs r ev tr rds, executes ws sch cs r ev tr rds -> exists b, argc_cmds ws (MkEnv (fun _ => b) rds) = Ret (r, ev) /\ (b = false <-> trouble tr) /\ (trouble tr -> r = -1).
Proof.
  intros ws sch cs r ev tr rds H. destruct (executes_finished _ _ _ _ _ _ _ H) as [cs0 [rs [m [H1 [H2 [F _]]]]]]. exists (negb (m_failed m)). pose proof (finished_failed _ _ _ _ _ _ _ F) as FF. unfold argc_cmds. rewrite H1. cbn [bind]. split; [apply (fi_exec _ _ _ _ _ _ _ F)|]. rewrite negb_false_iff. split; [exact FF|]. intros X. apply (fi_failed _ _ _ _ _ _ _ F), FF, X.
Qed.

Lemma executes_runs : forall ws sch cs r ev tr rds, executes ws sch cs r ev tr rds -> ~ trouble tr -> runs ws (MkEnv (fun _ => true) rds) cs r ev.
Proof.
  intros ws sch cs r ev tr rds H N. destruct (executes_env _ _ _ _ _ _ _ H) as [b [A1 [A2 _]]]. destruct b; [|destruct N; apply A2; auto]. destruct H as [cs0 [H1 [H2 _]]]. split; [eauto|]. split; [auto|exact A1].
Qed.

Lemma executes_judged : forall ws sch cs r ev tr rds i, executes ws sch cs r ev tr rds -> delivered i (served rds) = map (fun a => as_seen i tr (snd a)) (taken i tr).
Proof. intros ws sch cs r ev tr rds i [cs0 [_ [_ H]]]. eapply exec_judged; eauto. Qed.

Lemma executes_own : forall ws sch cs r ev tr rds i fd ix t1 t2 t3 t4, executes ws sch cs r ev tr rds -> tr = comes_up i fd ix t1 t2 t3 t4 -> ix <> 0 -> ~ In (Failed i) t3 -> Z.of_nat (length (arrivals t2)) <= 10000 ->
  exists before after, arrivals_at ix (t3 ++ t4) = before ++ taken i tr ++ after.
Proof.
  intros ws sch cs r ev tr rds i fd ix t1 t2 t3 t4 H E NZ HF HL. destruct (executes_finished _ _ _ _ _ _ _ H) as [cs0 [rs [m [_ [_ [F _]]]]]]. destruct (fi_run _ _ _ _ _ _ _ F) as [s R]. apply (proj1 (run_own _ _ _ _ _ _ _ _ _ _ _ _ R E NZ HF) HL).
Qed.
Lemma executes_first : forall ws sch cs r ev tr rds i fd ix t1 t2 t3 t4, executes ws sch cs r ev tr rds -> tr = comes_up i fd ix t1 t2 t3 t4 -> ix <> 0 -> ~ In (Failed i) t3 -> Z.of_nat (length (dropped i tr)) < 10000 ->
  exists after, arrivals_at ix t4 = taken i tr ++ after.
Proof.
  intros ws sch cs r ev tr rds i fd ix t1 t2 t3 t4 H E NZ HF HL. destruct (executes_finished _ _ _ _ _ _ _ H) as [cs0 [rs [m [_ [_ [F _]]]]]]. destruct (fi_run _ _ _ _ _ _ _ F) as [s R]. apply (proj2 (run_own _ _ _ _ _ _ _ _ _ _ _ _ R E NZ HF) HL).
Qed.

Lemma executes_received : forall ws sch cs r ev tr rds i ifn fd ix t1 t2 t3 t4, executes ws sch cs r ev tr rds -> ~ trouble tr -> nth_error (interfaces cs) i = Some ifn -> (exists c, In c (commands_on ifn cs) /\ is_rx c = true) ->
  tr = comes_up i fd ix t1 t2 t3 t4 -> ix <> 0 -> ~ In (Failed i) t3 -> Z.of_nat (length (dropped i tr)) < 10000 -> untagged i tr = false -> (forall a, In a (arrivals_at ix t4) -> ordinary (snd a)) ->
  exists after, map (fun a => put_tag (snd a)) (arrivals_at ix t4) = received ifn ev ++ after.
Proof.
  intros ws sch cs r ev tr rds i ifn fd ix t1 t2 t3 t4 H N HI HC E NZ HF HL HU HO. destruct (executes_first _ _ _ _ _ _ _ _ _ _ _ _ _ _ H E NZ HF HL) as [after EA]. exists (map (fun a => put_tag (snd a)) after). rewrite EA, map_app. f_equal.
  pose proof (executes_judged _ _ _ _ _ _ _ i H) as HJ. pose proof (executes_runs _ _ _ _ _ _ _ H N) as HR. pose proof (received_delivered _ _ _ _ _ _ _ HR HI HC) as RD. cbn [e_rounds] in RD. rewrite RD; rewrite HJ.
  - rewrite map_map. apply map_ext. intros a. unfold as_seen. rewrite HU. auto.
  - apply Forall_map, Forall_forall. intros a Ha. unfold as_seen. rewrite HU. apply HO. rewrite EA. apply in_or_app. auto.
Qed.

Lemma executes_unknown : forall ws sch cs r ev tr rds i, executes ws sch cs r ev tr rds -> In (Index i false 0) tr -> r = -1.
Proof. intros ws sch cs r ev tr rds i [cs0 [_ [_ H]]]. eapply exec_unknown; eauto. Qed.

Lemma executes_life : forall ws sch cs r ev tr rds i, executes ws sch cs r ev tr rds -> exists p, life i Fresh tr = Some p.
Proof. intros ws sch cs r ev tr rds i H. destruct (executes_finished _ _ _ _ _ _ _ H) as [cs0 [rs [m [_ [_ [F _]]]]]]. destruct (fi_run _ _ _ _ _ _ _ F) as [s R]. eapply run_life; eauto. Qed.

Lemma executes_up : forall ws sch cs r ev tr rds i, executes ws sch cs r ev tr rds -> ~ trouble tr -> (i < length (interfaces cs))%nat -> exists fd ix t1 t2 t3 t4, tr = comes_up i fd ix t1 t2 t3 t4.
Proof.
  intros ws sch cs r ev tr rds i H N L. destruct (executes_finished _ _ _ _ _ _ _ H) as [cs0 [rs [m [_ [_ [F HN]]]]]]. destruct (fi_run _ _ _ _ _ _ _ F) as [s R]. assert (FF : m_failed m = false) by (destruct (m_failed m) eqn:X; [destruct N; apply (finished_failed _ _ _ _ _ _ _ F); auto|auto]).
  destruct (run_closed _ _ _ _ R (fi_code _ _ _ _ _ _ _ F) FF) as [EL _]. rewrite <- HN, map_length in L. destruct (nth_error (m_fds m) i) as [fd|] eqn:EN; [|apply nth_error_None in EN; lia]. exists fd. eapply run_up; [exact R|]. apply (so_usable _ _ _ _ (fi_sound _ _ _ _ _ _ _ F)). auto.
Qed.

Lemma executes_all : forall ws sch cs r ev tr rds a b i, executes ws sch cs r ev tr rds -> tr = a ++ Turn :: b -> (i < length (interfaces cs))%nat -> exists fd, In (Usable i fd) a.
Proof.
  intros ws sch cs r ev tr rds a b i H E L. destruct (executes_finished _ _ _ _ _ _ _ H) as [cs0 [rs [m [_ [_ [F HN]]]]]]. rewrite <- HN, map_length in L. eapply (so_turn _ _ _ _ (fi_sound _ _ _ _ _ _ _ F)); eauto.
Qed.

Lemma executes_closed : forall ws sch cs r ev tr rds i, executes ws sch cs r ev tr rds -> ~ trouble tr -> (life i Fresh tr = Some Fresh \/ life i Fresh tr = Some Gone) /\ (forall fd, In (Opened i fd) tr -> In (Closed i fd) tr).
Proof.
  intros ws sch cs r ev tr rds i H N. destruct (executes_finished _ _ _ _ _ _ _ H) as [cs0 [rs [m [_ [_ [F HN]]]]]]. destruct (fi_run _ _ _ _ _ _ _ F) as [s R]. assert (FF : m_failed m = false) by (destruct (m_failed m) eqn:X; [destruct N; apply (finished_failed _ _ _ _ _ _ _ F); auto|auto]).
  apply (proj2 (run_closed _ _ _ _ R (fi_code _ _ _ _ _ _ _ F) FF) i).
Qed.

Lemma executes_left : forall ws sch cs r ev tr rds i j, executes ws sch cs r ev tr rds -> In (NotOpened j) tr \/ In (Refused j) tr -> (i < j)%nat -> exists fd ix, life i Fresh tr = Some (InUse fd ix).
Proof.
  intros ws sch cs r ev tr rds i j H X L. destruct (executes_finished _ _ _ _ _ _ _ H) as [cs0 [rs [m [_ [_ [F HN]]]]]]. destruct (fi_run _ _ _ _ _ _ _ F) as [s R]. eapply run_left; eauto. apply (fi_code _ _ _ _ _ _ _ F).
Qed.

(** For the examples *)
Definition execute (ws : list string) (sch : list choice) : option (list cmd * Z * list event * list happening * list round) :=
  match parse_cmds ws with
  | Ret (Some cs) =>
      if (length (undefined_refs cs) =? 0)%nat then
        match exec_with cs sch with
        | Ret (Some (r, ev, tr, rds)) => Some (map (paired cs) cs, r, ev, tr, rds)
        | _ => None
        end
      else None
  | _ => None
  end.

Lemma execute_ok : forall ws sch cs r ev tr rds, execute ws sch = Some (cs, r, ev, tr, rds) -> executes ws sch cs r ev tr rds.
Proof.
  intros ws sch cs r ev tr rds H. unfold execute in H. destruct (parse_cmds ws) as [[cs0|]|] eqn:EP; try discriminate. destruct (_ =? _)%nat eqn:EU; [|discriminate]. destruct (exec_with cs0 sch) as [[[[[r0 ev0] tr0] rds0]|]|] eqn:EE; try discriminate. apply some_inj in H. do 4 (apply pair_inj in H; destruct H as [H ?]). subst.
  exists cs0. split; [auto|]. split; [|auto]. apply Nat.eqb_eq in EU. apply Forall2_map_filled. intros c Hc. apply undefined_nil; auto. destruct (undefined_refs cs0); [auto|discriminate].
Qed.

(** Proofs about tests in words and what arrives at the interfaces (C94). *)

From Coq Require Import Permutation.
From Verif Require Import BaseFacts SpecWire PSockets PSockets2 PSockets3 PSockets4 PSockets5 PSockets6 PSockets7 PSockets8 PProgress PProgress2 PParse PCmd PPair PRecv PQuiet PTotal PTest PTest2 PTest3.

Lemma sized_untag : forall x, sized x -> sized (untag x).
Proof. intros x [[H1 H2] H3]. split; [split; [exact H1|]|exact H3]. intros X. destruct X. auto. Qed.

Lemma executes_smooth : forall (P : rxmsg -> Prop) ws sch cs r ev tr rds, (forall x, P x -> P (untag x)) -> executes ws sch cs r ev tr rds -> Forall (smooth P) sch -> all_sent rds /\ Forall (fun rd => forall i x, rd_rx rd i = Some x -> P x) rds.
Proof.
  intros P ws sch cs r ev tr rds HP [cs0 [_ [_ H]]] F. unfold exec_with in H. destruct (pair_cmds cs0) as [[cs1 err] ev1]. destruct (negb (err =? 0)); [discriminate H|]. binv H. binv H. binv H. destruct (run sch (begin a1)) as [[m t]|] eqn:ER; [|discriminate H].
  pose proof (run_clean _ _ _ _ _ HP ER (begin_clean _ _) F) as CL. destruct m as [c fds rs1 ss gt rd ev4 failed]. destruct c as [|? ?]; [|discriminate H].
  assert (X : rd = rds). { destruct failed; [|destruct (check_all rs1)]; apply ret_inj, some_inj in H; apply pair_inj in H; destruct H as [_ <-]; auto. }
  subst rd. split; [apply (cl_sent _ _ CL)|apply (cl_fit _ _ CL)].
Qed.

Lemma wire_healthy : forall T sch cs r ev tr rds, executes (line T) sch cs r ev tr rds -> Forall (smooth sized) sch -> healthy T (MkEnv (fun _ => true) rds).
Proof.
  intros T sch cs r ev tr rds H F. destruct (executes_smooth _ _ _ _ _ _ _ _ sized_untag H F) as [S1 S2]. constructor; cbn [e_open e_rounds]; auto. intros rd i m H1 H2. rewrite Forall_forall in S2. apply (S2 rd H1 i m H2).
Qed.

Lemma wire_arrived : forall ws sch cs r ev tr rds i ix since, executes ws sch cs r ev tr rds -> listens i ix tr since ->
  exists after, on_wire ix since = arrived i (MkEnv (fun _ => true) rds) ++ after /\ length (arrived i (MkEnv (fun _ => true) rds)) = length (taken i tr).
Proof.
  intros ws sch cs r ev tr rds i ix since H [fd [t1 [t2 [t3 [E [NZ [NF [ND NU]]]]]]]]. destruct (executes_first _ _ _ _ _ _ _ _ _ _ _ _ _ _ H E NZ NF ND) as [after EA]. pose proof (executes_judged _ _ _ _ _ _ _ i H) as HJ. unfold arrived. cbn [e_rounds]. rewrite HJ. exists (map (fun a => put_tag (snd a)) after). split; [|rewrite !map_length; auto].
  unfold on_wire. rewrite EA, map_app, map_map. f_equal. apply map_ext. intros a. unfold as_seen. rewrite NU. auto.
Qed.

Lemma wire_passed : forall T sch cs ev tr rds i ifn ix since, proper T -> executes (line T) sch cs 0 ev tr rds -> Forall (smooth sized) sch -> nth_error (used T) i = Some ifn -> listening ifn T -> listens i ix tr since ->
  length (taken i tr) = length (to_expect ifn T) /\ as_expected ifn T (firstn (length (to_expect ifn T)) (on_wire ix since)).
Proof.
  intros T sch cs ev tr rds i ifn ix since HT H F HI HL HS. destruct (executes_env _ _ _ _ _ _ _ H) as [b [A1 [A2 A3]]]. assert (b = true) by (destruct b; [auto|]; assert (0 = -1) by (apply A3, A2; auto); lia). subst b.
  pose proof (wire_healthy _ _ _ _ _ _ _ H F) as HH. destruct (test_verdict _ _ _ _ HT HH A1 eq_refl i ifn HI HL) as [W [W1 W2]]. destruct (wire_arrived _ _ _ _ _ _ _ _ _ _ H HS) as [after [B1 B2]].
  pose proof (Permutation_length W1) as L1. pose proof (Forall2_length' _ _ _ _ _ W2) as L2. split; [lia|]. exists W. split; [auto|]. rewrite B1, firstn_app. replace (length (to_expect ifn T) - _)%nat with 0%nat by lia. cbn [firstn]. rewrite app_nil_r, L1, L2, firstn_all. auto.
Qed.

Lemma wire_passes : forall T sch cs r ev tr rds, proper T -> distinguishable T -> executes (line T) sch cs r ev tr rds -> Forall (smooth sized) sch -> ~ trouble tr -> all_as_expected T tr -> r = 0.
Proof.
  intros T sch cs r ev tr rds HT HD H F NT HA. destruct (executes_env _ _ _ _ _ _ _ H) as [b [A1 [A2 A3]]]. assert (b = true) by (destruct b; [auto|]; destruct NT; apply A2; auto). subst b.
  pose proof (wire_healthy _ _ _ _ _ _ _ H F) as HH. apply (test_passes _ _ _ _ HT HH HD A1). intros i ifn HI HL. destruct (HA i ifn HI HL) as [ix [since [HS [HN [W [W1 W2]]]]]]. destruct (wire_arrived _ _ _ _ _ _ _ _ _ _ H HS) as [after [B1 B2]]. rewrite B1 in HN. rewrite app_length in HN. assert (after = []) by (destruct after; [auto|cbn [length] in HN; lia]). subst after. rewrite app_nil_r in B1. exists W. rewrite B1 in W2. auto.
Qed.

(** *** It can pass *)
Definition feeding (F : nat -> list rxmsg) (N : nat) : list round :=
  map (fun j => MkRound 1 false (fun i => nth_error (F i) j) (fun _ => true) (fun _ => true)) (seq 0 N).

Lemma served_feeding : forall F l, served (map (fun j => MkRound 1 false (fun i => nth_error (F i) j) (fun _ => true) (fun _ => true)) l) = map (fun j => MkRound 1 false (fun i => nth_error (F i) j) (fun _ => true) (fun _ => true)) l.
Proof. intros F l. induction l as [|j l IH]; [auto|]. cbn [map served rd_late rd_select]. change (false || (1 <=? 0)) with false. cbn iota. rewrite IH. auto. Qed.

Lemma delivered_feeding : forall F N i, (length (F i) <= N)%nat -> delivered i (feeding F N) = F i.
Proof.
  intros F N i H. unfold feeding, delivered. rewrite flat_map_concat_map, map_map. cbn [rd_rx]. revert N H. generalize (F i) as l. intros l N H.
  assert (G : forall N (l : list rxmsg) s p, s = length p -> (length l <= N)%nat -> concat (map (fun j => match nth_error (p ++ l) j with Some m => [m] | None => [] end) (seq s N)) = l).
  { clear. induction N as [|N IH]; intros l s p E H; [destruct l; [auto|cbn [length] in H; lia]|]. cbn [seq map concat]. rewrite nth_error_app2 by lia. rewrite E, Nat.sub_diag. destruct l as [|m l].
    - cbn [nth_error app]. rewrite app_nil_r. specialize (IH [] (S (length p)) (p ++ [])). clear IH. assert (X : forall k s, (length p <= s)%nat -> concat (map (fun j => match nth_error p j with Some m => [m] | None => [] end) (seq s k)) = []).
      { induction k as [|k IHk]; intros s0 L; [auto|]. cbn [seq map concat]. rewrite (proj2 (nth_error_None p s0)) by auto. apply IHk. lia. }
      apply X. lia.
    - cbn [nth_error app]. f_equal. specialize (IH l (S (length p)) (p ++ [m])). rewrite <- app_assoc in IH. cbn [app] in IH. apply IH; [rewrite app_length; cbn [length]; lia|cbn [length] in H; lia]. }
  apply (G N l 0%nat []); auto.
Qed.

Lemma enough : forall (F : nat -> list rxmsg) k, exists N, forall i, (i < k)%nat -> (length (F i) <= N)%nat.
Proof.
  intros F. induction k as [|k [N IH]]; [exists 0%nat; lia|]. exists (Nat.max N (length (F k))). intros i H. destruct (Nat.eq_dec i k) as [->|E]; [lia|]. specialize (IH i ltac:(lia)). lia.
Qed.

Lemma wire_can : forall T F, proper T -> (forall i m, In m (F i) -> sized m) ->
  exists sch cs r ev tr rds, executes (line T) sch cs r ev tr rds /\ Forall (smooth sized) sch /\ ~ trouble tr /\ exactly_arrived T F tr.
Proof.
  intros T F HT HF. destruct (enough F (length (used T))) as [N HN]. set (e := MkEnv (fun _ => true) (feeding F N)).
  assert (HM : forall rd i m, In rd (feeding F N) -> rd_rx rd i = Some m -> sized m) by (intros rd i m H1 H2; apply in_map_iff in H1; destruct H1 as [j [<- _]]; cbn [rd_rx] in H2; apply nth_error_In in H2; apply (HF i m H2)).
  assert (HD : forall rd k, In rd (feeding F N) -> rd_send rd k = true) by (intros rd k H; apply in_map_iff in H; destruct H as [j [<- _]]; auto).
  assert (HH : healthy T e) by (constructor; cbn [e e_open e_rounds]; auto).
  destruct (test_runs _ _ HT HH) as [r [ev HA]]. destruct (test_run _ _ _ _ HT HH HA) as [cs [HR HC]]. destruct (runs_listens _ _ _ _ _ HR) as [sch [tr [rds [H1 [H2 [H3 H4]]]]]]. exists sch, cs, r, ev, tr, rds. split; [auto|]. split; [apply H4; auto|]. split; [auto|].
  intros i ifn HI HL. rewrite <- (test_interfaces _ _ HC) in HI. destruct (H3 i ifn HI) as [ix [since [A1 [A2 A3]]]]. exists ix, since. split; [auto|]. specialize (A3 (proj1 (test_rx _ _ _ HC) HL)). cbn [e e_rounds] in A3. unfold feeding in A3. rewrite served_feeding in A3. fold (feeding F N) in A3. rewrite delivered_feeding in A3. 2: { apply HN. apply nth_error_Some. rewrite <- (test_interfaces _ _ HC). congruence. }
  split; [auto|]. rewrite A2, <- A3, map_length. auto.
Qed.

Lemma exactly_wire : forall T F tr i ifn, exactly_arrived T F tr -> nth_error (used T) i = Some ifn -> listening ifn T -> exists ix since, listens i ix tr since /\ length (taken i tr) = length (on_wire ix since) /\ on_wire ix since = map put_tag (F i).
Proof.
  intros T F tr i ifn H HI HL. destruct (H i ifn HI HL) as [ix [since [A1 [A2 A3]]]]. exists ix, since. split; [auto|]. unfold on_wire. rewrite map_length. split; [rewrite A3, <- A2, map_length; auto|]. rewrite <- A2, map_map. auto.
Qed.

Lemma wire_exactly : forall T sch cs r ev tr rds, proper T -> distinguishable T -> executes (line T) sch cs r ev tr rds -> Forall (smooth sized) sch -> ~ trouble tr -> all_read T tr -> (r = 0 <-> all_as_expected T tr).
Proof.
  intros T sch cs r ev tr rds HT HD H F NT HA. split; [|eapply wire_passes; eauto]. intros ->. intros i ifn HI HL. destruct (HA i ifn HI HL) as [ix [since [A1 A2]]]. exists ix, since. split; [auto|]. split; [auto|]. destruct (wire_passed _ _ _ _ _ _ _ _ _ _ HT H F HI HL A1) as [B1 B2]. rewrite firstn_all2 in B2 by lia. auto.
Qed.

Lemma wire_can_pass : forall T F, proper T -> distinguishable T -> (forall i m, In m (F i) -> sized m) ->
  (forall i ifn, nth_error (used T) i = Some ifn -> listening ifn T -> as_expected ifn T (map put_tag (F i))) ->
  exists sch cs ev tr rds, executes (line T) sch cs 0 ev tr rds /\ Forall (smooth sized) sch /\ ~ trouble tr /\ exactly_arrived T F tr.
Proof.
  intros T F HT HD HF HE. destruct (wire_can T F HT HF) as [sch [cs [r [ev [tr [rds [H1 [H2 [H3 H4]]]]]]]]]. assert (r = 0); [|subst; exists sch, cs, ev, tr, rds; auto].
  apply (wire_passes _ _ _ _ _ _ _ HT HD H1 H2 H3). intros i ifn HI HL. destruct (exactly_wire _ _ _ _ _ H4 HI HL) as [ix [since [A1 [A2 A3]]]]. exists ix, since. split; [auto|]. split; [auto|]. rewrite A3. auto.
Qed.

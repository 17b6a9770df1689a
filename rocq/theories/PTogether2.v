(** Proofs about the program with its captures and its sockets at once, continued (C95). *)

From Coq Require Import Permutation.
From Verif Require Import BaseFacts Exec SpecExec SpecTest SpecProgram SpecTogether PTogether.
From Verif Require PChildren PChildren3 PChildren6 PPair PCmd PRecv PTotal PSockets PSockets6 PSockets7 PProgress PProgress2 PWire PProgram PMain.

(** *** Tests in words *)
Lemma fair_net : forall sch, Forall fair sch -> Forall (smooth sized) (flat_map net_of sch).
Proof.
  intros sch F. apply Forall_forall. intros c H. apply in_flat_map in H. destruct H as [a [H1 H2]]. rewrite Forall_forall in F. apply F in H1. destruct a as [k|k|]; cbn [net_of In] in H2; [destruct H2|destruct H2 as [<-|[]]; exact H1|destruct H2 as [<-|[]]]. intros k. auto.
Qed.

Lemma few_read_few : forall T ws sch cs r ev tr rds b, executes ws sch cs r ev tr rds -> few_read T tr -> few T (MkEnv b rds).
Proof.
  intros T ws sch cs r ev tr rds b H F. unfold few, few_read in *. rewrite !PProgram.length_flat_map in *. replace (map (fun x => length (arrived x (MkEnv b rds))) (seq 0 (length (used T)))) with (map (fun i => length (SpecSockets.taken i tr)) (seq 0 (length (used T)))); [exact F|].
  apply map_ext. intros i. unfold arrived. cbn [e_rounds]. rewrite (PSockets7.executes_judged _ _ _ _ _ _ _ i H), !map_length. auto.
Qed.

Lemma status_result : forall T sch cs r ev tr rds, proper T -> executes (line T) sch cs r ev tr rds -> Forall (smooth sized) sch -> few_read T tr -> r mod 256 = 0 -> r = 0.
Proof.
  intros T sch cs r ev tr rds HT H F HF Hr. destruct (PSockets7.executes_env _ _ _ _ _ _ _ H) as [b [A1 [A2 A3]]]. destruct b.
  - pose proof (PWire.wire_healthy _ _ _ _ _ _ _ H F) as HH. pose proof (PProgram.few_errors _ _ _ _ HT HH (few_read_few _ _ _ _ _ _ _ _ _ H HF) A1) as B. rewrite Z.mod_small in Hr by lia. exact Hr.
  - rewrite A3 in Hr by (apply A2; auto). discriminate Hr.
Qed.

Lemma words_executes : forall ps T sch st ev tr, Forall part_ok ps -> flat_map operand_of ps = line T -> program (flat_map SpecMain.part_words ps) sch = Ret (Some (st, ev, tr)) ->
  exists cs r rds, executes (line T) (flat_map net_of sch) cs r ev (net_seen tr) rds /\ st = r mod 256.
Proof.
  intros ps T sch st ev tr HP HO HR. destruct (program_parts _ _ _ _ _ HR) as [t [caps [ws [cs [r [rds [A [B [C _]]]]]]]]]. rewrite (PProgram.options_run _ _ HP HO) in A. injection A as <- <- <-. exists cs, r, rds. auto.
Qed.

Lemma words_passed : forall ps T sch ev tr i ifn ix since, Forall part_ok ps -> flat_map operand_of ps = line T -> proper T -> Forall fair sch ->
  program (flat_map SpecMain.part_words ps) sch = Ret (Some (0, ev, tr)) -> few_read T (net_seen tr) -> nth_error (used T) i = Some ifn -> listening ifn T -> listens i ix (net_seen tr) since ->
  length (SpecSockets.taken i (net_seen tr)) = length (to_expect ifn T) /\ as_expected ifn T (firstn (length (to_expect ifn T)) (on_wire ix since)).
Proof.
  intros ps T sch ev tr i ifn ix since HP HO HT HF HR HN HI HL HS. destruct (words_executes _ _ _ _ _ _ HP HO HR) as [cs [r [rds [X Y]]]]. assert (r = 0) by (eapply status_result; eauto; apply fair_net; auto). subst r. eapply PWire.wire_passed; eauto. apply fair_net; auto.
Qed.

Lemma words_exactly : forall ps T sch st ev tr, Forall part_ok ps -> flat_map operand_of ps = line T -> proper T -> distinguishable T -> Forall fair sch ->
  program (flat_map SpecMain.part_words ps) sch = Ret (Some (st, ev, tr)) -> few_read T (net_seen tr) -> ~ trouble (net_seen tr) -> all_read T (net_seen tr) -> (st = 0 <-> all_as_expected T (net_seen tr)).
Proof.
  intros ps T sch st ev tr HP HO HT HD HF HR HN NT HA. destruct (words_executes _ _ _ _ _ _ HP HO HR) as [cs [r [rds [X Y]]]]. pose proof (fair_net _ HF) as F. rewrite <- (PWire.wire_exactly _ _ _ _ _ _ _ HT HD X F NT HA). split; [|intros ->; subst st; reflexivity]. intros E. eapply status_result; eauto. lia.
Qed.

(** *** Any execution of the test and any life of the captures go together *)
Lemma first_lift : forall sch m m' tr pre post n, Children.run sch m = Some (m', tr) -> Children.m_code m' = [] -> Children.m_code m = pre ++ Children.Select 0 0 :: post -> Forall first_part pre -> (forall k, ~ In (Children.Interrupted k) tr) ->
  exists s1 p s2 m1 t1 m2 t2, sch = s1 ++ Children.Go p :: s2 /\ Children.step (Children.Go p) m1 = Some (m2, []) /\ Children.m_code m1 = Children.Select 0 0 :: post /\ Children.m_code m2 = post /\ Children.run s2 m2 = Some (m', t2) /\ tr = t1 ++ t2 /\
    run (map Child s1) (MkS m n) = Some (MkS m1 n, map OfChild t1).
Proof.
  induction sch as [|c sch IH]; intros m m' tr pre post n H E C F NI; cbn [Children.run] in H.
  - apply some_inj, pair_inj in H. destruct H as [<- <-]. rewrite C in E. destruct pre; discriminate E.
  - destruct (Children.step c m) as [[m1 e1]|] eqn:S1; [|discriminate H]. destruct (Children.run sch m1) as [[m2 e2]|] eqn:R1; [|discriminate H]. apply some_inj, pair_inj in H. destruct H as [-> <-].
    assert (N1 : forall k, ~ In (Children.Interrupted k) e1) by (intros k X; apply (NI k), in_or_app; auto). assert (N2 : forall k, ~ In (Children.Interrupted k) e2) by (intros k X; apply (NI k), in_or_app; auto).
    assert (GO : forall pre', Children.m_code m1 = pre' ++ Children.Select 0 0 :: post -> Forall first_part pre' -> step (Child c) (MkS m n) = Some (MkS m1 n, map OfChild e1) ->
      exists s1 p s2 m0 t1 m3 t2, c :: sch = s1 ++ Children.Go p :: s2 /\ Children.step (Children.Go p) m0 = Some (m3, []) /\ Children.m_code m0 = Children.Select 0 0 :: post /\ Children.m_code m3 = post /\ Children.run s2 m3 = Some (m', t2) /\ e1 ++ e2 = t1 ++ t2 /\
        run (map Child s1) (MkS m n) = Some (MkS m0 n, map OfChild t1)).
    { intros pre' C' F' S'. destruct (IH _ _ _ _ _ n R1 E C' F' N2) as [s1 [p [s2 [m0 [t1 [m3 [t2 [X1 [X2 [X3 [X4 [X5 [X6 X7]]]]]]]]]]]]]. exists (c :: s1), p, s2, m0, (e1 ++ t1), m3, t2. subst sch e2. cbn [map run app]. rewrite S', X7, map_app, app_assoc. auto 10. }
    assert (CS : child_step c (MkS m n) = Some (MkS m1 n, map OfChild e1)) by (unfold child_step; cbn [t_child t_net]; rewrite S1; auto).
    destruct pre as [|y pre].
    + pose proof (select_step _ _ _ _ _ S1 C) as X. destruct c as [p|k st pos|[|]].
      * destruct X as [X1 ->]. exists [], p, sch, m, [], m1, e2. auto 10.
      * destruct X as [X1 X2]. apply (GO []); auto. rewrite X1. auto.
      * destruct (N1 _ X).
      * destruct X as [X1 X2]. apply (GO []); auto. rewrite X1. auto.
    + destruct (first_step _ _ _ _ _ _ _ [] S1 C F) as [pre' [X1 [X2 _]]]. pose proof (first_not_testing (MkS m n) _ _ _ C F) as NT. apply (GO pre'); auto. destruct c as [p|k st pos|[|]]; cbn [step]; rewrite ?NT; auto.
Qed.

Lemma last_lift : forall sch m m' tr n, Children.run sch m = Some (m', tr) -> Forall last_part (Children.m_code m) -> run (map Child sch) (MkS m n) = Some (MkS m' n, map OfChild tr).
Proof.
  induction sch as [|c sch IH]; intros m m' tr n H F; cbn [Children.run] in H.
  - apply some_inj, pair_inj in H. destruct H as [<- <-]. auto.
  - destruct (Children.step c m) as [[m1 e1]|] eqn:S1; [|discriminate H]. destruct (Children.run sch m1) as [[m2 e2]|] eqn:R1; [|discriminate H]. apply some_inj, pair_inj in H. destruct H as [-> <-].
    destruct (last_step _ _ _ _ S1 F) as [F1 _]. pose proof (last_not_testing (MkS m n) F) as NT. assert (CS : child_step c (MkS m n) = Some (MkS m1 n, map OfChild e1)) by (unfold child_step; cbn [t_child t_net]; rewrite S1; auto).
    assert (S' : step (Child c) (MkS m n) = Some (MkS m1 n, map OfChild e1)) by (destruct c as [p|k st pos|[|]]; cbn [step]; rewrite ?NT; auto). cbn [map run]. rewrite S', (IH _ _ _ n R1 F1), map_app. auto.
Qed.

Lemma net_lift : forall sch m n n' tr, Sockets.run sch n = Some (n', tr) -> testing (MkS m n) = true -> run (map Net sch) (MkS m n) = Some (MkS m n', map OfNet tr).
Proof.
  induction sch as [|c sch IH]; intros m n n' tr H F; cbn [Sockets.run] in H.
  - apply some_inj, pair_inj in H. destruct H as [<- <-]. auto.
  - destruct (Sockets.step c n) as [[m1 e1]|] eqn:S1; [|discriminate H]. destruct (Sockets.run sch m1) as [[m2 e2]|] eqn:R1; [|discriminate H]. apply some_inj, pair_inj in H. destruct H as [-> <-].
    assert (CS : net_step c (MkS m n) = Some (MkS m m1, map OfNet e1)) by (unfold net_step; cbn [t_child t_net]; rewrite S1; auto).
    assert (S' : step (Net c) (MkS m n) = Some (MkS m m1, map OfNet e1)) by (destruct c; cbn [step]; rewrite ?F; auto). cbn [map run]. rewrite S'. rewrite (IH m m1 n' e2 R1 F), map_app. auto.
Qed.

Lemma child_of_child : forall l, flat_map child_of (map Child l) = l.
Proof. induction l as [|x l IH]; [auto|]. cbn [map flat_map child_of app]. f_equal. exact IH. Qed.
Lemma net_of_child : forall l, flat_map net_of (map Child l) = [].
Proof. induction l as [|x l IH]; [auto|exact IH]. Qed.
Lemma net_of_net : forall l, flat_map net_of (map Net l) = l.
Proof. induction l as [|x l IH]; [auto|]. cbn [map flat_map net_of app]. f_equal. exact IH. Qed.

(** The program evaluates to something when both parts have come to their ends. *)
Lemma program_fwd : forall args t caps ws cs0 cs rs sch s tr, getopt args = ORun t caps ws -> parse_cmds ws = Ret (Some cs0) -> Forall2 (filled_in cs0) cs0 cs -> add_all cs [] = Ret rs ->
  run sch (begin (map (fun c => fst (capture_add c)) caps) rs) = Some (s, tr) -> Children.m_code (t_child s) = [] -> Sockets.m_code (t_net s) = [] -> exists st ev, program args sch = Ret (Some (st, ev, tr)).
Proof.
  intros args t caps ws cs0 cs rs sch s tr HG HP HF HR H C1 C2. destruct (PCmd.parsed_good _ _ HP) as [G1 G2]. destruct (PPair.filled_all_ready _ _ _ G1 G1 HF) as [F1 F2]. pose proof (PRecv.undefined_of_filled _ _ HF) as HU.
  assert (EQ : map (PPair.paired cs0) cs0 = cs). { eapply PPair.Forall2_filled_eq; [|exact HF]. apply PPair.Forall2_map_filled. intros c Hc. apply PPair.undefined_nil; auto. }
  destruct (PTotal.pcap_total _ F1) as [e1 P1]. destruct (PTotal.hex_total _ F1) as [e2 P2]. destruct s as [c n]. cbn [t_child t_net] in *.
  unfold program. rewrite HG, HP. cbn [bind]. rewrite PPair.pair_cmds_spec, HU, EQ. cbn [length Z.of_nat]. change (negb (0 =? 0)) with false. cbn iota. rewrite P1. cbn [bind]. rewrite P2. cbn [bind]. rewrite HR. cbn [bind]. rewrite H, C1, C2. destruct (Sockets.m_failed n); [eauto|]. destruct (check_all (Sockets.m_rs n)). eauto.
Qed.

Lemma code_split : forall n, exists pre post, Children.code_for n 0 = pre ++ Children.Select 0 0 :: post /\ Forall first_part pre /\ Forall last_part post.
Proof.
  intros n. pose proof (phase_begin (repeat EmptyString n) []) as P. rewrite repeat_length in P. destruct P as [pre post C F1 F2 _ _ _ _|F _]; cbn [begin t_child Children.begin Children.m_code] in *; rewrite repeat_length in *; [exists pre, post; auto|].
  exfalso. unfold Children.code_for in F. apply Forall_app in F. destruct F as [_ F]. apply Forall_app in F. destruct F as [_ F]. apply Forall_app in F. destruct F as [F _]. apply Forall_inv in F. exact F.
Qed.

Lemma every_way : forall args t caps ws schN cs r ev trN rds trC, getopt args = ORun t caps ws -> executes ws schN cs r ev trN rds ->
  SpecChildren.completes (map (fun c => fst (capture_add c)) caps) 0 trC -> (forall k, ~ In (Children.Interrupted k) trC) ->
  exists sch tr, program args sch = Ret (Some (r mod 256, ev, tr)) /\ child_seen tr = trC /\ net_seen tr = trN /\ ~ In Broken tr /\ flat_map net_of sch = schN.
Proof.
  intros args t caps ws schN cs r ev trN rds trC HG HE [schC [mC [RC CC]]] NI. pose proof HE as HE0. destruct HE as [cs0 [HP [HF HX]]]. pose proof HX as HX0.
  unfold Sockets.exec_with in HX. destruct (pair_cmds cs0) as [[cs1 err] ev1] eqn:EP. destruct (negb (err =? 0)) eqn:EE; [discriminate HX|]. binv HX. binv HX. binv HX. rename a1 into rs. destruct (Sockets.run schN (Sockets.begin rs)) as [[mN t0]|] eqn:RN; [|discriminate HX].
  assert (CN : Sockets.m_code mN = [] /\ t0 = trN). { destruct mN as [c fds rs1 ss gt rd ev4 failed]. destruct c as [|? ?]; [|discriminate HX]. split; [auto|]. destruct failed; [|destruct (check_all rs1)]; apply ret_inj, some_inj in HX; apply pair_inj in HX; destruct HX as [HX _]; apply pair_inj in HX; tauto. }
  destruct CN as [CN ->].
  assert (EQ : cs1 = cs). { pose proof (PPair.pair_cmds_spec cs0) as PS. rewrite EP in PS. apply pair_inj in PS. destruct PS as [PS _]. apply pair_inj in PS. destruct PS as [-> _]. eapply PPair.Forall2_filled_eq; [|exact HF]. apply PPair.Forall2_map_filled. pose proof (PRecv.undefined_of_filled _ _ HF) as HU. intros c Hc. apply PPair.undefined_nil; auto. }
  subst cs1. set (cmds := map (fun c => fst (capture_add c)) caps) in *. destruct (code_split (length cmds)) as [pre [post [K [K1 K2]]]].
  destruct (first_lift _ _ _ _ _ _ (Sockets.begin rs) RC CC K K1 NI) as [s1 [p [s2 [m1 [t1 [m2 [t2 [X1 [X2 [X3 [X4 [X5 [X6 X7]]]]]]]]]]]]].
  assert (TS : forall n, testing (MkS m1 n) = true) by (intros n; unfold testing; cbn [t_child]; rewrite X3; auto).
  pose proof (net_lift _ m1 _ _ _ RN (TS _)) as Y1.
  assert (Y2 : run [Child (Children.Go p)] (MkS m1 mN) = Some (MkS m2 mN, [])). { cbn [run step]. rewrite TS. unfold over. cbn [t_net]. rewrite CN. cbn [negb andb]. unfold child_step. cbn [t_child t_net]. rewrite X2. auto. }
  assert (F2 : Forall last_part (Children.m_code m2)) by (rewrite X4; auto). pose proof (last_lift _ _ _ _ mN X5 F2) as Y3.
  pose proof (run_app _ _ _ _ _ _ _ X7 (run_app _ _ _ _ _ _ _ Y1 (run_app _ _ _ _ _ _ _ Y2 Y3))) as RR. cbn [app] in RR.
  set (sch := map Child s1 ++ map Net schN ++ Child (Children.Go p) :: map Child s2) in *. set (tr := map OfChild t1 ++ map OfNet trN ++ map OfChild t2) in *.
  destruct (program_fwd _ _ _ _ _ _ _ sch _ tr HG HP HF E1 RR CC CN) as [st [ev' PR]].
  assert (EN : flat_map net_of sch = schN). { unfold sch. rewrite !flat_map_app. cbn [flat_map net_of app]. rewrite !net_of_child, net_of_net, app_nil_r. auto. }
  exists sch, tr. destruct (program_parts _ _ _ _ _ PR) as [t' [caps' [ws' [cs' [r' [rds' [A [B [C _]]]]]]]]]. rewrite HG in A. injection A as <- <- <-. rewrite EN in B. destruct B as [cs0' [B1 [B2 B3]]]. rewrite HP in B1. apply ret_inj, some_inj in B1. subst cs0'. rewrite HX0 in B3. apply ret_inj, some_inj in B3. assert (Q : r' = r /\ ev' = ev) by (do 2 (apply pair_inj in B3; destruct B3 as [B3 _]); apply pair_inj in B3; destruct B3; auto). destruct Q as [-> ->]. rewrite C in PR.
  split; [exact PR|]. unfold tr. rewrite !child_seen_app, !net_seen_app, !child_seen_child, child_seen_net, !net_seen_child, net_seen_net, app_nil_r. split; [auto|]. split; [auto|]. split; [|auto]. rewrite !in_app_iff. intros [X|[X|X]]; [destruct (broken_child _ X)|destruct (broken_net _ X)|destruct (broken_child _ X)].
Qed.

(** *** It comes to its end *)
Lemma starts_underway : forall ps sch cs s tr, starts_with ps sch cs s tr -> underway (flat_map operand_of ps) (flat_map net_of sch) cs (t_net s) (net_seen tr).
Proof. intros ps sch cs s tr [_ [cs0 [rs [A [B [C D]]]]]]. destruct (run_parts _ _ _ _ D) as [_ R]. exists cs0, rs. auto. Qed.
Lemma starts_child : forall ps sch cs s tr, starts_with ps sch cs s tr -> Children.run (flat_map child_of sch) (Children.begin (map (fun c => fst (capture_add c)) (flat_map capture_of ps)) 0) = Some (t_child s, child_seen tr).
Proof. intros ps sch cs s tr [_ [cs0 [rs [A [B [C D]]]]]]. destruct (run_parts _ _ _ _ D) as [R _]. exact R. Qed.

Lemma number_cons : forall f a l, number f (a :: l) = (if f a then 1 else 0) + number f l.
Proof. intros f a l. unfold number. cbn [filter]. destruct (f a); cbn [length]; lia. Qed.

Lemma number_counts : forall sch, number counts sch <= Z.of_nat (length (flat_map child_of sch)) + count own_step (flat_map net_of sch).
Proof.
  induction sch as [|a sch IH]; [reflexivity|]. rewrite number_cons. cbn [flat_map]. rewrite app_length. unfold count in *. rewrite filter_app, app_length. destruct a as [c|c|]; cbn [child_of net_of counts filter length]; [lia|destruct (own_step c); cbn [length]; lia|]. change (own_step eintr) with true. cbn iota. cbn [length]. lia.
Qed.
Lemma number_wakes : forall sch, number wakes sch = count is_wake (flat_map net_of sch).
Proof.
  induction sch as [|a sch IH]; [reflexivity|]. rewrite number_cons. cbn [flat_map]. unfold count in *. rewrite filter_app, app_length, IH. destruct a as [c|c|]; cbn [net_of wakes filter length]; [lia|destruct (is_wake c); cbn [length]; lia|]. change (is_wake eintr) with true. cbn iota. cbn [length]. lia.
Qed.

Lemma program_steps : forall ps sch cs s tr, starts_with ps sch cs s tr -> let n := Z.of_nat (length (interfaces cs)) in
  number counts sch <= 8 * Z.of_nat (length (flat_map capture_of ps)) + 20011 + 10008 * n + 1 + (n + 2) * number wakes sch.
Proof.
  intros ps sch cs s tr H. cbv zeta. pose proof (PProgress2.underway_steps _ _ _ _ _ (starts_underway _ _ _ _ _ H)) as A. cbv zeta in A. pose proof (PChildren.always_ends _ _ _ _ _ (starts_child _ _ _ _ _ H)) as B. rewrite map_length in B. pose proof (number_counts sch) as C. rewrite number_wakes. lia.
Qed.

(** The sockets' schedule that remains. *)
Lemma net_run_split : forall a b m m' t, Sockets.run (a ++ b) m = Some (m', t) -> exists m1 t1 t2, Sockets.run a m = Some (m1, t1) /\ Sockets.run b m1 = Some (m', t2) /\ t = t1 ++ t2.
Proof.
  induction a as [|c a IH]; intros b m m' t H; cbn [app Sockets.run] in *; [exists m, [], t; auto|]. destruct (Sockets.step c m) as [[m1 e1]|]; [|discriminate H]. destruct (Sockets.run (a ++ b) m1) as [[m2 e2]|] eqn:E; [|discriminate H]. apply some_inj, pair_inj in H. destruct H as [-> <-]. destruct (IH _ _ _ _ E) as [m3 [t1 [t2 [X1 [X2 ->]]]]]. rewrite X1. exists m3, (e1 ++ t1), t2. rewrite app_assoc. auto.
Qed.

(** Up to select. *)
Lemma reaches_select : forall m pre post n, Children.m_code m = pre ++ Children.Select 0 0 :: post -> Forall first_part pre ->
  exists k m1 t1, run (repeat (Child (Children.Go (-1))) k) (MkS m n) = Some (MkS m1 n, map OfChild t1) /\ Children.m_code m1 = Children.Select 0 0 :: post.
Proof.
  intros m. remember (PChildren.left_over m) as w eqn:W. revert m W. induction w as [w IH] using lt_wf_ind. intros m W pre post n C F. destruct pre as [|y pre]; [exists 0%nat, m, []; auto|].
  destruct (PChildren.never_stuck m) as [m1 [e S1]]; [rewrite C; discriminate|]. destruct (first_step _ _ _ _ _ _ _ [] S1 C F) as [pre' [X1 [X2 _]]]. pose proof (PChildren.step_less _ _ _ _ S1) as L.
  assert (L' : (PChildren.left_over m1 < w)%nat) by lia. destruct (IH _ L' m1 eq_refl pre' post n X1 X2) as [k [m2 [t2 [R E]]]]. exists (S k), m2, (e ++ t2). split; [|auto]. cbn [repeat run step]. rewrite (first_not_testing (MkS m n) _ _ _ C F). cbn [andb]. unfold child_step. cbn [t_child t_net]. rewrite S1, R, map_app. auto.
Qed.

Lemma reaches_end : forall cmds sch m tr n, Children.run sch (Children.begin cmds 0) = Some (m, tr) -> Forall last_part (Children.m_code m) ->
  exists k m' t', run (repeat (Child (Children.Go (-1))) k) (MkS m n) = Some (MkS m' n, map OfChild t') /\ Children.m_code m' = [].
Proof.
  intros cmds sch m tr n R F. destruct (PChildren6.finishes _ _ _ _ _ R) as [k [m' [t' [R' E]]]]. exists k, m', t'. split; [|auto]. replace (repeat (Child (Children.Go (-1))) k) with (map Child (repeat (Children.Go (-1)) k)) by (clear; induction k as [|k IH]; [auto|cbn [repeat map]; rewrite IH; auto]). apply last_lift; auto.
Qed.


Lemma tame_net : forall sch, Forall tame sch -> Forall behaved (flat_map net_of sch).
Proof.
  intros sch F. apply Forall_forall. intros c H. apply in_flat_map in H. destruct H as [a [H1 H2]]. rewrite Forall_forall in F. apply F in H1. destruct a as [k|k|]; cbn [net_of In] in H2; [destruct H2|destruct H2 as [<-|[]]; exact H1|destruct H2 as [<-|[]]]. intros k. auto.
Qed.
Lemma idle_go : forall k, Forall on_its_own (repeat (Child (Children.Go (-1))) k).
Proof. induction k; constructor; auto. exact I. Qed.

Lemma program_ends : forall ps sch cs s tr, starts_with ps sch cs s tr -> no_padding cs -> Forall tame sch ->
  exists sch2 st ev tr2, program (flat_map SpecMain.part_words ps) (sch ++ sch2) = Ret (Some (st, ev, tr ++ tr2)) /\ Forall on_its_own sch2.
Proof.
  intros ps sch cs s tr H NP F. pose proof (starts_underway _ _ _ _ _ H) as HU. pose proof (starts_child _ _ _ _ _ H) as HC. destruct H as [HP [cs0 [rs [A [B [C D]]]]]]. set (cmds := map (fun c => fst (capture_add c)) (flat_map capture_of ps)) in *. pose proof (phase_run _ _ _ _ _ D) as PH. destruct s as [c n]. cbn [t_child t_net] in *.
  assert (HG : getopt (flat_map SpecMain.part_words ps) = ORun (last (flat_map time_of ps) 100) (flat_map capture_of ps) (flat_map operand_of ps)) by (pose proof (PMain.options ps [] _ HP End_none) as E; rewrite app_nil_r in E; rewrite E; reflexivity).
  assert (FIN : exists sch2 s2 tr2, run sch2 (MkS c n) = Some (s2, tr2) /\ Children.m_code (t_child s2) = [] /\ Sockets.m_code (t_net s2) = [] /\ Forall on_its_own sch2).
  { destruct PH as [pre post K1 K2 K3 _ _ _ _|K O]; cbn [t_child] in *.
    - destruct (reaches_select _ _ _ n K1 K2) as [k [c1 [t1 [R1 E1]]]].
      destruct (PProgress2.underway_ends _ _ _ _ _ HU NP (tame_net _ F)) as [schN [r [ev [trN [rds [X1 [X2 [X3 _]]]]]]]].
      assert (RN : exists n1, Sockets.run schN n = Some (n1, trN) /\ Sockets.m_code n1 = []).
      { destruct X1 as [cs0' [Y1 [Y2 Y3]]]. rewrite A in Y1. apply ret_inj, some_inj in Y1. subst cs0'. unfold Sockets.exec_with in Y3. destruct (pair_cmds cs0) as [[cs1 err] ev1] eqn:EP. destruct (negb (err =? 0)); [discriminate Y3|]. binv Y3. binv Y3. binv Y3.
        assert (EQ : cs1 = cs). { pose proof (PPair.pair_cmds_spec cs0) as PS. rewrite EP in PS. apply pair_inj in PS. destruct PS as [PS _]. apply pair_inj in PS. destruct PS as [-> _]. eapply PPair.Forall2_filled_eq; [|exact B]. apply PPair.Forall2_map_filled. pose proof (PRecv.undefined_of_filled _ _ B) as HUU. intros x Hx. apply PPair.undefined_nil; auto. }
        subst cs1. rewrite C in E2. apply ret_inj in E2. subst a1. destruct (Sockets.run _ (Sockets.begin rs)) as [[n1 t0]|] eqn:RR; [|discriminate Y3].
        assert (CN : Sockets.m_code n1 = [] /\ t0 = net_seen tr ++ trN). { destruct n1 as [cd fds rs1 ss gt rd ev4 failed]. destruct cd as [|? ?]; [|discriminate Y3]. split; [auto|]. destruct failed; [|destruct (check_all rs1)]; apply ret_inj, some_inj in Y3; apply pair_inj in Y3; destruct Y3 as [Y3 _]; apply pair_inj in Y3; tauto. }
        destruct CN as [CN ->]. destruct (net_run_split _ _ _ _ _ RR) as [m1 [t2 [t3 [Z1 [Z2 Z3]]]]]. destruct (run_parts _ _ _ _ D) as [_ RD]. cbn [t_net begin] in RD. rewrite RD in Z1. apply some_inj, pair_inj in Z1. destruct Z1 as [<- <-]. apply app_inv_head in Z3. subst t3. exists n1. auto. }
      destruct RN as [n1 [RN CN]]. assert (TS : forall x, testing (MkS c1 x) = true) by (intros x; unfold testing; cbn [t_child]; rewrite E1; auto). pose proof (net_lift _ c1 _ _ _ RN (TS _)) as R2.
      destruct (PChildren.never_stuck c1) as [c2 [e2 S2]]; [rewrite E1; discriminate|]. pose proof (select_step _ _ _ _ _ S2 E1) as [G1 ->].
      assert (R3 : run [Child (Children.Go (-1))] (MkS c1 n1) = Some (MkS c2 n1, [])) by (cbn [run step]; rewrite TS; unfold over; cbn [t_net]; rewrite CN; cbn [negb andb]; unfold child_step; cbn [t_child t_net]; rewrite S2; auto).
      assert (RC2 : exists schc trc, Children.run schc (Children.begin cmds 0) = Some (c2, trc)).
      { destruct (run_parts _ _ _ _ (run_app _ _ _ _ _ _ _ R1 (run_app _ _ _ _ _ _ _ R2 R3))) as [RP _]. cbn [t_child] in RP. do 2 eexists. eapply PChildren3.run_app; [exact HC|exact RP]. }
      destruct RC2 as [schc [trc RC2]]. assert (F2 : Forall last_part (Children.m_code c2)) by (rewrite G1; auto). destruct (reaches_end _ _ _ _ n1 RC2 F2) as [k2 [c3 [t4 [R4 E4]]]].
      do 3 eexists. split; [eapply run_app; [exact R1|eapply run_app; [exact R2|eapply run_app; [exact R3|exact R4]]]|]. split; [exact E4|]. split; [exact CN|]. repeat (apply Forall_app; split); try apply idle_go; [|repeat constructor].
      apply Forall_forall. intros x Hx. apply in_map_iff in Hx. destruct Hx as [y [<- Hy]]. rewrite forallb_forall in X2. rewrite Forall_forall in X3. split; auto.
    - destruct (reaches_end _ _ _ _ n HC K) as [k2 [c3 [t4 [R4 E4]]]]. exists (repeat (Child (Children.Go (-1))) k2). do 2 eexists. split; [exact R4|]. split; [exact E4|]. split; [|apply idle_go]. unfold over in O. cbn [t_net] in *. destruct (Sockets.m_code n); [auto|discriminate O]. }
  destruct FIN as [sch2 [s2 [tr2 [R2 [E1 [E2 F2]]]]]]. pose proof (run_app _ _ _ _ _ _ _ D R2) as RR. destruct (program_fwd _ _ _ _ _ _ _ _ _ _ HG A B C RR E1 E2) as [st [ev PR]]. exists sch2, st, ev, tr2. auto.
Qed.

(** The captures make no difference to the test. *)
Lemma nobody_completes : exists tr, SpecChildren.completes [] 0 tr /\ forall k, ~ In (Children.Interrupted k) tr.
Proof.
  destruct (PChildren6.finishes [] 0 [] (Children.begin [] 0) [] eq_refl) as [k [m [tr [R E]]]]. exists tr. split; [exists (repeat (Children.Go (-1)) k), m; auto|]. intros j X. apply in_split in X. destruct X as [a [b X]].
  assert (HH : SpecChildren.happens [] 0 tr) by (do 2 eexists; exact R). destruct (PChildren6.ended_before _ _ _ HH a _ b X) as [i [p [st Y]]]. apply (PChildren6.no_children _ _ HH i p st). rewrite X. apply in_or_app. auto.
Qed.

Lemma captures_aside : forall args args' sch st ev tr t t' caps ws, program args sch = Ret (Some (st, ev, tr)) -> getopt args = ORun t caps ws -> getopt args' = ORun t' [] ws ->
  exists sch' tr', program args' sch' = Ret (Some (st, ev, tr')) /\ net_seen tr' = net_seen tr.
Proof.
  intros args args' sch st ev tr t t' caps ws H G G'. destruct (program_parts _ _ _ _ _ H) as [t0 [caps0 [ws0 [cs [r [rds [A [B [C _]]]]]]]]]. rewrite G in A. injection A as <- <- <-. destruct nobody_completes as [trC [X1 X2]]. destruct (every_way _ _ _ _ _ _ _ _ _ _ _ G' B X1 X2) as [sch' [tr' [Y1 [_ [Y2 _]]]]]. exists sch', tr'. rewrite C. auto.
Qed.

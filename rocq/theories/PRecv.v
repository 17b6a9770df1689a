(** What is received on one interface (C41-C45). *)

From Coq Require Import Permutation.
From Verif Require Import PTextIp PTextNum Frame Exec SpecExec PParse PMatch PCmd PPair PExec.

Lemma filter_all : forall A (p : A -> bool) l, (forall x, In x l -> p x = true) -> filter p l = l.
Proof. intros A p. induction l as [|x l IH]; intros H; [auto|]. cbn [filter]. rewrite (H x (or_introl eq_refl)), IH; auto. intros y Hy. apply H. right. auto. Qed.

(** *** Elementary steps *)
Definition estep (r r' : resource) (ev : list event) : Prop :=
  (exists b, rx_step b r r' ev) \/ (exists ok more, tx_step ok more r r' ev).

Inductive path : resource -> resource -> list event -> Prop :=
| path_nil : forall r, path r r []
| path_cons : forall r r1 r' ev1 ev2, estep r r1 ev1 -> path r1 r' ev2 -> path r r' (ev1 ++ ev2).

Lemma path_app : forall r r1 ev1, path r r1 ev1 -> forall r' ev2, path r1 r' ev2 -> path r r' (ev1 ++ ev2).
Proof. intros r r1 ev1 H. induction H as [|r r0 r1 e1 e2 H1 H IH]; intros r' ev2 K; [auto|]. rewrite <- app_assoc. eapply path_cons; eauto. Qed.

Lemma path_one : forall r r' ev, estep r r' ev -> path r r' ev.
Proof. intros r r' ev H. rewrite <- (app_nil_r ev). eapply path_cons; [eauto|constructor]. Qed.

Lemma tx_part_path : forall send more w r r' ev, tx_part send more w r r' ev -> path r r' ev.
Proof. intros send more w r r' ev [[_ [k [own [H _]]]]|[-> [-> _]]]; [apply path_one; right; eauto|constructor]. Qed.

Lemma txs_path : forall send w r r' ev, txs send w r r' ev -> path r r' ev.
Proof. intros send w r r' ev H. induction H as [r r' ev H|r r1 r' e1 e2 H H1 IH]; [eapply tx_part_path; eauto|]. eapply path_app; [eapply tx_part_path; eauto|auto]. Qed.

Lemma rx_part_path : forall rd i r r' ev, rx_part rd i r r' ev -> path r r' ev.
Proof. intros rd i r r' ev [[_ [m [b [_ [_ H]]]]]|[-> [-> _]]]; [apply path_one; left; eauto|constructor]. Qed.

Lemma rounds_path : forall i rds r r' ev, rounds i rds r r' ev -> path r r' ev.
Proof.
  intros i rds r r' ev H. induction H as [r|rd rds r r1 r' e1 e2 [r2 [f1 [f2 [A [B ->]]]]] H IH]; [constructor|]. eapply path_app; [|exact IH].
  eapply path_app; [eapply rx_part_path; eauto|eapply txs_path; eauto].
Qed.

Lemma estep_local : forall r r' ev, homog r -> estep r r' ev -> evolves r r' /\ about (r_name r) ev.
Proof.
  intros r r' ev HH [[b [hit [cs [H1 [-> ->]]]]]|[ok [more H]]]; [|eapply about_sent; eauto].
  split; [unfold evolves; eapply match_same; eauto|]. constructor; [|constructor].
  destruct (match_spec _ _ _ _ H1) as [[-> _]|[l [c [q [-> [E _]]]]]]; [reflexivity|]. cbn [event_if]. f_equal. apply HH. rewrite E. apply in_or_app. right. left. auto.
Qed.

Lemma path_local : forall r r' ev, path r r' ev -> homog r -> evolves r r' /\ about (r_name r) ev.
Proof.
  intros r r' ev H. induction H as [r|r r1 r' e1 e2 H H1 IH]; intros HH; [split; [apply evolves_refl|constructor]|].
  destruct (estep_local _ _ _ HH H) as [A1 A2]. destruct (IH (evolves_homog _ _ A1 HH)) as [B1 B2]. split; [eapply evolves_trans; eauto|]. apply Forall_app. split; [auto|].
  rewrite <- (evolves_name _ _ A1). auto.
Qed.

(** *** The structure of a run *)
Lemma served_open : forall e rs, (forall ifn, In ifn (map r_name rs) -> e_open e ifn = true) -> forallb (fun r => e_open e (r_name r)) rs = true.
Proof. intros e rs H. apply forallb_forall. intros r Hr. apply H. apply in_map. auto. Qed.

Definition no_if (ev : list event) : Prop := Forall (fun x => event_if x = None /\ is_error x = false) ev.

Lemma name_events_if : forall cs, no_if (name_events cs).
Proof. intros cs. eapply Forall_impl; [|apply inventory_events]. intros [] X; auto; destruct X. Qed.

Lemma pcap_events_if : forall cs ev, pcap_events cs = Ret ev -> no_if ev.
Proof.
  induction cs as [|c cs IH]; intros ev H; cbn [pcap_events] in H; [apply ret_inj in H; subst; constructor|]. binv H. binv H. apply ret_inj in H. subst ev. apply Forall_app. split; [|apply IH; auto].
  destruct (c_type c); try (apply ret_inj in E; subst; constructor; fail). destruct (c_buf c); [|discriminate]. apply ret_inj in E. subst. repeat constructor.
Qed.

Lemma hex_events_if : forall cs ev, hex_events cs = Ret ev -> no_if ev.
Proof.
  induction cs as [|c cs IH]; intros ev H; cbn [hex_events] in H; [apply ret_inj in H; subst; constructor|]. binv H. binv H. apply ret_inj in H. subst ev. apply Forall_app. split; [|apply IH; auto].
  destruct (c_type c); try (apply ret_inj in E; subst; constructor; fail). destruct (c_buf c); [|apply ret_inj in E; subst; constructor].
  destruct (c_mask c); [|apply ret_inj in E; subst; repeat constructor]. destruct (_ <? _); [discriminate|]. apply ret_inj in E. subst. repeat constructor.
Qed.

Lemma on_no_if : forall n ev, no_if ev -> on n ev = [].
Proof. intros n ev H. induction H as [|x ev [H1 _] H IH]; [auto|]. unfold on in *. cbn [filter]. rewrite H1, IH. auto. Qed.

Lemma err_no_if : forall ev, no_if ev -> filter is_error ev = [].
Proof. intros ev H. induction H as [|x ev [_ H1] H IH]; [auto|]. cbn [filter]. rewrite H1, IH. auto. Qed.

(** The lines at the end. *)
Definition no_rx (c : cmd) : event := EvNoRx (str_of (c_arg0 c)) (frame_of c) (c_name c) (c_mask c).
Definition final (r : resource) : list event := map no_rx (filter missing (r_cmds r)).

Lemma check_all_spec : forall rs, check_all rs = (fold_right Z.add 0 (map r_err rs) + Z.of_nat (length (flat_map final rs)), flat_map final rs).
Proof.
  unfold check_all. induction rs as [|r rs IH]; [reflexivity|]. cbn [fold_right map flat_map]. rewrite IH. clear IH.
  assert (HC : check_res r = (r_err r + Z.of_nat (length (final r)), final r)) by (unfold check_res, final, zlen; rewrite map_length; auto).
  rewrite HC, app_length. f_equal. lia.
Qed.

Lemma final_about : forall r, homog r -> about (r_name r) (final r).
Proof.
  intros r HH. unfold about, final. rewrite Forall_map. apply Forall_forall. intros c Hc. apply filter_In in Hc. cbn [no_rx event_if]. rewrite HH by tauto. auto.
Qed.

Lemma final_pass : forall rs i, pass (fun _ r r' ev => r' = r /\ ev = final r) i rs rs (flat_map final rs).
Proof. induction rs as [|r rs IH]; intros i; [constructor|]. cbn [flat_map]. constructor; auto. Qed.

Lemma final_local : local (fun _ r r' ev => r' = r /\ ev = final r).
Proof. intros i r r' ev HH [-> ->]. split; [apply evolves_refl|apply final_about; auto]. Qed.

Lemma errors_split : forall ns ev (p : event -> bool), NoDup ns -> known ns ev ->
  fold_right Z.add 0 (map (fun n => Z.of_nat (length (filter p (on n ev)))) ns) = Z.of_nat (length (filter p ev)).
Proof.
  intros ns ev p HN H. induction H as [|x ev [n [H1 H2]] H IH].
  - cbn. clear HN. induction ns as [|n ns IHn]; [auto|]. cbn [map fold_right]. rewrite IHn. auto.
  - assert (HX : forall m, Z.of_nat (length (filter p (on m (x :: ev)))) = (if String.eqb n m then (if p x then 1 else 0) else 0) + Z.of_nat (length (filter p (on m ev)))).
    { intros m. unfold on. cbn [filter]. rewrite H1. destruct (String.eqb n m); [|auto]. cbn [filter]. destruct (p x); cbn [length]; lia. }
    erewrite map_ext by (intros m; apply HX). assert (HS : forall l, fold_right Z.add 0 (map (fun m => (if String.eqb n m then if p x then 1 else 0 else 0) + Z.of_nat (length (filter p (on m ev)))) l) =
      fold_right Z.add 0 (map (fun m => if String.eqb n m then if p x then 1 else 0 else 0) l) + fold_right Z.add 0 (map (fun m => Z.of_nat (length (filter p (on m ev)))) l)).
    { induction l as [|m l IHl]; [auto|]. cbn [map fold_right]. rewrite IHl. lia. }
    rewrite HS, IH. clear HS HX IH.
    assert (HO : fold_right Z.add 0 (map (fun m => if String.eqb n m then if p x then 1 else 0 else 0) ns) = if p x then 1 else 0).
    { clear H. induction ns as [|m ns IHn]; [destruct H2|]. cbn [map fold_right]. apply NoDup_cons_iff in HN. destruct HN as [HN1 HN2]. destruct (String.eqb_spec n m) as [->|Hn].
      - assert (HZ : forall l, ~ In m l -> fold_right Z.add 0 (map (fun q => if String.eqb m q then if p x then 1 else 0 else 0) l) = 0).
        { induction l as [|q l IHl]; intros X; [auto|]. cbn [map fold_right]. rewrite IHl by (intros Y; apply X; right; auto). replace (String.eqb m q) with false; [lia|]. symmetry. apply String.eqb_neq. intros ->. apply X. left. auto. }
        rewrite HZ by auto. lia.
      - rewrite IHn; [lia|auto|]. destruct H2; [congruence|auto]. }
    rewrite HO. cbn [filter]. destruct (p x); cbn [length]; lia.
Qed.

(** Errors counted while receiving. *)
Lemma estep_errors : forall r r' ev, estep r r' ev -> r_err r' = r_err r + Z.of_nat (length (filter is_error ev)).
Proof.
  intros r r' ev [[b [hit [cs [_ [-> ->]]]]]|[ok [more [cs [H ->]]]]].
  - destruct hit; cbn; lia.
  - apply tx_one_spec in H. destruct H as [l [c [q [_ [_ [_ [_ [_ ->]]]]]]]]. unfold send_events. cbn [r_err filter is_error]. destruct (ok && _); cbn; lia.
Qed.

Lemma path_errors : forall r r' ev, path r r' ev -> r_err r' = r_err r + Z.of_nat (length (filter is_error ev)).
Proof.
  intros r r' ev H. induction H as [r|r r1 r' e1 e2 H H1 IH]; [cbn; lia|]. rewrite IH, (estep_errors _ _ _ H), filter_app, app_length. lia.
Qed.

Lemma sum_errors : forall rs rs' ev, (forall j r, nth_error rs j = Some r -> exists r', nth_error rs' j = Some r' /\ r_err r' = Z.of_nat (length (filter is_error (on (r_name r) ev)))) ->
  length rs' = length rs -> map r_err rs' = map (fun n => Z.of_nat (length (filter is_error (on n ev)))) (map r_name rs).
Proof.
  induction rs as [|r rs IH]; intros [|r' rs'] ev H HL; try discriminate; [auto|]. cbn [map]. f_equal.
  - destruct (H 0%nat r eq_refl) as [r1 [H1 H2]]. cbn in H1. assert (r1 = r') by congruence. subst. auto.
  - apply IH; [|cbn in HL; lia]. intros j q Hj. apply (H (S j) q). auto.
Qed.

Lemma Forall2_length' : forall A B (R : A -> B -> Prop) l l', Forall2 R l l' -> length l = length l'.
Proof. intros A B R l l' H. induction H; cbn; auto. Qed.

Lemma grouped_homog : forall cs rs, grouped cs rs -> Forall homog rs.
Proof.
  intros cs rs [_ G]. apply Forall_forall. intros r Hr c Hc. destruct (G _ Hr) as [G1 _]. rewrite G1 in Hc. unfold commands_on in Hc. apply filter_In in Hc. destruct Hc as [_ Hc].
  apply andb_prop in Hc. destruct Hc as [_ Hc]. unfold on_if in Hc. destruct (c_arg0 c); [|discriminate]. apply String.eqb_eq in Hc. auto.
Qed.

Lemma grouped_nth : forall cs rs i ifn, grouped cs rs -> nth_error (interfaces cs) i = Some ifn -> nth_error rs i = Some (MkRes (commands_on ifn cs) 0).
Proof.
  intros cs rs i ifn [G1 G2] H. rewrite <- G1, nth_error_map in H. destruct (nth_error rs i) as [r|] eqn:E; [|discriminate]. cbn in H. assert (r_name r = ifn) by congruence. subst ifn.
  destruct (G2 r (nth_error_In _ _ E)) as [A [B _]]. destruct r as [rc re]. cbn [r_cmds r_err] in A, B. rewrite <- A, <- B. auto.
Qed.

Lemma commands_name : forall cs rs i ifn, grouped cs rs -> nth_error (interfaces cs) i = Some ifn -> r_name (MkRes (commands_on ifn cs) 0) = ifn.
Proof.
  intros cs rs i ifn HG H. pose proof (grouped_nth _ _ _ _ HG H) as K. destruct HG as [G1 _]. rewrite <- G1, nth_error_map, K in H. cbn in H. congruence.
Qed.

Lemma ready_fits : forall cs, Forall cmd_ready cs -> Forall fits cs.
Proof. intros cs H. eapply Forall_impl; [|exact H]. intros c [A B C D E F]. exact B. Qed.

Lemma undefined_of_filled : forall cs0 cs, Forall2 (filled_in cs0) cs0 cs -> undefined_refs cs0 = [].
Proof.
  intros cs0 cs H. unfold undefined_refs. fold (uref cs0). revert H. generalize cs0 at 1 3 as all. intros all H.
  assert (K : forall l l', Forall2 (filled_in all) l l' -> flat_map (uref all) l = []).
  { clear. intros l l' H. induction H as [|c c' l l' [A B] H IH]; [auto|]. cbn [flat_map]. rewrite IH, app_nil_r. unfold uref. destruct (reference c) as [n|] eqn:E; [|auto].
    apply reference_refers in E. destruct (A _ E) as [d [[u [v [X [[D1 [D2 D3]] _]]]] _]]. replace (definedb all n) with true; [auto|]. symmetry. unfold definedb. apply existsb_exists. exists d.
    split; [rewrite X; apply in_or_app; right; left; auto|]. rewrite D1, D2, String.eqb_refl. destruct (c_buf d); [auto|congruence]. }
  eauto.
Qed.

(** The commands of a run. *)
Lemma run_ready : forall ws e cs r ev, runs ws e cs r ev -> Forall cmd_ready cs /\ (length cs <= 100)%nat /\ exec_cmds cs e = Ret (r, ev).
Proof.
  intros ws e cs r ev [[cs0 [H1 H2]] [_ H3]]. destruct (parsed_good _ _ H1) as [G1 G2]. destruct (filled_all_ready _ _ _ G1 G1 H2) as [F1 F2]. split; [auto|]. split; [lia|].
  unfold argc_cmds in H3. rewrite H1 in H3. cbn [bind] in H3. rewrite <- H3. symmetry. apply exec_filled; auto. eapply undefined_of_filled; eauto.
Qed.

Definition iface_state (cs : list cmd) (ifn : string) : resource := MkRes (commands_on ifn cs) 0.

Lemma run_struct : forall ws e cs r ev, runs ws e cs r ev -> exists n rs rs',
  grouped cs rs /\ (n <= length (served (e_rounds e)))%nat /\ ((n < length (served (e_rounds e)))%nat -> existsb active rs' = false) /\
  (forall i ifn, nth_error (interfaces cs) i = Some ifn -> exists r' ev', nth_error rs' i = Some r' /\
     rounds i (firstn n (served (e_rounds e))) (iface_state cs ifn) r' ev' /\ on ifn ev = ev' ++ final r') /\
  (forall ifn, ~ In ifn (interfaces cs) -> on ifn ev = []) /\
  r = Z.of_nat (length (filter is_error ev)) /\ known (interfaces cs) (filter is_error ev).
Proof.
  intros ws e cs r ev HR. destruct (run_ready _ _ _ _ _ HR) as [HC [HL HX]]. destruct HR as [[cs0 [H1 H2]] [HO _]].
  assert (HN : Forall (fun c => reference c = None) cs).
  { destruct (parsed_good _ _ H1) as [G1 _]. assert (K : forall l l', Forall2 (filled_in cs0) l l' -> Forall (fun c => reference c = None) l') by (intros l l' X; induction X; constructor; auto; eapply filled_reference; eauto). eauto. }
  unfold exec_cmds in HX. rewrite pair_cmds_spec in HX. destruct (undefined_none cs cs HN) as [HU HP]. change (flat_map (uref cs) cs) with (undefined_refs cs) in HU. rewrite HU, HP in HX. cbn [length Z.of_nat map app] in HX.
  change (negb (0 =? 0)) with false in HX. cbn iota in HX. binv HX. binv HX. destruct (grouping cs (ready_fits _ HC) HL) as [rs [ER HG]]. rewrite ER in HX. cbn [bind] in HX.
  rewrite served_open in HX by (intros ifn Hi; apply HO; rewrite <- (gr_names _ _ HG); auto). binv HX. destruct a1 as [rs' ev4]. rewrite check_all_spec in HX. apply ret_inj in HX. apply pair_inj in HX. destruct HX as [<- <-].
  pose proof (grouped_homog _ _ HG) as HH. assert (HD : NoDup (map r_name rs)) by (rewrite (gr_names _ _ HG); apply distinct_nodup).
  destruct (main_sim _ _ _ _ E1 HH HD) as [A1 [A2 [n [A3 [A4 A5]]]]]. exists n, rs, rs'.
  pose proof (evolves_names _ _ A1) as AN. pose proof (Forall2_length' _ _ _ _ _ A1) as AL.
  assert (HH' : Forall homog rs'). { clear -A1 HH. induction A1 as [|x y l l' H1 H IH]; [constructor|]. constructor; [eapply evolves_homog; eauto; apply (Forall_inv HH)|apply IH; apply (Forall_inv_tail HH)]. }
  split; [auto|]. split; [auto|]. split; [auto|].
  assert (HON : forall m, on m (name_events cs ++ a ++ a0 ++ ev4 ++ flat_map final rs') = on m ev4 ++ on m (flat_map final rs')).
  { intros m. rewrite !on_app. rewrite (on_no_if _ _ (name_events_if cs)), (on_no_if _ _ (pcap_events_if _ _ E)), (on_no_if _ _ (hex_events_if _ _ E0)). auto. }
  split; [|split; [|split]].
  - intros i ifn Hi. pose proof (grouped_nth _ _ _ _ HG Hi) as Hn. pose proof (commands_name _ _ _ _ HG Hi) as Hm. destruct (A5 _ _ Hn) as [r' [B1 B2]]. rewrite Hm in B2.
    exists r', (on ifn ev4). split; [auto|]. split; [auto|]. rewrite HON. f_equal.
    destruct (pass_nth _ _ _ _ _ final_local HH' ltac:(rewrite AN; auto) (final_pass rs' 0) i r' B1) as [r2 [C1 [C2 C3]]].
    assert (r_name r' = ifn). { assert (HX := f_equal (fun l => nth_error l i) AN). cbn beta in HX. rewrite !nth_error_map, B1, Hn in HX. cbn in HX. unfold r_name in *. cbn [r_cmds] in *. congruence. }
    rewrite H in C3. auto.
  - intros ifn Hi. rewrite HON. rewrite (on_none _ _ _ A2) by (rewrite (gr_names _ _ HG); auto). cbn [app].
    destruct (pass_evolves _ _ _ _ _ final_local HH' (final_pass rs' 0)) as [_ [_ [_ X]]]. apply (on_none _ _ _ X). rewrite AN, (gr_names _ _ HG). auto.
  - rewrite !filter_app, !app_length. rewrite (err_no_if _ (name_events_if cs)), (err_no_if _ (pcap_events_if _ _ E)), (err_no_if _ (hex_events_if _ _ E0)). cbn [length plus].
    rewrite Nat2Z.inj_add. f_equal.
    + rewrite (sum_errors rs rs' ev4); [apply errors_split; auto| |auto]. intros j q Hj. destruct (A5 _ _ Hj) as [q' [B1 B2]]. exists q'. split; [auto|]. rewrite (path_errors _ _ _ (rounds_path _ _ _ _ _ B2)).
      rewrite (proj1 (proj2 (gr_cmds _ _ HG q (nth_error_In _ _ Hj)))). lia.
    + f_equal. f_equal. symmetry. apply filter_all. intros x Hx. apply in_flat_map in Hx. destruct Hx as [q [_ Hx]]. unfold final in Hx. apply in_map_iff in Hx. destruct Hx as [c [<- _]]. auto.
  - rewrite !filter_app. rewrite (err_no_if _ (name_events_if cs)), (err_no_if _ (pcap_events_if _ _ E)), (err_no_if _ (hex_events_if _ _ E0)). cbn [app].
    destruct (pass_evolves _ _ _ _ _ final_local HH' (final_pass rs' 0)) as [_ [_ [_ X]]]. rewrite AN in X. rewrite (gr_names _ _ HG) in *.
    apply Forall_app. split; apply Forall_forall; intros x Hx; apply filter_In in Hx; destruct Hx as [Hx _]; [unfold known in A2; rewrite Forall_forall in A2|rewrite Forall_forall in X]; auto.
Qed.

(** *** The expectations of one interface *)
Definition expects (c : cmd) : bool := is_rx c && is_some (c_buf c).
Definition ex (r : resource) : list cmd := filter expects (r_cmds r).

Inductive rxpath : list cmd -> list cmd -> list (bool * list Z) -> Prop :=
| rxpath_nil : forall es, rxpath es es []
| rxpath_hit : forall l c q b es' rcs, c_done c = false -> accepts c b -> (forall x, In x l -> c_done x = false -> ~ accepts x b) ->
    rxpath (l ++ set_done c :: q) es' rcs -> rxpath (l ++ c :: q) es' ((true, b) :: rcs)
| rxpath_miss : forall es b es' rcs, (forall x, In x es -> c_done x = false -> ~ accepts x b) ->
    rxpath es es' rcs -> rxpath es es' ((false, b) :: rcs).

Lemma accepts_same : forall c c' b, same_cmd c c' -> accepts c b -> accepts c' b.
Proof. unfold accepts. intros c c' b [_ [_ [_ [H1 [H2 H3]]]]]. rewrite H1, H2, H3. auto. Qed.

Lemma accepts_buf : forall c b, accepts c b -> is_some (c_buf c) = true.
Proof. intros c b [_ [x [H _]]]. rewrite H. auto. Qed.

Lemma same_sym : forall c c', same_cmd c c' -> same_cmd c' c.
Proof. unfold same_cmd. intros. intuition congruence. Qed.

Lemma expects_same : forall c c', same_cmd c c' -> expects c' = expects c.
Proof. unfold same_cmd, expects, is_rx. intros c c' [H1 [_ [_ [_ [H2 _]]]]]. rewrite H1, H2. auto. Qed.

Lemma filter_mid : forall A (p : A -> bool) l c r, filter p (l ++ c :: r) = filter p l ++ (if p c then c :: filter p r else filter p r).
Proof. intros A p l c r. rewrite filter_app. cbn [filter]. destruct (p c); auto. Qed.

Lemma rx_or_tx : forall c, traffic c = true -> is_rx c = true \/ is_tx c = true.
Proof. intros c H. unfold traffic in H. apply orb_prop in H. auto. Qed.

Lemma rx_not_tx : forall c, is_rx c = true -> is_tx c = true -> False.
Proof. unfold is_rx, is_tx. intros c. destruct (c_type c); discriminate. Qed.

Definition quiet_tx (r : resource) (b : list Z) : Prop := forall c, In c (r_cmds r) -> is_tx c = true -> ~ accepts c b.

Lemma rx_step_ex : forall b r r' ev, rx_step b r r' ev -> homog r -> Forall (fun c => traffic c = true) (r_cmds r) -> quiet_tx r b ->
  exists hit : bool, receptions (r_name r) ev = [(hit, b)] /\
  filter is_tx (r_cmds r') = filter is_tx (r_cmds r) /\
  forall es' rcs, rxpath (ex r') es' rcs -> rxpath (ex r) es' ((hit, b) :: rcs).
Proof.
  intros b r r' ev [hit [cs [H [-> ->]]]] HO HT HQ. destruct (match_spec _ _ _ _ H) as [[-> [-> HM]]|[l [c [q [-> [HE [-> [H1 [H2 H3]]]]]]]]].
  - exists false. split; [cbn; rewrite String.eqb_refl; auto|]. split; [auto|]. intros es' rcs HP. apply rxpath_miss; [|auto]. intros x Hx. unfold ex in Hx. apply filter_In in Hx. apply HM. tauto.
  - assert (HC : In c (r_cmds r)) by (rewrite HE; apply in_or_app; right; left; auto). assert (HRX : is_rx c = true).
    { rewrite Forall_forall in HT. destruct (rx_or_tx _ (HT c HC)) as [X|X]; [auto|]. destruct (HQ c HC X H2). }
    assert (HNT : is_tx c = false) by (destruct (is_tx c) eqn:X; [destruct (rx_not_tx c); auto|auto]).
    assert (HEX : expects c = true) by (unfold expects; rewrite HRX, (accepts_buf _ _ H2); auto).
    exists true. split; [cbn; rewrite (HO c HC), String.eqb_refl; auto|]. split.
    + cbn [r_cmds]. rewrite HE, !filter_mid. change (is_tx (set_done c)) with (is_tx c). rewrite HNT. auto.
    + unfold ex. cbn [r_cmds]. rewrite HE, !filter_mid. change (expects (set_done c)) with (expects c). rewrite HEX. intros es' rcs HP. apply rxpath_hit; auto.
      intros x Hx. apply filter_In in Hx. apply H3. tauto.
Qed.

Lemma tx_step_ex : forall ok more r r' ev, tx_step ok more r r' ev -> ex r' = ex r.
Proof.
  intros ok more r r' ev [cs [H ->]]. apply tx_one_spec in H. destruct H as [l [c [q [HE [_ [HP [-> _]]]]]]]. unfold ex. cbn [r_cmds]. rewrite HE, !filter_mid.
  rewrite (expects_same c (sent ok c)) by apply sent_same. assert (expects c = false). { unfold pending_tx in HP. apply andb_prop in HP. destruct HP as [HP _]. unfold expects. destruct (is_rx c) eqn:X; [destruct (rx_not_tx c); auto|auto]. }
  rewrite H. auto.
Qed.

Lemma receptions_app : forall n a b, receptions n (a ++ b) = receptions n a ++ receptions n b.
Proof. intros. unfold receptions. apply flat_map_app. Qed.

Lemma evolves_traffic : forall r r', evolves r r' -> Forall (fun c => traffic c = true) (r_cmds r) -> Forall (fun c => traffic c = true) (r_cmds r').
Proof.
  intros r r' H K. apply Forall_forall. intros c Hc. destruct (Forall2_in_r _ _ _ _ _ H _ Hc) as [c0 [X1 [X2 _]]]. rewrite Forall_forall in K. specialize (K _ X1).
  unfold traffic, is_rx, is_tx in *. rewrite X2. auto.
Qed.

Lemma evolves_quiet : forall r r' b, evolves r r' -> quiet_tx r b -> quiet_tx r' b.
Proof.
  intros r r' b H K c Hc HT HA. destruct (Forall2_in_r _ _ _ _ _ H _ Hc) as [c0 [X1 X2]]. apply (K c0 X1).
  - unfold is_tx in *. destruct X2 as [X2 _]. rewrite <- X2. auto.
  - eapply accepts_same; [apply same_sym; eauto|auto].
Qed.

Lemma send_events_receptions : forall n ok c, receptions n (send_events ok c) = [].
Proof. intros n ok c. unfold send_events. destruct (ok && _); reflexivity. Qed.

Lemma rx_step_receptions : forall b r r' ev, rx_step b r r' ev -> homog r -> exists h, receptions (r_name r) ev = [(h, b)].
Proof.
  intros b r r' ev [hit [cs [HS [_ ->]]]] HH. destruct (match_spec _ _ _ _ HS) as [[-> _]|[l [c [q [-> [E _]]]]]]; cbn.
  - exists false. rewrite String.eqb_refl. auto.
  - exists true. rewrite (HH c), String.eqb_refl; [auto|]. rewrite E. apply in_or_app. right. left. auto.
Qed.

Lemma path_rx : forall r r' ev, path r r' ev -> homog r -> Forall (fun c => traffic c = true) (r_cmds r) ->
  (forall p, In p (receptions (r_name r) ev) -> quiet_tx r (snd p)) -> rxpath (ex r) (ex r') (receptions (r_name r) ev).
Proof.
  intros r r' ev H. induction H as [r|r r1 r' e1 e2 H H1 IH]; intros HH HT HQ; [constructor|].
  destruct (estep_local _ _ _ HH H) as [A1 A2]. pose proof (evolves_name _ _ A1) as AN. rewrite receptions_app in *.
  assert (HR : rxpath (ex r1) (ex r') (receptions (r_name r) e2)).
  { rewrite <- AN. apply IH; [eapply evolves_homog; eauto|eapply evolves_traffic; eauto|]. intros p Hp. rewrite AN in Hp. eapply evolves_quiet; [eauto|]. apply HQ. apply in_or_app. auto. }
  destruct H as [[b HS]|[ok [more HS]]].
  - assert (HE : exists h, receptions (r_name r) e1 = [(h, b)]).
    { eapply rx_step_receptions; eauto. }
    destruct HE as [h HE]. destruct (rx_step_ex _ _ _ _ HS HH HT) as [hit [B1 [_ B2]]].
    { apply (HQ (h, b)). apply in_or_app. left. rewrite HE. left. auto. }
    rewrite B1. cbn [app]. apply B2. auto.
  - rewrite <- (tx_step_ex _ _ _ _ _ HS). destruct HS as [cs [HS ->]]. apply tx_one_spec in HS. destruct HS as [l [c [q [_ [_ [_ [_ [_ ->]]]]]]]].
    rewrite send_events_receptions. auto.
Qed.

(** Projections of the events of one interface. *)
Lemma receptions_on : forall n ev, receptions n (on n ev) = receptions n ev.
Proof.
  intros n ev. unfold receptions, on. induction ev as [|x ev IH]; [auto|]. cbn [filter flat_map]. destruct x; cbn [event_if]; auto; destruct (String.eqb ifn n) eqn:E; cbn [flat_map]; rewrite ?E, ?IH; auto.
Qed.

Lemma missing_on : forall n ev, reported_missing n (on n ev) = reported_missing n ev.
Proof.
  intros n ev. unfold reported_missing, on. induction ev as [|x ev IH]; [auto|]. cbn [filter flat_map]. destruct x; cbn [event_if]; auto; destruct (String.eqb ifn n) eqn:E; cbn [flat_map]; rewrite ?E, ?IH; auto.
Qed.

Lemma sends_on : forall n ev, sends n (on n ev) = sends n ev.
Proof.
  intros n ev. unfold sends, on. induction ev as [|x ev IH]; [auto|]. cbn [filter flat_map]. destruct x; cbn [event_if]; auto; destruct (String.eqb ifn n) eqn:E; cbn [flat_map]; rewrite ?E, ?IH; auto.
Qed.

Lemma reported_on : forall n ev, reported_tx n (on n ev) = reported_tx n ev.
Proof.
  intros n ev. unfold reported_tx, on. induction ev as [|x ev IH]; [auto|]. cbn [filter flat_map]. destruct x; cbn [event_if]; auto; destruct (String.eqb ifn n) eqn:E; cbn [flat_map]; rewrite ?E, ?IH; auto.
Qed.

Lemma final_receptions : forall n r, receptions n (final r) = [].
Proof. intros n r. unfold final. induction (filter missing (r_cmds r)) as [|c l IH]; [auto|]. cbn. auto. Qed.

Definition waiting (es : list cmd) : list cmd := filter (fun c => negb (c_done c)) es.

Lemma missing_ex : forall cs, filter missing cs = waiting (filter expects cs).
Proof.
  induction cs as [|c cs IH]; [auto|]. cbn [filter]. change (missing c) with (is_rx c && is_some (c_buf c) && negb (c_done c)). fold (expects c). destruct (expects c); cbn [andb]; [|auto].
  unfold waiting in *. cbn [filter]. destruct (negb (c_done c)); rewrite IH; auto.
Qed.

Lemma final_missing : forall r, homog r -> reported_missing (r_name r) (final r) = map frame_of (waiting (ex r)).
Proof.
  intros r HH. unfold final, ex. rewrite <- missing_ex. assert (K : forall l, (forall c, In c l -> In c (r_cmds r)) -> reported_missing (r_name r) (map no_rx l) = map frame_of l).
  { induction l as [|c l IH]; intros X; [auto|]. unfold reported_missing in *. cbn [map flat_map no_rx]. rewrite (HH c (X c (or_introl eq_refl))), String.eqb_refl, IH; [auto|]. intros d Hd. apply X. right. auto. }
  apply K. intros c Hc. apply filter_In in Hc. tauto.
Qed.

Lemma path_missing : forall r r' ev, path r r' ev -> forall n, reported_missing n ev = [].
Proof.
  intros r r' ev H n. induction H as [r|r r1 r' e1 e2 H H1 IH]; [auto|]. unfold reported_missing in *. rewrite flat_map_app, IH, app_nil_r.
  destruct H as [[b [hit [cs [_ [_ ->]]]]]|[ok [more [cs [H _]]]]]; [destruct hit; auto|]. apply tx_one_spec in H. destruct H as [l [c [q [_ [_ [_ [_ [_ ->]]]]]]]].
  unfold send_events. destruct (ok && _); auto.
Qed.

Lemma in_interfaces : forall cs ifn, (forall c, In c (commands_on ifn cs) -> False) \/ exists i, nth_error (interfaces cs) i = Some ifn.
Proof.
  intros cs ifn. destruct (in_dec String.string_dec ifn (interfaces cs)) as [X|X]; [right; apply In_nth_error; auto|]. left. intros c Hc. apply X. unfold commands_on in Hc. apply filter_In in Hc. destruct Hc as [Hc1 Hc2].
  apply andb_prop in Hc2. destruct Hc2 as [Hc2 Hc3]. apply names_in. exists c. split; [auto|split; [auto|]]. unfold on_if in Hc3. unfold interface_of. destruct (c_arg0 c); [apply String.eqb_eq; auto|discriminate].
Qed.

Lemma no_commands_not_if : forall cs ifn, Forall fits cs -> (forall c, In c (commands_on ifn cs) -> False) -> ~ In ifn (interfaces cs).
Proof.
  intros cs ifn HF H X. apply names_in in X. destruct X as [c [X1 [X2 X3]]]. apply (H c). unfold commands_on. apply filter_In. split; [auto|]. rewrite X2. cbn [andb].
  rewrite Forall_forall in HF. destruct (HF c X1 X2) as [a Ha]. unfold on_if, interface_of in *. rewrite Ha in *. subst. apply String.eqb_refl.
Qed.

Lemma fresh_expectations : forall cs ifn, Forall cmd_ready cs -> Forall (fun c => c_done c = false) (expectations ifn cs).
Proof.
  intros cs ifn H. apply Forall_forall. intros c Hc. unfold expectations, commands_on in Hc. apply filter_In in Hc. destruct Hc as [Hc _]. apply filter_In in Hc. destruct Hc as [Hc _].
  rewrite Forall_forall in H. apply (y_done _ (H c Hc)).
Qed.

(** What a run reports for one interface. *)
Lemma run_rx : forall ws e cs r ev ifn, runs ws e cs r ev -> no_echo ifn cs ev -> exists es',
  rxpath (expectations ifn cs) es' (receptions ifn ev) /\ reported_missing ifn ev = map frame_of (waiting es').
Proof.
  intros ws e cs r ev ifn HR HE. destruct (run_ready _ _ _ _ _ HR) as [HC [HL _]]. destruct (run_struct _ _ _ _ _ HR) as [n [rs [rs' [HG [_ [_ [HI [HN _]]]]]]]].
  rewrite <- (receptions_on ifn ev), <- (missing_on ifn ev). destruct (in_interfaces cs ifn) as [X|[i X]].
  - rewrite HN by (apply no_commands_not_if; [apply ready_fits; auto|auto]). exists []. unfold expectations. destruct (commands_on ifn cs) as [|c l]; [|destruct (X c); left; auto]. split; [constructor|auto].
  - destruct (HI _ _ X) as [r' [ev' [_ [B E]]]]. pose proof (commands_name _ _ _ _ HG X) as HM. fold (iface_state cs ifn) in HM. apply rounds_path in B.
    assert (HH : homog (iface_state cs ifn)). { pose proof (grouped_homog _ _ HG) as K. rewrite Forall_forall in K. apply K. eapply nth_error_In. eapply grouped_nth; eauto. }
    assert (HT : Forall (fun c => traffic c = true) (r_cmds (iface_state cs ifn))). { apply Forall_forall. intros c Hc. cbn [iface_state r_cmds] in Hc. unfold commands_on in Hc. apply filter_In in Hc. destruct Hc as [_ Hc]. apply andb_prop in Hc. tauto. }
    destruct (path_local _ _ _ B HH) as [C1 C2]. pose proof (evolves_name _ _ C1) as CN. pose proof (path_missing _ _ _ B ifn) as PM.
    assert (ER : receptions ifn (on ifn ev) = receptions ifn ev'). { rewrite E, receptions_app, final_receptions, app_nil_r. auto. }
    exists (ex r'). rewrite ER. split.
    + change (expectations ifn cs) with (ex (iface_state cs ifn)). replace (receptions ifn ev') with (receptions (r_name (iface_state cs ifn)) ev') by (rewrite HM; auto). apply path_rx; auto. intros p Hp c Hc HTX HA. rewrite HM, <- ER, receptions_on in Hp.
      apply (HE (snd p) c); [apply in_map; auto| |auto]. unfold transmissions. apply filter_In. split; auto.
    + rewrite E. unfold reported_missing in *. rewrite flat_map_app, PM. cbn [app]. fold (reported_missing ifn (final r')). replace ifn with (r_name r') by congruence. apply final_missing. eapply evolves_homog; eauto.
Qed.

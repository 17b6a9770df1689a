(** The result and the exit status (C48). *)

From Verif Require Import PTextIp PTextNum Frame PBits PSer Exec SpecExec PCmd PPair PExec PRecv PVerdict PSend PQuiet PTotal.

(** A run that fulfils the hypotheses, by computation. *)
Definition run_of (ws : list string) (e : env) : option (list cmd * Z * list event) :=
  match parse_cmds ws with
  | Ret (Some cs0) =>
      let cs := map (paired cs0) cs0 in
      if (length (undefined_refs cs0) =? 0)%nat && forallb (e_open e) (interfaces cs) then
        match argc_cmds ws e with
        | Ret (r, ev) => Some (cs, r, ev)
        | Crash _ => None
        end
      else None
  | _ => None
  end.

Lemma runs_intro : forall ws e cs0 r ev, parse_cmds ws = Ret (Some cs0) -> undefined_refs cs0 = [] ->
  (forall ifn, In ifn (interfaces (map (paired cs0) cs0)) -> e_open e ifn = true) -> argc_cmds ws e = Ret (r, ev) -> runs ws e (map (paired cs0) cs0) r ev.
Proof.
  intros ws e cs0 r ev HP HU HO HA. split; [|auto]. exists cs0. split; [auto|]. destruct (parsed_good _ _ HP) as [HG _]. apply Forall2_map_filled; intros c Hc; apply undefined_nil; auto.
Qed.

Lemma run_of_ok : forall ws e cs r ev, run_of ws e = Some (cs, r, ev) -> runs ws e cs r ev.
Proof.
  unfold run_of. intros ws e cs r ev H. destruct (parse_cmds ws) as [[cs0|]|] eqn:EP; try discriminate. destruct (_ =? _)%nat eqn:EU; [|discriminate]. cbn [andb] in H.
  destruct (forallb _ _) eqn:EO; [|discriminate]. destruct (argc_cmds ws e) as [[r0 ev0]|] eqn:EA; [|discriminate]. assert (EQ := some_inj _ _ _ H). apply pair_inj in EQ. destruct EQ as [EQ <-]. apply pair_inj in EQ. destruct EQ as [<- <-].
  apply Nat.eqb_eq in EU. apply runs_intro; auto; [destruct (undefined_refs cs0); [auto|discriminate]|]. rewrite forallb_forall in EO. auto.
Qed.

Lemma no_if_name : forall cs, Forall (fun x => event_if x = None) (name_events cs).
Proof.
  intros cs. apply Forall_forall. intros x HI. unfold name_events in HI. apply in_flat_map in HI. destruct HI as [c [_ HI]].
  destruct (c_type c), (c_buf c), (c_name c); try (destruct HI; fail). destruct HI as [<-|[]]; auto.
Qed.

Lemma no_if_pcap : forall cs ev, pcap_events cs = Ret ev -> Forall (fun x => event_if x = None) ev.
Proof.
  induction cs as [|c cs IH]; intros ev H; cbn [pcap_events] in H; [apply ret_inj in H; subst; constructor|]. binv H. binv H. apply ret_inj in H. subst ev. apply Forall_app. split; [|auto].
  destruct (c_type c); try (apply ret_inj in E; subst; constructor; fail). destruct (c_buf c); [|discriminate]. apply ret_inj in E. subst. constructor; [auto|constructor].
Qed.

Lemma no_if_hex : forall cs ev, hex_events cs = Ret ev -> Forall (fun x => event_if x = None) ev.
Proof.
  induction cs as [|c cs IH]; intros ev H; cbn [hex_events] in H; [apply ret_inj in H; subst; constructor|]. binv H. binv H. apply ret_inj in H. subst ev. apply Forall_app. split; [|auto].
  destruct (c_type c); try (apply ret_inj in E; subst; constructor; fail). destruct (c_buf c) as [b|]; [|apply ret_inj in E; subst; constructor].
  destruct (c_mask c); [destruct (_ <? _); [discriminate|]|]; apply ret_inj in E; subst; constructor; auto.
Qed.

(** The four ways a command line can end. *)
Lemma outcomes : forall ws e r ev, argc_cmds ws e = Ret (r, ev) ->
  (r = -1 /\ Forall (fun x => event_if x = None /\ is_error x = false) ev) \/
  (exists cs0, parse_cmds ws = Ret (Some cs0) /\ undefined_refs cs0 <> [] /\ r = Z.of_nat (length (undefined_refs cs0)) /\ ev = name_events cs0 ++ map EvNoName (undefined_refs cs0)) \/
  exists cs, runs ws e cs r ev.
Proof.
  intros ws e r ev H. pose proof H as HA. unfold argc_cmds in H. binv H. destruct a as [cs0|]; [|left; split; [congruence|]; assert (ev = []) by congruence; subst; constructor].
  destruct (undefined_refs cs0) as [|u us] eqn:EU.
  - destruct (parsed_good _ _ E) as [HG HL]. assert (HF : Forall2 (filled_in cs0) cs0 (map (paired cs0) cs0)) by (apply Forall2_map_filled; intros c Hc; apply undefined_nil; auto).
    destruct (filled_all_ready cs0 cs0 _ HG HG HF) as [HR HLen]. destruct (grouping _ (ready_fits _ HR) ltac:(lia)) as [rs [ER GR]].
    destruct (forallb (e_open e) (interfaces (map (paired cs0) cs0))) eqn:EO.
    + right. right. exists (map (paired cs0) cs0). apply runs_intro; auto. rewrite forallb_forall in EO. auto.
    + left. unfold exec_cmds in H. rewrite pair_cmds_spec, EU in H. cbn [length Z.of_nat] in H. change (negb (0 =? 0)) with false in H. cbn iota in H. cbn [map app] in H. binv H. binv H. rewrite ER in H. cbn [bind] in H.
      replace (forallb (fun r0 => e_open e (r_name r0)) rs) with false in H.
      2: { symmetry. rewrite <- (gr_names _ _ GR) in EO. rewrite <- EO. clear. induction rs as [|x rs IH]; [auto|]. cbn [map forallb]. rewrite IH. auto. }
      apply ret_inj, pair_inj in H. destruct H as [<- <-]. split; [auto|].
      assert (K : Forall (fun x => event_if x = None /\ is_error x = false) (name_events cs0)).
      { apply Forall_forall. intros x HI. unfold name_events in HI. apply in_flat_map in HI. destruct HI as [c [_ HI]]. destruct (c_type c), (c_buf c), (c_name c); try (destruct HI; fail). destruct HI as [<-|[]]; auto. }
      apply Forall_app. split; [auto|]. apply Forall_app. split.
      * clear - E0. revert a E0. induction (map (paired cs0) cs0) as [|c cs IH]; intros ev H; cbn [pcap_events] in H; [apply ret_inj in H; subst; constructor|]. binv H. binv H. apply ret_inj in H. subst ev. apply Forall_app. split; [|auto].
        destruct (c_type c); try (apply ret_inj in E; subst; constructor; fail). destruct (c_buf c); [|discriminate]. apply ret_inj in E. subst. constructor; [auto|constructor].
      * clear - E1. revert a0 E1. induction (map (paired cs0) cs0) as [|c cs IH]; intros ev H; cbn [hex_events] in H; [apply ret_inj in H; subst; constructor|]. binv H. binv H. apply ret_inj in H. subst ev. apply Forall_app. split; [|auto].
        destruct (c_type c); try (apply ret_inj in E; subst; constructor; fail). destruct (c_buf c) as [b|]; [|apply ret_inj in E; subst; constructor].
        destruct (c_mask c); [destruct (_ <? _); [discriminate|]|]; apply ret_inj in E; subst; constructor; auto.
  - right. left. exists cs0. split; [auto|]. split; [rewrite EU; discriminate|]. unfold exec_cmds in H. rewrite pair_cmds_spec in H. rewrite EU in *. 
    destruct (Z.eqb_spec (Z.of_nat (length (u :: us))) 0) as [X|X]; [cbn [length] in X; lia|]. cbn [negb] in H. apply ret_inj, pair_inj in H. destruct H as [<- <-]. auto.
Qed.

Lemma result_counts : forall ws e r ev, argc_cmds ws e = Ret (r, ev) ->
  (r = -1 /\ Forall (fun x => event_if x = None) ev /\ filter is_error ev = []) \/ r = Z.of_nat (length (filter is_error ev)).
Proof.
  intros ws e r ev H. destruct (outcomes _ _ _ _ H) as [[-> K]|[[cs0 [_ [_ [-> ->]]]]|[cs HR]]].
  - left. split; [auto|]. rewrite Forall_forall in K. split; [apply Forall_forall; intros x Hx; apply (K x Hx)|]. clear H. induction ev as [|x ev IH]; [auto|]. cbn [filter]. destruct (K x (or_introl eq_refl)) as [_ ->]. apply IH. intros y Hy. apply K. right. auto.
  - right. rewrite filter_app, app_length. replace (filter is_error (name_events cs0)) with (@nil event).
    + f_equal. cbn [length plus]. clear H. induction (undefined_refs cs0) as [|x l IH]; [auto|]. cbn [map filter is_error length]. auto.
    + symmetry. assert (K : forall x, In x (name_events cs0) -> is_error x = false).
      { intros x HI. unfold name_events in HI. apply in_flat_map in HI. destruct HI as [c [_ HI]]. destruct (c_type c), (c_buf c), (c_name c); try (destruct HI; fail). destruct HI as [<-|[]]; auto. }
      clear H. induction (name_events cs0) as [|x l IH]; [auto|]. cbn [filter]. rewrite (K x (or_introl eq_refl)). apply IH. intros y Hy. apply K. right. auto.
  - right. destruct (run_struct _ _ _ _ _ HR) as [n [rs [rs' [_ [_ [_ [_ [_ [X _]]]]]]]]]. auto.
Qed.

Lemma exit_status_zero : forall args e s ev t caps ws r, getopt args = ORun t caps ws -> ef_main args e = Ret (s, ev) -> argc_cmds ws e = Ret (r, ev) ->
  (length (filter is_error ev) < 256)%nat -> (s = 0 <-> r = 0).
Proof.
  intros args e s ev t caps ws r HG HM HA HL. unfold ef_main in HM. rewrite HG, HA in HM. cbn [bind] in HM. apply ret_inj, pair_inj in HM. destruct HM as [<- _]. unfold exit_status.
  destruct (result_counts _ _ _ _ HA) as [[-> _]| ->]; [split; intros X; discriminate X|]. rewrite Z.mod_small by lia. tauto.
Qed.

Lemma exit_status_wraps : forall args e s ev t caps ws, getopt args = ORun t caps ws -> ef_main args e = Ret (s, ev) ->
  (s = 255 /\ argc_cmds ws e = Ret (-1, ev)) \/ (s = Z.of_nat (length (filter is_error ev)) mod 256 /\ argc_cmds ws e = Ret (Z.of_nat (length (filter is_error ev)), ev)).
Proof.
  intros args e s ev t caps ws HG HM. unfold ef_main in HM. rewrite HG in HM. binv HM. destruct a as [r ev']. apply ret_inj, pair_inj in HM. destruct HM as [<- ->].
  destruct (result_counts _ _ _ _ E) as [[-> _]| ->]; [left|right]; auto.
Qed.

Lemma no_transmissions : forall ifn cs ev, transmissions ifn cs = [] -> no_echo ifn cs ev.
Proof. intros ifn cs ev H b c _ Hc. rewrite H in Hc. destruct Hc. Qed.

Lemma grouped_sockets : forall ws cs0 cs, parse_cmds ws = Ret (Some cs0) -> Forall2 (filled_in cs0) cs0 cs ->
  exists rs, add_all cs [] = Ret rs /\ NoDup (interfaces cs) /\ map r_name rs = interfaces cs /\
  (forall r, In r rs -> r_cmds r = commands_on (r_name r) cs) /\ Permutation (flat_map r_cmds rs) (filter traffic cs).
Proof.
  intros ws cs0 cs HP HF. destruct (parsed_good _ _ HP) as [HG HL]. destruct (filled_all_ready cs0 cs0 _ HG HG HF) as [HR HLen].
  destruct (grouping _ (ready_fits _ HR) ltac:(lia)) as [rs [ER GR]]. exists rs. split; [auto|]. split; [apply distinct_nodup|]. split; [apply (gr_names _ _ GR)|]. split; [|apply one_socket_each; auto; apply ready_fits; auto].
  intros r Hr. apply (gr_cmds _ _ GR r Hr).
Qed.

Lemma rounds_unheard : forall i rds r r' ev n, rounds i rds r r' ev -> homog r -> has_rx r = false -> receptions n ev = [].
Proof.
  intros i rds r r' ev n H. induction H as [r|rd rds r r1 r' e1 e2 H H1 IH]; intros HH HX; [auto|].
  assert (HPA : path r r1 e1). { destruct H as [r2 [f1 [f2 [A [B ->]]]]]. eapply path_app; [eapply rx_part_path; eauto|eapply txs_path; eauto]. }
  destruct (path_local _ _ _ HPA HH) as [L1 L2]. rewrite receptions_app, IH, app_nil_r; [|eapply evolves_homog; eauto|rewrite (evolves_has_rx _ _ L1); auto].
  destruct H as [r2 [f1 [f2 [A [B ->]]]]]. rewrite receptions_app, (txs_receptions _ _ _ _ _ _ B), app_nil_r. destruct A as [[A _]|[_ [-> _]]]; [congruence|auto].
Qed.

Lemma not_listening : forall ws e cs r ev ifn, runs ws e cs r ev -> (forall c, In c (commands_on ifn cs) -> is_rx c = false) -> received ifn ev = [].
Proof.
  intros ws e cs r ev ifn HR HC. destruct (run_struct _ _ _ _ _ HR) as [n [rs [rs' [HG [Hn [Hn2 [HI [HN _]]]]]]]]. unfold received. rewrite <- (receptions_on ifn ev).
  destruct (in_dec string_dec ifn (interfaces cs)) as [K|K]; [|rewrite (HN _ K); auto]. destruct (In_nth_error _ _ K) as [i X].
  destruct (HI _ _ X) as [r' [ev' [HR' [B E]]]]. rewrite E, receptions_app, final_receptions, app_nil_r.
  assert (HH : homog (iface_state cs ifn)). { pose proof (grouped_homog _ _ HG) as Q. rewrite Forall_forall in Q. apply Q. eapply nth_error_In. eapply grouped_nth; eauto. }
  rewrite (rounds_unheard _ _ _ _ _ ifn B HH); [auto|]. clear Hn2. unfold has_rx. destruct (existsb _ _) eqn:EX; [|auto]. apply existsb_exists in EX. destruct EX as [c [C1 C2]]. pose proof (HC c C1) as C3. unfold is_rx in C3. congruence.
Qed.

Lemma transmit_only : forall ws e cs r ev ifn i, runs ws e cs r ev -> (forall c, In c (commands_on ifn cs) -> is_rx c = false) -> all_sent (e_rounds e) -> nth_error (interfaces cs) i = Some ifn ->
  exists j, (j <= length (transmissions ifn cs))%nat /\
  sends ifn ev = flat_map (fun c => repeat (frame_of c, true) (Z.to_nat (times c))) (firstn j (transmissions ifn cs)) /\
  reported_tx ifn ev = map frame_of (firstn j (transmissions ifn cs)) /\
  ((length (transmissions ifn cs) <= writable i (served (e_rounds e)))%nat -> j = length (transmissions ifn cs)).
Proof. intros ws e cs r ev ifn i HR HC. apply (transmitted _ _ _ _ _ _ _ HR). intros b c Hb. rewrite (not_listening _ _ _ _ _ _ HR HC) in Hb. destruct Hb. Qed.

Definition one_put : round := MkRound 1 false (fun _ => None) (fun _ => true) (fun _ => true).

Lemma rep_zero : exists cs r ev, runs ["tx"; "eth0"; "rep"; "0"; "eth"] (MkEnv (fun _ => true) [one_put]) cs r ev /\ Z.of_nat (length (sends "eth0" ev)) = 2 ^ 32.
Proof.
  set (ws := ["tx"; "eth0"; "rep"; "0"; "eth"]%string). set (e := MkEnv (fun _ => true) [one_put]).
  destruct (parse_cmds ws) as [[cs0|]|] eqn:EP; [|vm_compute in EP; discriminate|vm_compute in EP; discriminate].
  pose proof EP as EP'. unfold ws in EP'. vm_compute in EP'. apply ret_inj in EP'. assert (EQ := some_inj _ _ _ EP'). 
  assert (AS : all_sent (e_rounds e)) by (intros rd k [<-|[]]; reflexivity).
  destruct (execution_total ws e cs0 EP) as [r [ev HA]]; [|auto| |].
  { subst cs0. intros c f [<-|[]] H. cbn in H. assert (F := some_inj _ _ _ H). subst f. reflexivity. }
  { constructor; [intros i m H; discriminate H|constructor]. }
  assert (HR : runs ws e (map (paired cs0) cs0) r ev) by (apply runs_intro; auto; subst cs0; reflexivity).
  exists (map (paired cs0) cs0), r, ev. split; [auto|].
  assert (HE : no_echo "eth0" (map (paired cs0) cs0) ev).
  { intros b c Hb. exfalso. rewrite (not_listening _ _ _ _ _ "eth0" HR) in Hb; [destruct Hb|]. subst cs0. intros c0 [<-|[]]. reflexivity. }
  destruct (transmitted _ _ _ _ _ _ 0 HR HE AS) as [j [J1 [J2 [_ J4]]]]; [subst cs0; reflexivity|]. rewrite J4 in J2 by (subst cs0; vm_compute; lia). rewrite firstn_all in J2. rewrite J2.
  assert (HT : exists c, transmissions "eth0" (map (paired cs0) cs0) = [c] /\ c_repeat c = 0) by (subst cs0; eexists; split; reflexivity). destruct HT as [c [HT HT2]]. rewrite HT. cbn [flat_map]. rewrite app_nil_r, repeat_length. unfold times. rewrite HT2. apply Z2Nat.id. discriminate.
Qed.

Transparent rx_frame.
Lemma rx_frame_big : forall m, 32764 <= Z.of_nat (length (rx_data m)) <= 32768 -> rx_frame m = Ret (Some (rx_data m)).
Proof.
  intros m H. unfold rx_frame. rewrite firstn_all2 by (unfold RX_BUF; lia). unfold zlen. destruct (Z.leb_spec (Z.of_nat (length (rx_data m))) 0); [lia|].
  destruct (rx_vlan m) as [[tpid tci]|]; [|auto]. unfold RX_BUF. destruct (Z.ltb_spec (Z.of_nat (length (rx_data m)) + 4) 32768); [lia|auto].
Qed.
Opaque rx_frame.

Lemma hears : forall m b, rx_frame m = Ret (Some b) -> exists cs,
  runs ["rx"; "eth0"] (MkEnv (fun _ => true) [MkRound 1 false (fun j => if Nat.eqb 0 j then Some m else None) (fun _ => false) (fun _ => true)]) cs 1 [EvRxErr "eth0" b].
Proof.
  intros m b H. set (c := MkCmd CT_rx None (Some "eth0"%string) None None None false 0). exists (map (paired [c]) [c]). apply runs_intro; [vm_compute; reflexivity|reflexivity|reflexivity|].
  unfold argc_cmds. replace (parse_cmds ["rx"; "eth0"]%string) with (Ret (Some [c])) by (vm_compute; reflexivity). cbn [bind].
  change (exec_cmds [c] ?e) with ('(rs1, ev4) <- main_loop (e_rounds e) [MkRes [c] 0];; let '(err2, ev5) := check_all rs1 in Ret (err2, ev4 ++ ev5)). cbn [e_rounds main_loop]. change (existsb (fun r => has_rx r || has_tx r)%bool [MkRes [c] 0]) with true. cbn iota. cbn [rd_late rd_select]. change (1 <=? 0) with false. cbn iota.
  unfold process. cbn [rx_all rd_rx]. change (has_rx (MkRes [c] 0)) with true. cbn iota. cbn [Nat.eqb]. unfold rx_one. rewrite H. cbn [bind match_cmds r_cmds]. change (c_buf c) with (@None buf). cbn [bind]. 
  vm_compute. reflexivity.
Qed.

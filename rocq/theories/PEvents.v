(** Every event of a run comes from a command (C72). *)

From Verif Require Import PTextIp PTextNum PTextHex Frame PBits PSer SpecParse PParse PMatch SpecFrame PFrame PField Exec SpecExec PCmd PPair PExec PRecv PVerdict PReplay PSyntax SpecReport.



Lemma forall_firstn : forall A (P : A -> Prop) n l, Forall P l -> Forall P (firstn n l).
Proof. intros A P n l H. revert n. induction H; intros [|n]; constructor; auto. Qed.
Lemma forall_skipn : forall A (P : A -> Prop) n l, Forall P l -> Forall P (skipn n l).
Proof. intros A P n l H. revert n. induction H; intros [|n]; [constructor|constructor|constructor; auto|cbn; auto]. Qed.

Lemma upd_bytes : forall b i v, bytes_ok b -> byte_ok v -> bytes_ok (upd b i v).
Proof. unfold bytes_ok. intros b i v H Hv. revert i. induction H; intros [|i]; cbn; constructor; auto. Qed.

Lemma bput_bytes : forall b i v b', bput b i v = Ret b' -> bytes_ok b -> byte_ok v -> bytes_ok b'.
Proof. intros b i v b' H Hb Hv. apply bput_inv in H. destruct H as [_ ->]. apply upd_bytes; auto. Qed.

Definition rx_with (N : Z) (m : rxmsg) : out (option buf) :=
  let d := firstn (Z.to_nat N) (rx_data m) in
  let res := zlen d in
  if res <=? 0 then Ret None
  else
    match rx_vlan m with
    | Some (tpid, tci) =>
        if res + 4 <? N then
          b <- memmove_in (d ++ [0; 0; 0; 0]) 16 12 (res - 12);;
          b <- bput b 12 (hi8 tpid);; b <- bput b 13 (lo8 tpid);;
          b <- bput b 14 (hi8 tci);; b <- bput b 15 (lo8 tci);;
          Ret (Some b)
        else Ret (Some d)
    | None => Ret (Some d)
    end.

Transparent rx_frame.
Lemma rx_frame_with : forall m, rx_frame m = rx_with RX_BUF m.
Proof. intros m. unfold rx_frame, rx_with. reflexivity. Qed.

Lemma rx_frame_bytes : forall m b, rx_frame m = Ret (Some b) -> Forall is_byte (rx_data m) -> bytes_ok b.
Proof.
  intros m b H HB. apply is_byte_bytes in HB. rewrite rx_frame_with in H. revert H. generalize RX_BUF. intros N H. unfold rx_with in H. assert (HD : bytes_ok (firstn (Z.to_nat N) (rx_data m))) by (apply forall_firstn; auto). revert H HD. generalize (firstn (Z.to_nat N) (rx_data m)). intros d H HD.
  destruct (zlen d <=? 0); [discriminate|]. destruct (rx_vlan m) as [[tpid tci]|]; [|assert (b = d) by congruence; subst; auto]. destruct (zlen d + 4 <? N); [|assert (b = d) by congruence; subst; auto].
  binv H. assert (HA : bytes_ok a).
  { unfold memmove_in in E. destruct (_ <? _); [discriminate|]. destruct (_ || _); [discriminate|]. destruct (_ || _); [discriminate|].
    assert (HZ : bytes_ok (d ++ [0; 0; 0; 0])) by (apply Forall_app; split; [auto|repeat constructor; unfold byte_ok; lia]). remember (d ++ [0; 0; 0; 0]) as q. clear Heqq. apply ret_inj in E. subst a.
    apply Forall_app. split; [apply forall_firstn; auto|]. apply Forall_app. split; [apply forall_firstn, forall_skipn; auto|apply forall_skipn; auto]. }
  binv H. binv H. binv H. binv H. assert (b = a3) by congruence. subst b. assert (HI : forall x, byte_ok (hi8 x)) by (intros; unfold byte_ok, hi8; lia). assert (HL : forall x, byte_ok (lo8 x)) by (intros; unfold byte_ok, lo8; lia).
  eapply bput_bytes; [eauto| |auto]. eapply bput_bytes; [eauto| |auto]. eapply bput_bytes; [eauto| |auto]. eapply bput_bytes; eauto.
Qed.

Definition stems (cs : list cmd) (x : event) : Prop :=
  match x with
  | EvName n b m => exists c, In c cs /\ is_name c = true /\ c_name c = Some n /\ c_buf c = Some b /\ c_mask c = m
  | EvNoName _ => False
  | EvPcap _ _ => True
  | EvHex b m => exists c, In c cs /\ c_buf c = Some b /\ m = option_map (firstn (length b)) (c_mask c)
  | EvRxOk i b n m => bytes_ok b /\ exists c, In c (commands_on i cs) /\ c_name c = n /\ c_mask c = m /\ accepts c b
  | EvRxErr i b => bytes_ok b /\ In i (interfaces cs)
  | EvSend i b _ => exists c, In c (transmissions i cs) /\ c_buf c = Some b
  | EvTx i b n => exists c, In c (transmissions i cs) /\ c_buf c = Some b /\ c_name c = n
  | EvNoRx i b n m => exists c, In c (expectations i cs) /\ c_buf c = Some b /\ c_name c = n /\ c_mask c = m
  end.

Lemma name_stems : forall cs, Forall (stems cs) (name_events cs).
Proof.
  intros cs. apply Forall_forall. intros x Hx. unfold name_events in Hx. apply in_flat_map in Hx. destruct Hx as [c [Hc Hx]].
  destruct (c_type c) eqn:T; try destruct Hx. destruct (c_buf c) as [b|] eqn:B; [|destruct Hx]. destruct (c_name c) as [n|] eqn:N; [|destruct Hx]. destruct Hx as [<-|[]].
  cbn [stems]. exists c. unfold is_name. rewrite T. auto.
Qed.

Lemma pcap_stems : forall all cs ev, pcap_events cs = Ret ev -> Forall (stems all) ev.
Proof.
  induction cs as [|c cs IH]; intros ev H; cbn [pcap_events] in H; [apply ret_inj in H; subst; constructor|]. binv H. binv H. apply ret_inj in H. subst ev. apply Forall_app. split; [|auto].
  destruct (c_type c); try (apply ret_inj in E; subst; constructor; fail). destruct (c_buf c); [|discriminate]. apply ret_inj in E. subst. repeat constructor.
Qed.

Lemma hex_stems : forall all cs ev, incl cs all -> hex_events cs = Ret ev -> Forall (stems all) ev.
Proof.
  induction cs as [|c cs IH]; intros ev HI H; cbn [hex_events] in H; [apply ret_inj in H; subst; constructor|]. binv H. binv H. apply ret_inj in H. subst ev.
  apply Forall_app. split; [|apply IH; auto; intros x Hx; apply HI; right; auto]. assert (HC : In c all) by (apply HI; left; auto).
  destruct (c_type c); try (apply ret_inj in E; subst; constructor; fail). destruct (c_buf c) as [b|] eqn:B; [|apply ret_inj in E; subst; constructor].
  destruct (c_mask c) as [m|] eqn:M; [destruct (_ <? _); [discriminate|]|]; apply ret_inj in E; subst; (constructor; [|constructor]); exists c; rewrite M; auto.
Qed.

(** One interface: [r] evolved from the commands on [ifn]. *)
Definition of_iface (cs : list cmd) (ifn : string) (r : resource) : Prop := evolves (iface_state cs ifn) r.

Lemma of_iface_in : forall cs ifn r c, of_iface cs ifn r -> In c (r_cmds r) -> exists c0, In c0 (commands_on ifn cs) /\ same_cmd c0 c.
Proof. intros cs ifn r c H Hc. exact (Forall2_in_r _ _ _ _ _ H _ Hc). Qed.

Lemma command_if : forall ifn cs c, In c (commands_on ifn cs) -> str_of (c_arg0 c) = ifn.
Proof. intros ifn cs c H. unfold commands_on in H. apply filter_In in H. destruct H as [_ H]. apply andb_prop in H. destruct H as [_ H]. unfold on_if in H. destruct (c_arg0 c); [|discriminate]. apply String.eqb_eq in H. auto. Qed.

Lemma tx_stems : forall cs ifn ok more r r' ev, of_iface cs ifn r -> Forall cmd_ready cs -> tx_step ok more r r' ev -> Forall (stems cs) ev.
Proof.
  intros cs ifn ok more r r' ev HO HR [q [H _]]. destruct (tx_one_spec _ _ _ H) as [l [c [s [E [_ [HP [_ [_ ->]]]]]]]].
  destruct (of_iface_in _ _ _ c HO) as [c0 [HC HS]]; [rewrite E; apply in_or_app; right; left; auto|]. pose proof HS as [S1 [S2 [S3 [S4 [S5 S6]]]]].
  assert (HT : is_tx c0 = true) by (unfold pending_tx in HP; apply andb_prop in HP; destruct HP as [HP _]; unfold is_tx in *; rewrite <- S1; auto).
  assert (HX : In c0 (transmissions ifn cs)) by (apply filter_In; auto). assert (HN : str_of (c_arg0 c) = ifn) by (rewrite S3; eapply command_if; eauto).
  assert (HB : c_buf c0 = Some (frame_of c)).
  { unfold frame_of. rewrite S5. destruct (c_buf c0) eqn:B; [auto|]. exfalso. assert (HI : In c0 cs) by (unfold commands_on in HC; apply filter_In in HC; tauto). rewrite Forall_forall in HR.
    destruct (y_buf _ (HR c0 HI) B) as [X|X]; unfold is_rx, is_name, is_tx in *; destruct (c_type c0); discriminate. }
  unfold send_events. rewrite HN. constructor; [exists c0; auto|]. destruct (ok && _); [|constructor]. constructor; [|constructor]. exists c0. auto.
Qed.

Lemma txs_stems : forall cs ifn send w r r' ev, of_iface cs ifn r -> homog r -> Forall cmd_ready cs -> txs send w r r' ev -> Forall (stems cs) ev.
Proof.
  intros cs ifn send w r r' ev HO HH HR H. assert (HP : forall more r r' ev, of_iface cs ifn r -> tx_part send more w r r' ev -> Forall (stems cs) ev).
  { intros more q q' e1 HQ [[_ [k [own [X _]]]]|[-> [-> _]]]; [eapply tx_stems; eauto|constructor]. }
  induction H as [r r' ev H|r r1 r' e1 e2 H H1 IH]; [eauto|]. apply Forall_app. split; [eauto|]. destruct (path_local _ _ _ (tx_part_path _ _ _ _ _ _ H) HH) as [A _].
  apply IH; [eapply evolves_trans; eauto|eapply evolves_homog; eauto].
Qed.

Lemma rx_stems : forall cs ifn b r r' ev, of_iface cs ifn r -> In ifn (interfaces cs) -> r_name r = ifn -> bytes_ok b -> rx_step b r r' ev -> Forall (stems cs) ev.
Proof.
  intros cs ifn b r r' ev HO HI HN HB [hit [q [H [_ ->]]]]. constructor; [|constructor]. destruct (match_spec _ _ _ _ H) as [[-> _]|[l [c [s [-> [E [_ [_ [HA _]]]]]]]]].
  - cbn. rewrite HN. auto.
  - destruct (of_iface_in _ _ _ c HO) as [c0 [HC HS]]; [rewrite E; apply in_or_app; right; left; auto|]. pose proof HS as [S1 [S2 [S3 [S4 [S5 S6]]]]]. cbn. split; [auto|]. exists c0.
    rewrite S3, (command_if _ _ _ HC). split; [auto|]. split; [auto|]. split; [auto|]. eapply accepts_same; [apply same_sym; eauto|auto].
Qed.

Lemma rounds_stems : forall cs ifn i rds r r' ev, rounds i rds r r' ev -> Forall cmd_ready cs -> of_bytes rds -> In ifn (interfaces cs) -> of_iface cs ifn r -> homog r -> r_name r = ifn ->
  Forall (stems cs) ev /\ of_iface cs ifn r'.
Proof.
  intros cs ifn i rds r r' ev H HR. induction H as [r|rd rds r r1 r' e1 e2 [r2 [f1 [f2 [A [B ->]]]]] H IH]; intros HB HI HO HH HN; [split; [constructor|auto]|].
  destruct (path_local _ _ _ (rx_part_path _ _ _ _ _ A) HH) as [A1 _]. assert (H2 : homog r2) by (eapply evolves_homog; eauto). destruct (path_local _ _ _ (txs_path _ _ _ _ _ B) H2) as [B1 _].
  assert (O2 : of_iface cs ifn r2) by (eapply evolves_trans; eauto). assert (O1 : of_iface cs ifn r1) by (eapply evolves_trans; eauto).
  assert (H3 : homog r1) by (exact (evolves_homog _ _ B1 H2)). assert (N1 : r_name r1 = ifn) by (rewrite (evolves_name _ _ B1), (evolves_name _ _ A1); auto).
  destruct (IH (fun q j m Hq => HB q j m (or_intror Hq)) HI O1 H3 N1) as [C1 C2].
  split; [|auto]. apply Forall_app. split; [|auto]. apply Forall_app. split; [|exact (txs_stems _ _ _ _ _ _ _ O2 H2 HR B)].
    destruct A as [[_ [m [b [M1 [M2 M3]]]]]|[_ [-> _]]]; [|constructor]. eapply rx_stems; [exact HO|auto|auto| |exact M3]. eapply rx_frame_bytes; [exact M2|]. eapply HB; [left; auto|exact M1].
Qed.

Lemma final_stems : forall cs ifn r, of_iface cs ifn r -> Forall (stems cs) (final r).
Proof.
  intros cs ifn r HO. unfold final. apply Forall_forall. intros x Hx. apply in_map_iff in Hx. destruct Hx as [c [<- Hc]]. apply filter_In in Hc. destruct Hc as [Hc HM].
  destruct (of_iface_in _ _ _ c HO Hc) as [c0 [HC HS]]. pose proof HS as [S1 [S2 [S3 [S4 [S5 S6]]]]]. unfold missing in HM. apply andb_prop in HM. destruct HM as [HM _]. apply andb_prop in HM. destruct HM as [M1 M2].
  unfold no_rx. cbn. exists c0. rewrite S3, (command_if _ _ _ HC). split; [|split; [|auto]].
  - apply filter_In. split; [auto|]. unfold is_rx. rewrite <- S1, <- S5, M1, M2. auto.
  - rewrite <- S5. unfold frame_of. destruct (c_buf c); [auto|discriminate].
Qed.

Lemma run_parts : forall ws e cs r ev, runs ws e cs r ev -> exists rs rs' e1 e2 ev4,
  add_all cs [] = Ret rs /\ main_loop (e_rounds e) rs = Ret (rs', ev4) /\ pcap_events cs = Ret e1 /\ hex_events cs = Ret e2 /\ ev = (name_events cs ++ e1 ++ e2 ++ ev4 ++ flat_map final rs').
Proof.
  intros ws e cs r ev HR. destruct (run_ready _ _ _ _ _ HR) as [HC [HL HX]]. destruct HR as [[cs0 [H1 H2]] [HO _]].
  assert (HN : Forall (fun c => reference c = None) cs).
  { destruct (parsed_good _ _ H1) as [G1 _]. assert (K : forall l l', Forall2 (filled_in cs0) l l' -> Forall (fun c => reference c = None) l') by (intros l l' X; induction X; constructor; auto; eapply filled_reference; eauto). eauto. }
  unfold exec_cmds in HX. rewrite pair_cmds_spec in HX. destruct (undefined_none cs cs HN) as [HU HP]. change (flat_map (uref cs) cs) with (undefined_refs cs) in HU. rewrite HU, HP in HX. cbn [length Z.of_nat map app] in HX.
  change (negb (0 =? 0)) with false in HX. cbn iota in HX. binv HX. binv HX. destruct (grouping cs (ready_fits _ HC) HL) as [rs [ER HG]]. rewrite ER in HX. cbn [bind] in HX.
  rewrite served_open in HX by (intros ifn Hi; apply HO; rewrite <- (gr_names _ _ HG); auto). binv HX. destruct a1 as [rs' ev4]. rewrite check_all_spec in HX. apply ret_inj in HX. apply pair_inj in HX. destruct HX as [<- <-].
  exists rs, rs', a, a0, ev4. auto.
Qed.

Lemma served_incl : forall rds rd, In rd (served rds) -> In rd rds.
Proof. induction rds as [|q rds IH]; intros rd H; [destruct H|]. cbn [served] in H. destruct (_ || _); [destruct H|]. destruct H as [<-|H]; [left; auto|right; auto]. Qed.

Lemma in_firstn : forall A n (l : list A) x, In x (firstn n l) -> In x l.
Proof. induction n as [|n IH]; intros l x H; [destruct H|]. destruct l as [|y l]; [destruct H|]. destruct H as [<-|H]; [left; auto|right; auto]. Qed.

(** Every event of a run comes from a command. *)
Lemma run_stems : forall ws e cs r ev, runs ws e cs r ev -> of_bytes (e_rounds e) -> Forall (stems cs) ev.
Proof.
  intros ws e cs r ev HR HB. destruct (run_parts _ _ _ _ _ HR) as [rs [rs' [e1 [e2 [ev4 [P1 [P2 [P3 [P4 P5]]]]]]]]]. destruct (run_ready _ _ _ _ _ HR) as [HC [HL _]].
  destruct (grouping cs (ready_fits _ HC) HL) as [rs0 [ER HG]]. assert (rs0 = rs) by congruence. subst rs0. rewrite P5.
  apply Forall_app. split; [apply name_stems|]. apply Forall_app. split; [eapply pcap_stems; eauto|]. apply Forall_app. split; [eapply hex_stems; eauto; apply incl_refl|].
  pose proof (grouped_homog _ _ HG) as HH. assert (HD : NoDup (map r_name rs)) by (rewrite (gr_names _ _ HG); apply distinct_nodup).
  destruct (main_sim _ _ _ _ P2 HH HD) as [A1 [A2 [n [_ [_ A5]]]]].
  assert (K : forall j ifn, nth_error (interfaces cs) j = Some ifn -> exists r', nth_error rs' j = Some r' /\ Forall (stems cs) (on ifn ev4) /\ of_iface cs ifn r').
  { intros j ifn Hj. pose proof (grouped_nth _ _ _ _ HG Hj) as Hr. destruct (A5 _ _ Hr) as [r' [B1 B2]]. pose proof (commands_name _ _ _ _ HG Hj) as HN. rewrite HN in B2. exists r'. split; [auto|].
    eapply rounds_stems; eauto.
    - intros rd i m Hrd. apply HB. apply served_incl. eapply in_firstn. eauto.
    - eapply nth_error_In. eauto.
    - apply evolves_refl.
    - rewrite Forall_forall in HH. apply HH. eapply nth_error_In. eauto. }
  apply Forall_app. split.
  - apply Forall_forall. intros x Hx. unfold known in A2. rewrite Forall_forall in A2. destruct (A2 _ Hx) as [ifn [X1 X2]]. rewrite (gr_names _ _ HG) in X2. apply In_nth_error in X2. destruct X2 as [j Hj].
    destruct (K _ _ Hj) as [_ [_ [K2 _]]]. rewrite Forall_forall in K2. apply K2. unfold on. apply filter_In. split; [auto|]. rewrite X1. apply String.eqb_refl.
  - apply Forall_forall. intros x Hx. apply in_flat_map in Hx. destruct Hx as [r' [Hr Hx]]. apply In_nth_error in Hr. destruct Hr as [j Hj].
    assert (HJ : (j < length (interfaces cs))%nat). { rewrite <- (gr_names _ _ HG), map_length, (Forall2_length _ _ _ _ _ A1). apply nth_error_Some. congruence. }
    destruct (nth_error (interfaces cs) j) as [ifn|] eqn:EJ; [|apply nth_error_None in EJ; lia]. destruct (K _ _ EJ) as [r2 [K1 [_ K2]]]. assert (r2 = r') by congruence. subst r2.
    pose proof (final_stems _ _ _ K2) as F. rewrite Forall_forall in F. auto.
Qed.

(** *** Masks consist of bytes *)
Lemma mask_bytes : forall f m, frame_mask_to_buf f = Ret m -> bytes_ok m.
Proof.
  intros f m H. unfold frame_mask_to_buf in H. binv H. binv H. eapply copy_stack_ok; [|exact H]. destruct (a <? 60); [|assert (a0 = balloc (Z.max a 60)) by congruence; subst; apply balloc_bytes].
  unfold memset_in in E0. destruct (_ <? _); [discriminate|]. destruct (_ || _); [discriminate|]. pose proof (balloc_bytes (Z.max a 60)) as HB. remember (balloc (Z.max a 60)) as q. clear Heqq. apply ret_inj in E0. subst a0.
  apply Forall_app. split; [apply forall_firstn; auto|]. apply Forall_app. split; [|apply forall_skipn; auto]. apply Forall_forall. intros x Hx. apply repeat_spec in Hx. subst. unfold byte_ok. lia.
Qed.

Lemma text_mask : forall seg c m, command_text seg c -> c_mask c = Some m -> bytes_ok m.
Proof.
  assert (HA : forall F f b m k, a_frame F f b m -> m = Some k -> bytes_ok k).
  { intros F f b m k [_ [f0 [_ [_ H]]]] ->. destruct (fr_has_mask f); [|discriminate]. destruct H as [x [H1 H2]]. assert (k = x) by congruence. subst. eapply mask_bytes; eauto. }
  assert (HC : forall F n f b m k, contents F n f b m -> m = Some k -> bytes_ok k) by (intros F n f b m k X E; destruct X; [eauto|discriminate]).
  intros seg c m H E. destruct H; cbn [c_mask] in E; try discriminate; eauto.
Qed.

Lemma run_masks : forall ws e cs r ev, runs ws e cs r ev -> forall c m, In c cs -> c_mask c = Some m -> bytes_ok m.
Proof.
  intros ws e cs r ev [[cs0 [H1 H2]] _]. assert (K : forall c m, In c cs0 -> c_mask c = Some m -> bytes_ok m).
  { apply cmds_segments in H1. destruct H1 as [segs [_ [H _]]]. intros c m Hc. destruct (Forall2_in_r _ _ _ _ _ H _ Hc) as [seg [_ X]]. apply command_syntax in X. eapply text_mask; eauto. }
  intros c m Hc Hm. destruct (Forall2_in_r _ _ _ _ _ H2 _ Hc) as [c0 [X1 [X2 X3]]]. destruct (reference c0) as [n|] eqn:E.
  - apply reference_refers in E. destruct (X2 _ E) as [d [[l [q [-> _]]] ->]]. cbn [with_frame_of c_mask] in Hm. eapply K; [|exact Hm]. apply in_or_app. right. left. auto.
  - assert (c = c0) by (apply X3; intros n X; apply reference_refers in X; congruence). subst. eauto.
Qed.

(** Running commands ends without undefined behaviour (C57). *)

From Coq Require Import Permutation.
From Verif Require Import PTextIp PTextNum Frame Exec SpecExec PParse PMatch PCmd PPair PExec PRecv PVerdict PSend PQuiet.

(** ** Receiving *)

Transparent rx_frame.
Lemma rx_frame_total : forall m, tag_fits m -> exists o, rx_frame m = Ret o.
Proof.
  intros m H. destruct (Z.ltb_spec 0 (Z.of_nat (length (rx_data m)))) as [H1|H1].
  - destruct (Z.ltb_spec (Z.of_nat (length (rx_data m))) 32764) as [H2|H2].
    + exists (Some (put_tag m)). apply rx_frame_ordinary. split; [lia|auto].
    + unfold rx_frame. set (d := firstn (Z.to_nat RX_BUF) (rx_data m)).
      assert (HL : 32764 <= zlen d) by (unfold d, zlen, RX_BUF; rewrite firstn_length; lia). clearbody d.
      replace (zlen d <=? 0) with false by lia. destruct (rx_vlan m) as [[tpid tci]|]; [|eauto]. unfold RX_BUF. replace (zlen d + 4 <? 32768) with false by lia. eauto.
  - unfold rx_frame. assert (HL : zlen (firstn (Z.to_nat RX_BUF) (rx_data m)) <= 0) by (unfold zlen; rewrite firstn_length; lia). apply Z.leb_le in HL. rewrite HL. eauto.
Qed.
Opaque rx_frame.

Record sane (c : cmd) : Prop := {
  s_tx : is_tx c = true -> exists b, c_buf c = Some b;
  s_rep : 0 <= c_repeat c < 2 ^ 32;
  s_frame : forall b, c_buf c = Some b -> exists f, c_frame c = Some f /\ fr_padding f = 0 }.

Lemma mask_loop_total : forall exp mask a i, 0 <= i -> i + zlen a <= zlen exp -> exists v, mask_loop a i exp mask = Ret v.
Proof.
  intros exp mask. induction a as [|x a IH]; intros i Hi HL; cbn [mask_loop]; [eauto|]. rewrite zlen_cons in HL. assert (0 <= zlen a) by (unfold zlen; lia).
  rewrite bget_ok by lia. cbn [bind].
  assert (HM : exists v, (if zlen mask <=? i then Ret 255 else bget mask i) = Ret v) by (destruct (Z.leb_spec (zlen mask) i); [eauto|rewrite bget_ok by lia; eauto]).
  destruct HM as [v ->]. cbn [bind]. destruct (_ =? _); [apply IH; lia|eauto].
Qed.

Lemma bequal_total : forall rx exp mask, exists v, bequal_mask rx exp mask 0 = Ret v.
Proof.
  intros rx exp mask. unfold bequal_mask. change (0 <? 0) with false. cbn iota. rewrite Z.add_0_r. destruct (Z.eqb_spec (zlen rx) (zlen exp)) as [E|E]; cbn [negb]; [|eauto].
  destruct mask as [m|]; [apply mask_loop_total; lia|]. unfold memcmp_eq. replace ((zlen rx <? zlen rx) || (zlen exp <? zlen rx)) with false by lia. eauto.
Qed.

Lemma match_total : forall b cs, Forall sane cs -> exists hit cs', match_cmds b cs = Ret (hit, cs') /\ Forall sane cs'.
Proof.
  intros b. induction cs as [|c cs IH]; intros H; [cbn [match_cmds]; eauto|]. destruct (IH (Forall_inv_tail H)) as [hit [cs' [E1 E2]]]. pose proof (Forall_inv H) as HC. rewrite match_cmds_cons, E1. cbn [bind].
  destruct (c_done c); [eexists _, _; split; [reflexivity|constructor; auto]|].
  assert (HV : exists v, verdict c b = Ret v). { unfold verdict. destruct (c_buf c) as [x|] eqn:E; [|eauto]. destruct (s_frame _ HC x E) as [f [-> ->]]. apply bequal_total. }
  destruct HV as [v ->]. cbn [bind]. destruct v; eexists _, _; (split; [reflexivity|]).
  - constructor; [|apply (Forall_inv_tail H)]. destruct HC as [A1 A2 A3]. constructor; auto.
  - constructor; auto.
Qed.

Definition sane_res (r : resource) : Prop := Forall sane (r_cmds r).

Lemma rx_one_total : forall m r, tag_fits m -> sane_res r -> exists r' ev, rx_one m r = Ret (r', ev) /\ sane_res r'.
Proof.
  intros m r HM HR. unfold rx_one. destruct (rx_frame_total _ HM) as [o ->]. cbn [bind]. destruct o as [b|]; [|eauto]. destruct (match_total b _ HR) as [hit [cs' [-> E]]]. cbn [bind]. destruct hit; eauto.
Qed.

Lemma rx_all_total : forall rd, messages_fit rd -> forall rs i, Forall sane_res rs -> exists rs' ev, rx_all rd i rs = Ret (rs', ev) /\ Forall sane_res rs'.
Proof.
  intros rd HM. induction rs as [|r rs IH]; intros i H; cbn [rx_all]; [eauto|].
  assert (HO : exists r' ev, match (if has_rx r then rd_rx rd i else None) with Some m => rx_one m r | None => Ret (r, []) end = Ret (r', ev) /\ sane_res r').
  { destruct (has_rx r); [|exists r, []; split; [auto|apply (Forall_inv H)]]. destruct (rd_rx rd i) as [m|] eqn:E; [|exists r, []; split; [auto|apply (Forall_inv H)]]. apply rx_one_total; [eapply HM; eauto|apply (Forall_inv H)]. }
  destruct HO as [r' [ev [-> HS]]]. cbn [bind]. destruct (IH (S i) (Forall_inv_tail H)) as [rs' [ev' [-> HS']]]. cbn [bind]. eauto 6.
Qed.

(** ** Transmitting *)

(** The number of sends left. *)
Definition left (c : cmd) : Z := if pending_tx c then times c else 0.
Definition lefts (cs : list cmd) : Z := fold_right Z.add 0 (map left cs).
Definition total (rs : list resource) : Z := fold_right Z.add 0 (map (fun r => lefts (r_cmds r)) rs).

Lemma left_range : forall c, sane c -> 0 <= left c <= 2 ^ 32.
Proof. intros c H. unfold left. destruct (times_pos c (s_rep _ H)) as [T _]. destruct (pending_tx c); change (2 ^ 32) with 4294967296 in *; lia. Qed.

Lemma lefts_range : forall cs, Forall sane cs -> 0 <= lefts cs <= 2 ^ 32 * zlen cs.
Proof.
  intros cs H. induction H as [|c cs H1 H IH]; [cbn; lia|]. unfold lefts in *. cbn [map fold_right]. rewrite zlen_cons. pose proof (left_range _ H1). change (2 ^ 32) with 4294967296 in *. lia.
Qed.

Definition size (rs : list resource) : Z := fold_right Z.add 0 (map (fun r => zlen (r_cmds r)) rs).

Lemma total_range : forall rs, Forall sane_res rs -> 0 <= total rs <= 2 ^ 32 * size rs.
Proof.
  intros rs H. induction H as [|r rs H1 H IH]; [cbn; lia|]. unfold total, size in *. cbn [map fold_right]. pose proof (lefts_range _ H1). change (2 ^ 32) with 4294967296 in *. lia.
Qed.

Lemma left_sent : forall c, sane c -> pending_tx c = true -> left (sent true c) = left c - 1.
Proof.
  intros c H HP. unfold left. rewrite HP. pose proof (s_rep _ H) as R. unfold sent. cbn [set_repeat c_repeat andb]. unfold times.
  assert (U : u32 (c_repeat c - 1) = if c_repeat c =? 0 then 2 ^ 32 - 1 else c_repeat c - 1).
  { unfold u32. change (2 ^ 32) with 4294967296 in *. destruct (Z.eqb_spec (c_repeat c) 0) as [->|E]; [reflexivity|]. rewrite Z.mod_small by lia. auto. }
  rewrite U. change (2 ^ 32) with 4294967296 in *. unfold pending_tx in *. apply andb_prop in HP. destruct HP as [HP1 HP2].
  destruct (Z.eqb_spec (c_repeat c) 0) as [E|E].
  - change (4294967296 - 1 =? 0) with false. cbn iota. change (is_tx (set_repeat (4294967296 - 1) c)) with (is_tx c). cbn [set_repeat c_done c_repeat]. rewrite HP1, HP2. cbn [andb]. reflexivity.
  - destruct (Z.eqb_spec (c_repeat c - 1) 0) as [E1|E1].
    + cbn [set_done c_done]. cbn [negb]. rewrite andb_false_r. lia.
    + change (is_tx (set_repeat (c_repeat c - 1) c)) with (is_tx c). cbn [set_repeat c_done c_repeat]. rewrite HP1, HP2. cbn [andb]. destruct (Z.eqb_spec (c_repeat c - 1) 0); lia.
Qed.

Lemma sane_sent : forall ok c, sane c -> sane (sent ok c).
Proof.
  intros ok c [A1 A2 A3]. unfold sent. assert (0 <= u32 (c_repeat c - 1) < 2 ^ 32) by (unfold u32; apply Z.mod_pos_bound; reflexivity). destruct (ok && _); constructor; auto.
Qed.

Lemma tx_one_exists : forall ok cs, Forall sane cs -> exists o, tx_one ok cs = Ret o.
Proof.
  intros ok cs H. induction H as [|c cs H1 H [o IH]]; [cbn; eauto|]. cbn [tx_one]. change (cmd_type_eqb (c_type c) CT_tx) with (is_tx c). destruct (is_tx c) eqn:E; cbn [andb].
  - destruct (s_tx _ H1 E) as [b ->]. destruct (negb (c_done c)); [eauto|]. rewrite IH. cbn [bind]. eauto.
  - rewrite IH. cbn [bind]. eauto.
Qed.

Lemma lefts_app : forall a b, lefts (a ++ b) = lefts a + lefts b.
Proof. intros a b. unfold lefts. rewrite map_app. induction (map left a) as [|x l IH]; [auto|]. cbn [app fold_right]. lia. Qed.

Lemma tx_one_total : forall cs, Forall sane cs -> exists o, tx_one true cs = Ret o /\
  match o with None => True | Some (cs', more, ev) => Forall sane cs' /\ lefts cs' = lefts cs - 1 end.
Proof.
  intros cs H. destruct (tx_one_exists true cs H) as [o E]. exists o. split; [auto|]. destruct o as [[[cs' more] ev]|]; [|auto]. apply tx_one_spec in E. destruct E as [l [c [r [-> [_ [HP [-> _]]]]]]].
  apply Forall_app in H. destruct H as [H1 H2]. pose proof (Forall_inv H2) as HC. split.
  - apply Forall_app. split; [auto|]. constructor; [apply sane_sent; auto|apply (Forall_inv_tail H2)].
  - rewrite !lefts_app. unfold lefts at 2 4. cbn [map fold_right]. rewrite left_sent by auto. lia.
Qed.

Lemma tx_pass_total : forall wr send, (forall n, send n = true) -> forall rs i k, Forall sane_res rs ->
  exists rs' k' more ev, tx_pass wr send i k rs = Ret (rs', k', more, ev) /\ Forall sane_res rs' /\ total rs' <= total rs /\ (more = true -> total rs' < total rs).
Proof.
  intros wr send HS. induction rs as [|r rs IH]; intros i k H; cbn [tx_pass].
  - exists [], k, false, []. split; [auto|]. split; [auto|]. split; [lia|discriminate].
  - pose proof (Forall_inv H) as HR. destruct (wr i).
    + rewrite HS. destruct (tx_one_total _ HR) as [o [-> HO]]. cbn [bind]. destruct o as [[[cs' more] ev]|].
      * destruct (IH (S i) (S k) (Forall_inv_tail H)) as [rs' [k' [more' [ev' [-> [A1 [A2 A3]]]]]]]. cbn [bind]. eexists _, _, _, _. split; [reflexivity|]. destruct HO as [O1 O2]. split; [constructor; auto|].
        unfold total in *. cbn [map fold_right r_cmds]. split; [lia|]. intros _. lia.
      * destruct (IH (S i) k (Forall_inv_tail H)) as [rs' [k' [more' [ev' [-> [A1 [A2 A3]]]]]]]. cbn [bind]. eexists _, _, _, _. split; [reflexivity|]. split; [constructor; auto|].
        unfold total in *. cbn [map fold_right]. split; [lia|]. intros X. specialize (A3 X). lia.
    + destruct (IH (S i) k (Forall_inv_tail H)) as [rs' [k' [more' [ev' [-> [A1 [A2 A3]]]]]]]. cbn [bind]. eexists _, _, _, _. split; [reflexivity|]. split; [constructor; auto|].
      unfold total in *. cbn [map fold_right]. split; [lia|]. intros X. specialize (A3 X). lia.
Qed.

Transparent loop_pow.
Lemma loop_pow_total : forall S (body : S -> out (S * bool)) (I : S -> Prop) (mu : S -> Z),
  (forall s, I s -> exists s' more, body s = Ret (s', more) /\ I s' /\ mu s' <= mu s /\ (more = true -> mu s' + 1 <= mu s)) ->
  forall n s, I s -> exists s' more, loop_pow n body s = Ret (s', more) /\ I s' /\ mu s' <= mu s /\ (more = true -> mu s' + 2 ^ Z.of_nat n <= mu s).
Proof.
  intros S body I mu HB. induction n as [|n IH]; intros s HI; cbn [loop_pow]; [apply HB; auto|]. destruct (IH s HI) as [s1 [m1 [-> [A1 [A2 A3]]]]]. cbn [bind].
  rewrite Nat2Z.inj_succ, Z.pow_succ_r by lia. destruct m1.
  - specialize (A3 eq_refl). destruct (IH s1 A1) as [s2 [m2 [-> [B1 [B2 B3]]]]]. exists s2, m2. split; [auto|]. split; [auto|]. split; [lia|]. intros X. specialize (B3 X). lia.
  - exists s1, false. split; [auto|]. split; [auto|]. split; [auto|discriminate].
Qed.
Opaque loop_pow.

Lemma tx_loop_total : forall wr send rs, (forall n, send n = true) -> Forall sane_res rs -> size rs <= 100 -> exists rs' ev, tx_loop wr send rs = Ret (rs', ev) /\ Forall sane_res rs'.
Proof.
  intros wr send rs HS HR HL. unfold tx_loop. destruct (loop_pow_total _ (tx_body wr send) (fun s => Forall sane_res (tx_rs s)) (fun s => total (tx_rs s))) with (n := 64%nat) (s := MkTx rs 0 []) as [s' [more [-> [A1 [A2 A3]]]]].
  - intros s HI. unfold tx_body. destruct (tx_pass_total wr send HS (tx_rs s) 0 (tx_k s) HI) as [rs' [k' [more [ev [-> [A1 [A2 A3]]]]]]]. cbn [bind]. eexists _, _. split; [reflexivity|]. cbn [tx_rs]. split; [auto|]. split; [auto|]. intros X. specialize (A3 X). lia.
  - auto.
  - cbn [tx_rs] in *. cbn [bind]. pose proof (total_range _ HR). pose proof (total_range _ A1). destruct more; [|eauto]. specialize (A3 eq_refl). change (2 ^ Z.of_nat 64) with 18446744073709551616 in A3. change (2 ^ 32) with 4294967296 in *. lia.
Qed.

Lemma size_evolves : forall rs rs', Forall2 evolves rs rs' -> size rs' = size rs.
Proof.
  intros rs rs' H. induction H as [|r r' rs rs' H1 H IH]; [auto|]. unfold size in *. cbn [map fold_right]. unfold evolves in H1. rewrite IH. unfold zlen. rewrite (Forall2_length' _ _ _ _ _ H1). auto.
Qed.

Lemma main_total : forall rds rs, all_sent rds -> Forall messages_fit rds -> Forall sane_res rs -> Forall homog rs -> NoDup (map r_name rs) -> size rs <= 100 ->
  exists rs' ev, main_loop rds rs = Ret (rs', ev).
Proof.
  induction rds as [|rd rds IH]; intros rs HS HM HR HH HN HL; rewrite main_loop_eq; destruct (existsb active rs); cbn [served]; eauto.
  destruct (rd_late rd || (rd_select rd <=? 0)); [eauto|]. cbn [tl].
  assert (HP : exists rs1 ev1, process rd rs = Ret (rs1, ev1) /\ Forall sane_res rs1).
  { unfold process. destruct (rx_all_total rd (Forall_inv HM) rs 0 HR) as [rs1 [ev1 [E1 S1]]]. rewrite E1. cbn [bind]. pose proof (rx_all_pass _ _ _ _ _ E1) as P1. destruct (pass_evolves _ _ _ _ _ (rx_local rd) HH P1) as [_ [_ [A3 _]]].
    destruct (tx_loop_total (fun i => nth i (map has_tx rs) false && rd_wr rd i) (rd_send rd) rs1) as [rs2 [ev2 [-> S2]]]; [intros n; apply HS; left; auto|auto|rewrite (size_evolves _ _ A3); auto|]. cbn [bind]. eauto. }
  destruct HP as [rs1 [ev1 [E1 S1]]]. rewrite E1. cbn [bind]. destruct (process_sim _ _ _ _ E1 HH HN) as [A1 [A2 _]].
  destruct (IH rs1) as [rs2 [ev2 ->]]; auto.
  - intros x n Hx. apply HS. right. auto.
  - apply (Forall_inv_tail HM).
  - rewrite (evolves_names _ _ A2). auto.
  - rewrite (size_evolves _ _ A2). auto.
  - cbn [bind]. eauto.
Qed.

(** ** Everything *)

Lemma pcap_total : forall cs, Forall cmd_ready cs -> exists ev, pcap_events cs = Ret ev.
Proof.
  intros cs H. induction H as [|c cs H1 H [ev IH]]; [cbn; eauto|]. cbn [pcap_events]. assert (HO : exists x, match c_type c with CT_pcap => match c_buf c with Some b => Ret [EvPcap (str_of (c_arg0 c)) b] | None => Crash Null_deref end | _ => Ret [] end = Ret x).
  { destruct (c_type c) eqn:E; eauto. destruct (c_buf c) eqn:EB; [eauto|]. destruct (y_buf _ H1 EB) as [X|X]; unfold is_rx, is_name in X; rewrite E in X; discriminate. }
  destruct HO as [x ->]. cbn [bind]. rewrite IH. cbn [bind]. eauto.
Qed.

Lemma hex_total : forall cs, Forall cmd_ready cs -> exists ev, hex_events cs = Ret ev.
Proof.
  intros cs H. induction H as [|c cs H1 H [ev IH]]; [cbn; eauto|]. cbn [hex_events]. rewrite IH. cbn [bind].
  destruct (c_type c) eqn:E; cbn [bind]; eauto. destruct (c_buf c) as [b|] eqn:EB; cbn [bind]; [|eauto]. destruct (c_mask c) as [m|] eqn:EM; cbn [bind]; [|eauto].
  destruct (y_mask _ H1 m EM) as [b' [X1 X2]]. assert (b' = b) by congruence. subst b'. unfold zlen. rewrite X2, Z.ltb_irrefl. cbn [bind]. eauto.
Qed.

Lemma sum_filter_partition : forall rs, size rs = zlen (flat_map r_cmds rs).
Proof. induction rs as [|r rs IH]; [auto|]. unfold size in *. cbn [map fold_right flat_map]. rewrite IH. unfold zlen. rewrite app_length. lia. Qed.

Lemma ready_sane : forall cs c, Forall cmd_ready cs -> no_padding cs -> In c cs -> sane c.
Proof.
  intros cs c HR HN HC. rewrite Forall_forall in HR. destruct (HR c HC) as [A1 A2 A3 A4 A5 A6 A7]. constructor; auto.
  - intros HT. destruct (c_buf c) as [b|]; [eauto|]. destruct (A4 eq_refl) as [X|X]; unfold is_tx, is_rx, is_name in *; destruct (c_type c); discriminate.
  - intros b Hb. destruct (A3 b Hb) as [f Hf]. exists f. split; [auto|]. eapply HN; eauto.
Qed.

Lemma grouped_sane : forall cs rs, Forall cmd_ready cs -> no_padding cs -> grouped cs rs -> Forall sane_res rs.
Proof.
  intros cs rs HR HN HG. apply Forall_forall. intros r Hr. destruct (gr_cmds _ _ HG r Hr) as [X _]. unfold sane_res. rewrite X. apply Forall_forall. intros c Hc. unfold commands_on in Hc. apply filter_In in Hc. eapply ready_sane; eauto. tauto.
Qed.

Lemma grouped_size : forall cs rs, Forall cmd_ready cs -> grouped cs rs -> (length cs <= 100)%nat -> size rs <= 100.
Proof.
  intros cs rs HR HG HL. rewrite sum_filter_partition. unfold zlen. rewrite (Permutation_length (one_socket_each _ _ (ready_fits _ HR) HG)). pose proof (filter_le _ traffic cs). lia.
Qed.

Lemma filled_padding : forall all cs cs', Forall2 (filled_in all) cs cs' -> no_padding all -> no_padding cs -> no_padding cs'.
Proof.
  intros all cs cs' H HA HC c' f Hc Hf. destruct (Forall2_in_r _ _ _ _ _ H _ Hc) as [c [K1 [K2 K3]]]. destruct (reference c) as [n|] eqn:E.
  - apply reference_refers in E. destruct (K2 _ E) as [d [[l [r [-> _]]] ->]]. apply (HA d); [apply in_or_app; right; left; auto|auto].
  - rewrite K3 in Hf by (intros n Hn; apply reference_refers in Hn; congruence). eapply HC; eauto.
Qed.

(** C57 *)
Lemma execution_total : forall ws e cs, parse_cmds ws = Ret (Some cs) -> no_padding cs -> all_sent (e_rounds e) -> Forall messages_fit (e_rounds e) ->
  exists r ev, argc_cmds ws e = Ret (r, ev).
Proof.
  intros ws e cs HP HN HS HM. unfold argc_cmds. rewrite HP. cbn [bind]. destruct (parsed_good _ _ HP) as [HG HL]. unfold exec_cmds. rewrite pair_cmds_spec.
  destruct (undefined_refs cs) as [|u us] eqn:HU.
  2: { cbn [length]. rewrite Nat2Z.inj_succ. destruct (Z.eqb_spec (Z.succ (Z.of_nat (length us))) 0); [lia|]. cbn [negb]. eauto. }
  cbn [length Z.of_nat]. change (negb (0 =? 0)) with false. cbn iota.
  assert (HF : Forall2 (filled_in cs) cs (map (paired cs) cs)) by (apply Forall2_map_filled; intros c Hc; apply undefined_nil; auto).
  destruct (filled_all_ready cs cs _ HG HG HF) as [HR HLen]. pose proof (filled_padding _ _ _ HF HN HN) as HN'.
  set (cs1 := map (paired cs) cs) in *. clearbody cs1.
  destruct (pcap_total _ HR) as [ev1 ->]. cbn [bind]. destruct (hex_total _ HR) as [ev2 ->]. cbn [bind].
  destruct (grouping cs1 (ready_fits _ HR) ltac:(lia)) as [rs [ER GR]]. rewrite ER. cbn [bind]. destruct (forallb _ rs); [|eauto].
  destruct (main_total (e_rounds e) rs HS HM) as [rs' [ev3 ->]].
  - eapply grouped_sane; eauto.
  - eapply grouped_homog; eauto.
  - rewrite (gr_names _ _ GR). apply distinct_nodup.
  - eapply grouped_size; eauto. lia.
  - cbn [bind]. destruct (check_all rs'). eauto.
Qed.

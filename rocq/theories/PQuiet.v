(** Receiving does not change what is transmitted (C45); what is received is what is
    delivered, with the VLAN tag (C49). *)

From Coq Require Import Permutation.
From Verif Require Import PTextIp PTextNum Frame Exec SpecExec PParse PMatch PCmd PPair PExec PRecv PVerdict PSend.

(** ** Transmissions only *)

Definition proj (r : resource) : resource := MkRes (txc r) 0.

Definition omap {A B} (f : A -> B) (o : out A) : out B := match o with Ret a => Ret (f a) | Crash c => Crash c end.

Lemma tx_one_proj : forall ok cs, tx_one ok (filter is_tx cs) =
  omap (fun o => match o with Some (cs', more, ev) => Some (filter is_tx cs', more, ev) | None => None end) (tx_one ok cs).
Proof.
  intros ok. induction cs as [|c cs IH]; [auto|]. cbn [filter tx_one]. change (cmd_type_eqb (c_type c) CT_tx) with (is_tx c). destruct (is_tx c) eqn:E.
  - cbn [tx_one andb]. change (cmd_type_eqb (c_type c) CT_tx) with (is_tx c). rewrite E. cbn [andb]. destruct (negb (c_done c)).
    + destruct (c_buf c); [|auto]. cbn [omap]. do 4 f_equal. cbn [filter].
      assert (X : is_tx (if ok && (c_repeat (set_repeat (u32 (c_repeat c - 1)) c) =? 0) then set_done (set_repeat (u32 (c_repeat c - 1)) c) else set_repeat (u32 (c_repeat c - 1)) c) = true) by (destruct (ok && _); exact E).
      rewrite X. auto.
    + rewrite IH. destruct (tx_one ok cs) as [[[[cs' m] ev]|]|]; cbn [bind omap]; auto. cbn [filter]. rewrite E. auto.
  - rewrite IH. cbn [andb]. destruct (tx_one ok cs) as [[[[cs' m] ev]|]|]; cbn [bind omap]; auto. cbn [filter]. rewrite E. auto.
Qed.

Lemma tx_pass_proj : forall wr send rs i k, tx_pass wr send i k (map proj rs) =
  omap (fun p => let '(rs', k', more, ev) := p in (map proj rs', k', more, ev)) (tx_pass wr send i k rs).
Proof.
  intros wr send. induction rs as [|r rs IH]; intros i k; [auto|]. cbn [map tx_pass]. unfold proj at 1. cbn [r_cmds]. unfold txc. rewrite tx_one_proj. destruct (wr i).
  - destruct (tx_one (send k) (r_cmds r)) as [[[[cs' m] ev]|]|]; cbn [bind omap]; [| |auto]; rewrite IH; (destruct (tx_pass wr send _ _ rs) as [[[[rs1 k1] m1] ev1]|]; cbn [bind omap]; auto).
  - rewrite IH. destruct (tx_pass wr send _ _ rs) as [[[[rs1 k1] m1] ev1]|]; cbn [bind omap]; auto.
Qed.

Lemma loop_pow_map : forall S T (f : S -> T) bs bt, (forall s, bt (f s) = omap (fun p => (f (fst p), snd p)) (bs s)) ->
  forall n s, loop_pow n bt (f s) = omap (fun p => (f (fst p), snd p)) (loop_pow n bs s).
Proof.
  Transparent loop_pow.
  intros S T f bs bt H. induction n as [|n IH]; intros s; cbn [loop_pow]; [apply H|]. rewrite IH. destruct (loop_pow n bs s) as [[s1 m]|]; cbn [bind omap fst snd]; [|auto]. destruct m; [apply IH|auto].
Qed.
Opaque loop_pow.

Lemma tx_loop_proj : forall wr send rs, tx_loop wr send (map proj rs) = omap (fun p => (map proj (fst p), snd p)) (tx_loop wr send rs).
Proof.
  intros wr send rs. unfold tx_loop. pose (f := fun s => MkTx (map proj (tx_rs s)) (tx_k s) (tx_ev s)). change (MkTx (map proj rs) 0 []) with (f (MkTx rs 0 [])).
  rewrite (loop_pow_map _ _ f (tx_body wr send) (tx_body wr send)).
  - destruct (loop_pow 64 (tx_body wr send) (MkTx rs 0 [])) as [[s m]|]; cbn [bind omap fst snd]; [|auto]. destruct m; auto.
  - intros s. unfold tx_body, f. cbn [tx_k tx_rs tx_ev]. rewrite tx_pass_proj. destruct (tx_pass wr send 0 (tx_k s) (tx_rs s)) as [[[[rs1 k1] m1] ev1]|]; cbn [bind omap fst snd tx_rs tx_k tx_ev]; auto.
Qed.

Definition calm (rs : list resource) (ev : list event) : Prop :=
  forall r p, In r rs -> In p (receptions (r_name r) ev) -> quiet_tx r (snd p).

Definition all_traffic (r : resource) : Prop := Forall (fun c => traffic c = true) (r_cmds r).

Lemma calm_app : forall rs a b, calm rs (a ++ b) -> calm rs a /\ calm rs b.
Proof. intros rs a b H. split; intros r p Hr Hp; apply (H r p Hr); rewrite receptions_app; apply in_or_app; auto. Qed.

Lemma rx_all_proj : forall rd i rs rs' ev, rx_all rd i rs = Ret (rs', ev) -> Forall homog rs -> Forall all_traffic rs -> calm rs ev ->
  map proj rs' = map proj rs /\ filter is_transmit ev = [].
Proof.
  intros rd i rs rs' ev H HO HT HC. apply rx_all_pass in H. induction H as [|i r r' rs rs' ev1 ev2 H1 H IH]; [auto|]. apply calm_app in HC. destruct HC as [C1 C2].
  destruct IH as [I1 I2]; [apply (Forall_inv_tail HO)|apply (Forall_inv_tail HT)|intros x p Hx; apply C2; right; auto|]. cbn [map]. rewrite I1, filter_app, I2, app_nil_r.
  destruct H1 as [[_ [m [b [_ [_ A]]]]]|[-> [-> _]]]; [|auto]. assert (HQ : quiet_tx r b).
  { destruct (rx_step_receptions _ _ _ _ A (Forall_inv HO)) as [hit X]. apply (C1 r (hit, b)); [left; auto|]. rewrite X. left. auto. }
  destruct (rx_step_ex _ _ _ _ A (Forall_inv HO) (Forall_inv HT) HQ) as [hit [_ [X _]]]. split; [f_equal; unfold proj, txc; rewrite X; auto|]. destruct A as [[c|] [cs [_ [_ ->]]]]; auto.
Qed.

Lemma has_tx_proj : forall r, has_tx (proj r) = has_tx r.
Proof. intros r. rewrite !has_tx_pending. rewrite (pending_txc r). cbn [proj r_cmds]. auto. Qed.

Lemma map_has_tx : forall rs rs', map proj rs = map proj rs' -> map has_tx rs = map has_tx rs'.
Proof.
  intros rs rs' H. apply (f_equal (map has_tx)) in H. rewrite !map_map in H. rewrite <- (map_ext _ _ has_tx_proj rs), <- (map_ext _ _ has_tx_proj rs'). auto.
Qed.

Lemma tx_only : forall wr send rs rs' ev, tx_loop wr send rs = Ret (rs', ev) -> filter is_transmit ev = ev.
Proof.
  intros wr send rs rs' ev H. unfold tx_loop in H. binv H. destruct a as [s m]. destruct m; [discriminate|]. apply ret_inj, pair_inj in H. destruct H as [<- <-]. apply loop_pow_iters in E.
  assert (K : forall s s' m, iters (tx_body wr send) s s' m -> filter is_transmit (tx_ev s) = tx_ev s -> filter is_transmit (tx_ev s') = tx_ev s').
  { assert (B : forall s s' m, tx_body wr send s = Ret (s', m) -> filter is_transmit (tx_ev s) = tx_ev s -> filter is_transmit (tx_ev s') = tx_ev s').
    { intros s0 s1 m H1 H2. unfold tx_body in H1. binv H1. destruct a as [[[rs1 k1] m1] ev1]. apply ret_inj, pair_inj in H1. destruct H1 as [<- <-]. cbn [tx_ev]. rewrite filter_app, H2. f_equal.
      apply tx_pass_pass in E0. clear -E0. induction E0 as [|i r r' rs rs' e1 e2 H1 H IH]; [auto|]. rewrite filter_app, IH. f_equal. destruct H1 as [[_ [k [own [[cs [HT _]] _]]]]|[_ [-> _]]]; [|auto].
      apply tx_one_spec in HT. destruct HT as [l [c [q [_ [_ [_ [_ [_ ->]]]]]]]]. unfold send_events. destruct (send k && _); auto. }
    intros s0 s1 m H1. induction H1; eauto. }
  eapply K; eauto.
Qed.

Lemma traffic_evolves : forall rs rs', Forall2 evolves rs rs' -> Forall all_traffic rs -> Forall all_traffic rs'.
Proof. intros rs rs' H. induction H as [|r r' rs rs' H1 H IH]; intros HT; constructor; [eapply evolves_traffic; eauto; apply (Forall_inv HT)|apply IH; apply (Forall_inv_tail HT)]. Qed.

Lemma calm_evolves : forall rs rs' ev, Forall2 evolves rs rs' -> calm rs ev -> calm rs' ev.
Proof.
  intros rs rs' ev H HC r' p Hr Hp. destruct (Forall2_in_r _ _ _ _ _ H _ Hr) as [r [X1 X2]]. eapply evolves_quiet; [eauto|]. apply HC; [auto|]. rewrite <- (evolves_name _ _ X2). auto.
Qed.

Lemma has_rx_evolves : forall rs rs', Forall2 evolves rs rs' -> map has_rx rs' = map has_rx rs.
Proof. intros rs rs' H. induction H as [|r r' rs rs' H1 H IH]; [auto|]. cbn [map]. rewrite IH, (evolves_has_rx _ _ H1). auto. Qed.

Lemma process_proj : forall rd1 rd2 rs1 rs2 rs1' rs2' ev1 ev2, process rd1 rs1 = Ret (rs1', ev1) -> process rd2 rs2 = Ret (rs2', ev2) -> same_but_received rd1 rd2 ->
  map proj rs1 = map proj rs2 -> Forall homog rs1 -> Forall homog rs2 -> Forall all_traffic rs1 -> Forall all_traffic rs2 -> calm rs1 ev1 -> calm rs2 ev2 ->
  map proj rs1' = map proj rs2' /\ filter is_transmit ev1 = filter is_transmit ev2.
Proof.
  intros rd1 rd2 rs1 rs2 rs1' rs2' ev1 ev2 H1 H2 [_ [_ [HW HS]]] HP O1 O2 T1 T2 C1 C2. unfold process in H1, H2. rewrite (map_has_tx _ _ HP), HW, HS in H1.
  binv H1. destruct a as [a1 e1]. binv H1. destruct a as [b1 f1]. apply ret_inj, pair_inj in H1. destruct H1 as [<- <-].
  binv H2. destruct a as [a2 e2]. binv H2. destruct a as [b2 f2]. apply ret_inj, pair_inj in H2. destruct H2 as [<- <-].
  destruct (rx_all_proj _ _ _ _ _ E O1 T1 (proj1 (calm_app _ _ _ C1))) as [P1 Q1]. destruct (rx_all_proj _ _ _ _ _ E1 O2 T2 (proj1 (calm_app _ _ _ C2))) as [P2 Q2].
  pose proof (f_equal (omap (fun p => (map proj (fst p), snd p))) E0) as X1. rewrite <- tx_loop_proj in X1. pose proof (f_equal (omap (fun p => (map proj (fst p), snd p))) E2) as X2. rewrite <- tx_loop_proj in X2.
  cbn [omap fst snd] in X1, X2. rewrite P1, HP, <- P2 in X1. rewrite X2 in X1. apply ret_inj, pair_inj in X1. destruct X1 as [X3 X4]. split; [auto|]. rewrite !filter_app, Q1, Q2, X4. auto.
Qed.

Lemma active_exists : forall rs rs', map has_tx rs = map has_tx rs' -> map has_rx rs = map has_rx rs' -> existsb active rs = existsb active rs'.
Proof.
  induction rs as [|r rs IH]; intros [|r' rs'] H K; try discriminate; [auto|]. cbn [map] in *. cbn [existsb]. rewrite (IH rs'); [|congruence|congruence]. unfold active.
  assert (has_tx r = has_tx r') as -> by congruence. assert (has_rx r = has_rx r') as -> by congruence. auto.
Qed.

Lemma served_same : forall l1 l2, Forall2 same_but_received l1 l2 -> Forall2 same_but_received (served l1) (served l2).
Proof. intros l1 l2 H. induction H as [|a b l1 l2 H1 H IH]; [constructor|]. cbn [served]. destruct H1 as [X1 [X2 X3]] eqn:E. rewrite X1, X2. destruct (_ || _); constructor; auto. Qed.

Lemma main_two : forall rds1 rds2, Forall2 same_but_received rds1 rds2 -> forall rs1 rs2 rs1' rs2' ev1 ev2,
  main_loop rds1 rs1 = Ret (rs1', ev1) -> main_loop rds2 rs2 = Ret (rs2', ev2) -> map proj rs1 = map proj rs2 -> map has_rx rs1 = map has_rx rs2 ->
  Forall all_traffic rs1 -> Forall all_traffic rs2 -> Forall homog rs1 -> Forall homog rs2 -> NoDup (map r_name rs1) -> NoDup (map r_name rs2) -> calm rs1 ev1 -> calm rs2 ev2 ->
  filter is_transmit ev1 = filter is_transmit ev2.
Proof.
  intros rds1 rds2 H. induction H as [|a b l1 l2 H1 H IH]; intros rs1 rs2 rs1' rs2' ev1 ev2 R1 R2 HP HR T1 T2 O1 O2 N1 N2 C1 C2; rewrite main_loop_eq in R1, R2;
    rewrite (active_exists _ _ (map_has_tx _ _ HP) HR) in R1; destruct (existsb active rs2); cbn [served] in *; try congruence.
  assert (HS : rd_late a || (rd_select a <=? 0) = rd_late b || (rd_select b <=? 0)) by (destruct H1 as [-> [-> _]]; auto). rewrite HS in R1.
  destruct (rd_late b || (rd_select b <=? 0)); [congruence|]. cbn [tl] in *.
  binv R1. destruct a0 as [a1 e1]. binv R1. destruct a0 as [b1 f1]. apply ret_inj, pair_inj in R1. destruct R1 as [<- <-].
  binv R2. destruct a0 as [a2 e2]. binv R2. destruct a0 as [b2 f2]. apply ret_inj, pair_inj in R2. destruct R2 as [<- <-].
  apply calm_app in C1. apply calm_app in C2. destruct C1 as [C1 C1']. destruct C2 as [C2 C2'].
  destruct (process_proj _ _ _ _ _ _ _ _ E E1 H1 HP O1 O2 T1 T2 C1 C2) as [P Q]. destruct (process_sim _ _ _ _ E O1 N1) as [A1 [A2 _]]. destruct (process_sim _ _ _ _ E1 O2 N2) as [B1 [B2 _]].
  rewrite !filter_app, Q. f_equal. eapply IH; try eassumption.
  - rewrite (has_rx_evolves _ _ A2), (has_rx_evolves _ _ B2). auto.
  - eapply traffic_evolves; eauto.
  - eapply traffic_evolves; eauto.
  - rewrite (evolves_names _ _ A2). auto.
  - rewrite (evolves_names _ _ B2). auto.
  - eapply calm_evolves; eauto.
  - eapply calm_evolves; eauto.
Qed.

Lemma no_if_transmit : forall ev, no_if ev -> filter is_transmit ev = [] /\ forall n, receptions n ev = [].
Proof.
  intros ev H. induction H as [|x ev [H1 H2] H [IH1 IH2]]; [auto|]. destruct x; try discriminate; cbn; auto.
Qed.

Lemma final_transmit : forall rs, filter is_transmit (flat_map final rs) = [].
Proof.
  induction rs as [|r rs IH]; [auto|]. cbn [flat_map]. rewrite filter_app, IH, app_nil_r. unfold final. induction (filter missing (r_cmds r)); auto.
Qed.

(** What a run does, in order. *)
Lemma run_main : forall ws e cs r ev, runs ws e cs r ev -> exists rs rs' ev0 ev4,
  add_all cs [] = Ret rs /\ grouped cs rs /\ main_loop (e_rounds e) rs = Ret (rs', ev4) /\ ev = ev0 ++ ev4 ++ flat_map final rs' /\ no_if ev0.
Proof.
  intros ws e cs r ev HR. destruct (run_ready _ _ _ _ _ HR) as [HC [HL HX]]. destruct HR as [[cs0 [H1 H2]] [HO _]].
  assert (HN : Forall (fun c => reference c = None) cs).
  { destruct (parsed_good _ _ H1) as [G1 _]. assert (K : forall l l', Forall2 (filled_in cs0) l l' -> Forall (fun c => reference c = None) l') by (intros l l' X; induction X; constructor; auto; eapply filled_reference; eauto). eauto. }
  unfold exec_cmds in HX. rewrite pair_cmds_spec in HX. destruct (undefined_none cs cs HN) as [HU HP]. change (flat_map (uref cs) cs) with (undefined_refs cs) in HU. rewrite HU, HP in HX. cbn [length Z.of_nat map app] in HX.
  change (negb (0 =? 0)) with false in HX. cbn iota in HX. binv HX. binv HX. destruct (grouping cs (ready_fits _ HC) HL) as [rs [ER HG]]. rewrite ER in HX. cbn [bind] in HX.
  rewrite served_open in HX by (intros ifn Hi; apply HO; rewrite <- (gr_names _ _ HG); auto). binv HX. destruct a1 as [rs' ev4]. rewrite check_all_spec in HX. apply ret_inj in HX. apply pair_inj in HX. destruct HX as [<- <-].
  exists rs, rs', (name_events cs ++ a ++ a0), ev4. split; [auto|]. split; [auto|]. split; [auto|]. split; [rewrite <- !app_assoc; auto|].
  apply Forall_app. split; [apply name_events_if|]. apply Forall_app. split; [eapply pcap_events_if; eauto|eapply hex_events_if; eauto].
Qed.

Lemma grouped_traffic : forall cs rs, grouped cs rs -> Forall all_traffic rs.
Proof.
  intros cs rs HG. apply Forall_forall. intros r Hr. destruct (gr_cmds _ _ HG r Hr) as [X _]. unfold all_traffic. rewrite X. apply Forall_forall. intros c Hc. unfold commands_on in Hc. apply filter_In in Hc. destruct Hc as [_ Hc]. apply andb_prop in Hc. tauto.
Qed.

Lemma flat_final_receptions : forall n rs, receptions n (flat_map final rs) = [].
Proof. intros n. induction rs as [|r rs IH]; [auto|]. cbn [flat_map]. rewrite receptions_app, final_receptions, IH. auto. Qed.

Lemma run_calm : forall cs rs ev0 ev4 ev5, grouped cs rs -> (forall ifn, no_echo ifn cs (ev0 ++ ev4 ++ ev5)) -> calm rs ev4.
Proof.
  intros cs rs ev0 ev4 ev5 HG HE r p Hr Hp c Hc HT HA. apply (HE (r_name r) (snd p) c); [| |auto].
  - unfold received. rewrite !receptions_app, !map_app. apply in_or_app. right. apply in_or_app. left. apply in_map. auto.
  - destruct (gr_cmds _ _ HG r Hr) as [X _]. rewrite X in Hc. unfold transmissions. apply filter_In. auto.
Qed.

(** C45 *)
Lemma transmission_independent : forall ws e1 e2 cs r1 r2 ev1 ev2, runs ws e1 cs r1 ev1 -> runs ws e2 cs r2 ev2 -> Forall2 same_but_received (e_rounds e1) (e_rounds e2) ->
  (forall ifn, no_echo ifn cs ev1) -> (forall ifn, no_echo ifn cs ev2) -> filter is_transmit ev1 = filter is_transmit ev2.
Proof.
  intros ws e1 e2 cs r1 r2 ev1 ev2 R1 R2 HS E1 E2. destruct (run_main _ _ _ _ _ R1) as [rs1 [rs1' [x1 [y1 [A1 [A2 [A3 [-> A5]]]]]]]]. destruct (run_main _ _ _ _ _ R2) as [rs2 [rs2' [x2 [y2 [B1 [B2 [B3 [-> B5]]]]]]]].
  assert (rs2 = rs1) by congruence. subst rs2. rewrite !filter_app, !final_transmit, !app_nil_r. destruct (no_if_transmit _ A5) as [-> _]. destruct (no_if_transmit _ B5) as [-> _]. cbn [app].
  assert (HD : NoDup (map r_name rs1)) by (rewrite (gr_names _ _ A2); apply distinct_nodup). pose proof (grouped_homog _ _ A2) as HH. pose proof (grouped_traffic _ _ A2) as HT.
  eapply main_two; try eassumption; auto; eapply run_calm; eauto.
Qed.

Lemma unexpected_is_error : forall ws e cs r ev ifn, runs ws e cs r ev -> no_echo ifn cs ev ->
  forall ok b, In (ok, b) (receptions ifn ev) -> (forall c, In c (expectations ifn cs) -> ~ accepts c b) -> ok = false.
Proof.
  intros ws e cs r ev ifn HR HE ok b HI HC. destruct (frames_accounted _ _ _ _ _ _ HR HE) as [a [[A1 [A2 [A3 _]]] _]]. apply In_nth_error in HI. destruct HI as [k Hk].
  destruct (A2 _ _ _ Hk) as [o [O1 O2]]. destruct o as [j|]; [|auto]. destruct (A3 _ _ _ _ Hk O1) as [c [X1 X2]]. destruct (HC c (nth_error_In _ _ X1) X2).
Qed.

(** ** C49 *)
Transparent rx_frame.
Lemma rx_frame_ordinary : forall m, ordinary m -> rx_frame m = Ret (Some (put_tag m)).
Proof.
  intros m [H1 H2]. unfold rx_frame. rewrite firstn_all2 by (unfold RX_BUF; lia). unfold zlen at 1. destruct (Z.leb_spec (Z.of_nat (length (rx_data m))) 0); [lia|].
  unfold put_tag. destruct (rx_vlan m) as [[tpid tci]|]; [|auto]. specialize (H2 ltac:(discriminate)). unfold RX_BUF, zlen at 1. destruct (Z.ltb_spec (Z.of_nat (length (rx_data m)) + 4) 32768); [|lia].
  set (d := rx_data m) in *. clearbody d. rewrite <- (firstn_skipn 12 d) at 1. assert (HL : length (firstn 12 d) = 12%nat) by (rewrite firstn_length; lia).
  assert (HL2 : length (skipn 12 d) = (length d - 12)%nat) by apply skipn_length.
  assert (HD : zlen d - 12 = zlen (skipn 12 d)) by (unfold zlen; lia). rewrite HD.
  remember (firstn 12 d) as p eqn:Ep. remember (skipn 12 d) as q eqn:Eq. clear Ep Eq. do 12 (destruct p as [|? p]; [discriminate HL|]). destruct p; [|discriminate HL].
  unfold memmove_in. assert (0 <= zlen q) by (unfold zlen; lia). replace (zlen q <? 0) with false by lia.
  assert (HZ : zlen (([z; z0; z1; z2; z3; z4; z5; z6; z7; z8; z9; z10] ++ q) ++ [0; 0; 0; 0]) = 16 + zlen q) by (unfold zlen; rewrite !app_length; cbn [length]; lia). rewrite HZ.
  replace (16 + zlen q <? 12 + zlen q) with false by lia. replace (16 + zlen q <? 16 + zlen q) with false by lia. cbn [orb Z.ltb Z.compare].
  change (Z.to_nat 12) with 12%nat. change (Z.to_nat 16) with 16%nat. cbn [app skipn].
  replace (Z.to_nat (zlen q)) with (length q) by (unfold zlen; lia). replace (firstn (length q) (q ++ [0; 0; 0; 0])) with q by (rewrite firstn_app, Nat.sub_diag, firstn_all, firstn_O, app_nil_r; auto).
  rewrite (skipn_all2 (n := Z.to_nat (16 + zlen q))) by (cbn [length]; rewrite app_length; cbn [length]; unfold zlen; lia). rewrite app_nil_r.
  assert (HQ : exists w1 w2 w3 w4, firstn 4 (q ++ [0; 0; 0; 0]) = [w1; w2; w3; w4]).
  { assert (length (firstn 4 (q ++ [0; 0; 0; 0])) = 4%nat) by (rewrite firstn_length, app_length; cbn [length]; lia). destruct (firstn 4 (q ++ [0; 0; 0; 0])) as [|w1 [|w2 [|w3 [|w4 [|]]]]]; try discriminate. eauto 6. }
  destruct HQ as [w1 [w2 [w3 [w4 HQ]]]]. change (firstn 16 (z :: z0 :: z1 :: z2 :: z3 :: z4 :: z5 :: z6 :: z7 :: z8 :: z9 :: z10 :: q ++ [0; 0; 0; 0])) with ([z; z0; z1; z2; z3; z4; z5; z6; z7; z8; z9; z10] ++ firstn 4 (q ++ [0; 0; 0; 0])). rewrite HQ. cbn [app bind].
  rewrite bput_ok by (rewrite !zlen_cons; lia). change (Z.to_nat 12) with 12%nat. cbn [bind upd].
  rewrite bput_ok by (rewrite !zlen_cons; lia). change (Z.to_nat 13) with 13%nat. cbn [bind upd].
  rewrite bput_ok by (rewrite !zlen_cons; lia). change (Z.to_nat 14) with 14%nat. cbn [bind upd].
  rewrite bput_ok by (rewrite !zlen_cons; lia). change (Z.to_nat 15) with 15%nat. cbn [bind upd].
  reflexivity.
Qed.
Opaque rx_frame.

Lemma txs_receptions : forall send w r r' ev n, txs send w r r' ev -> receptions n ev = [].
Proof.
  intros send w r r' ev n H. induction H as [r r' ev H|r r1 r' e1 e2 H H1 IH].
  - destruct H as [[_ [k [own [[cs [HT _]] _]]]]|[_ [-> _]]]; [|auto]. apply tx_one_spec in HT. destruct HT as [l [c [q [_ [_ [_ [_ [_ ->]]]]]]]]. apply send_events_receptions.
  - rewrite receptions_app, IH, app_nil_r. destruct H as [[_ [k [own [[cs [HT _]] _]]]]|[_ [-> _]]]; [|auto]. apply tx_one_spec in HT. destruct HT as [l [c [q [_ [_ [_ [_ [_ ->]]]]]]]]. apply send_events_receptions.
Qed.

Lemma rounds_received : forall i rds r r' ev, rounds i rds r r' ev -> homog r -> has_rx r = true -> Forall ordinary (delivered i rds) ->
  map snd (receptions (r_name r) ev) = map put_tag (delivered i rds).
Proof.
  intros i rds r r' ev H. induction H as [r|rd rds r r1 r' e1 e2 H H1 IH]; intros HH HX HO; [auto|].
  assert (HPA : path r r1 e1). { destruct H as [r2 [f1 [f2 [A [B ->]]]]]. eapply path_app; [eapply rx_part_path; eauto|eapply txs_path; eauto]. }
  destruct (path_local _ _ _ HPA HH) as [L1 L2]. rewrite receptions_app, map_app. unfold delivered in *. cbn [flat_map] in *. rewrite map_app. apply Forall_app in HO. destruct HO as [O1 O2].
  rewrite <- (evolves_name _ _ L1) at 2. rewrite IH; [|eapply evolves_homog; eauto|rewrite (evolves_has_rx _ _ L1); auto|auto]. f_equal.
  destruct H as [r2 [f1 [f2 [A [B ->]]]]]. rewrite receptions_app, (txs_receptions _ _ _ _ _ _ B), app_nil_r.
  destruct A as [[_ [m [b [M1 [M2 A]]]]]|[_ [-> A]]].
  - rewrite M1 in *. rewrite (rx_frame_ordinary _ (Forall_inv O1)) in M2. assert (b = put_tag m) by congruence. subst b. destruct (rx_step_receptions _ _ _ _ A HH) as [hit ->]. auto.
  - destruct A as [A|[A|[m [M1 M2]]]]; [congruence|rewrite A; auto|]. rewrite M1 in *. rewrite (rx_frame_ordinary _ (Forall_inv O1)) in M2. discriminate.
Qed.

Lemma received_delivered : forall ws e cs r ev ifn i, runs ws e cs r ev -> nth_error (interfaces cs) i = Some ifn -> (exists c, In c (commands_on ifn cs) /\ is_rx c = true) ->
  Forall ordinary (delivered i (served (e_rounds e))) -> received ifn ev = map put_tag (delivered i (served (e_rounds e))).
Proof.
  intros ws e cs r ev ifn i HR X [c [HC1 HC2]] HO. destruct (run_struct _ _ _ _ _ HR) as [n [rs [rs' [HG [Hn [Hn2 [HI _]]]]]]].
  unfold received. rewrite <- (receptions_on ifn ev). destruct (HI _ _ X) as [r' [ev' [HR' [B E]]]]. pose proof (commands_name _ _ _ _ HG X) as HM. fold (iface_state cs ifn) in HM.
  assert (HH : homog (iface_state cs ifn)). { pose proof (grouped_homog _ _ HG) as K. rewrite Forall_forall in K. apply K. eapply nth_error_In. eapply grouped_nth; eauto. }
  assert (HX : has_rx (iface_state cs ifn) = true) by (unfold has_rx; apply existsb_exists; exists c; auto).
  destruct (path_local _ _ _ (rounds_path _ _ _ _ _ B) HH) as [L1 _].
  assert (En : n = length (served (e_rounds e))). { destruct (Nat.eq_dec n (length (served (e_rounds e)))) as [|En]; [auto|]. specialize (Hn2 ltac:(lia)). assert (existsb active rs' = true); [|congruence].
    apply existsb_exists. exists r'. split; [eapply nth_error_In; eauto|]. unfold active. rewrite (evolves_has_rx _ _ L1), HX. auto. }
  rewrite En, firstn_all in B. rewrite E, receptions_app, final_receptions, app_nil_r. pose proof (rounds_received _ _ _ _ _ B HH HX HO) as K. rewrite HM in K. auto.
Qed.

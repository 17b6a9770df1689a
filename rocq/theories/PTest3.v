(** Tests written in words: runs (C84). *)

From Coq Require Import Permutation.
From Verif Require Import PTextIp PTextNum Frame SpecParse SpecFrame Cmd Exec SpecExec PCmd PPair PExec PRecv PVerdict PSend PQuiet PTotal PStatus SpecWhole SpecExact SpecForm PForm7 SpecWish PWish2 PWish4 SpecTest PTest PTest2.

Lemma written_padding : forall x c f, (forall ws, In ws (frames_in x) -> sayable ws) -> written x c -> c_frame c = Some f -> fr_padding f = 0.
Proof.
  intros x c f HS HX Hf. assert (G : forall ws b m, sayable ws -> a_frame (asked ws) f b m -> fr_padding f = 0).
  { intros ws b m HW HF. apply (holds_padding ws (MkCmd CT_rx None None (Some f) (Some b) m false 0) f); auto. exists f, b, m. auto. }
  destruct HX as [ifn rep s nm f0 b m H|ifn s nm f0 b m H|ifn|nm ws f0 b m H]; cbn [c_frame] in Hf.
  - destruct s as [ws|n]; cbn [held] in H; [|destruct H as [_ [H _]]; congruence]. destruct H as [_ [f1 [b1 [E1 [E2 H]]]]]. assert (f1 = f) by congruence. subst f1. eapply G; eauto. apply HS. left. reflexivity.
  - destruct s as [ws|n]; cbn [held] in H; [|destruct H as [_ [H _]]; congruence]. destruct H as [_ [f1 [b1 [E1 [E2 H]]]]]. assert (f1 = f) by congruence. subst f1. eapply G; eauto. apply HS. left. reflexivity.
  - discriminate.
  - assert (f0 = f) by congruence. subst f0. eapply G; eauto. apply HS. left. reflexivity.
Qed.

Lemma test_runs : forall T e, proper T -> healthy T e -> exists r ev, argc_cmds (line T) e = Ret (r, ev).
Proof.
  intros T e HT HE. destruct (proper_parsed _ HT) as [cs [HP HW]]. apply (execution_total _ e _ HP).
  - intros c f Hc Hf. destruct (Forall2_in_r _ _ _ _ _ HW c Hc) as [x [Hx HX]]. eapply written_padding; eauto. intros ws. apply (pr_frames _ HT x ws Hx).
  - apply hl_send with T. exact HE.
  - apply Forall_forall. intros rd Hrd i m Hm. destruct (hl_rx _ _ HE rd i m Hrd Hm) as [[_ K] _]. exact K.
Qed.

Lemma test_run : forall T e r ev, proper T -> healthy T e -> argc_cmds (line T) e = Ret (r, ev) -> exists cs, runs (line T) e cs r ev /\ Forall2 (realised T) T cs.
Proof.
  intros T e r ev HT HE HA. destruct (proper_parsed _ HT) as [cs [HP HW]]. destruct (named_frames _ _ e HP) as [_ HN]. destruct (HN (proper_names _ _ HT HW)) as [cs' [HF _]]. pose proof (test_realised _ _ _ HT HW HF) as HR.
  exists cs'. split; [|exact HR]. split; [exists cs; auto|]. split; [|exact HA]. intros ifn Hi. rewrite (test_interfaces _ _ HR) in Hi. apply (hl_open _ _ HE _ Hi).
Qed.

(** *** Received frames *)
Lemma served_in : forall rds rd, In rd (served rds) -> In rd rds.
Proof. induction rds as [|x rds IH]; intros rd H; [destruct H|]. cbn [served] in H. destruct (_ || _); [destruct H|]. destruct H as [<-|H]; [left; reflexivity|right; apply IH; exact H]. Qed.

Lemma delivered_in : forall i rds m, In m (delivered i rds) -> exists rd, In rd rds /\ rd_rx rd i = Some m.
Proof. intros i rds m H. apply in_flat_map in H. destruct H as [rd [H1 H2]]. exists rd. split; [exact H1|]. destruct (rd_rx rd i); [|destruct H2]. destruct H2 as [<-|[]]. reflexivity. Qed.

Lemma tag_bytes : forall m, Forall is_byte (rx_data m) -> Forall is_byte (put_tag m).
Proof.
  intros m H. unfold put_tag. destruct (rx_vlan m) as [[tpid tci]|]; [|exact H]. rewrite <- (firstn_skipn 12 (rx_data m)) in H. apply Forall_app in H. destruct H as [H1 H2]. apply Forall_app. split; [exact H1|].
  assert (G : forall x, is_byte (x mod 256)) by (intros x; unfold is_byte; pose proof (Z.mod_pos_bound x 256); lia). repeat (apply Forall_cons; [apply G|]). exact H2.
Qed.

Lemma arrived_bytes : forall T e i, healthy T e -> Forall (Forall is_byte) (arrived i e).
Proof.
  intros T e i HE. unfold arrived. apply Forall_map, Forall_forall. intros m Hm. destruct (delivered_in _ _ _ Hm) as [rd [H1 H2]]. apply tag_bytes. apply (hl_rx _ _ HE rd i m (served_in _ _ H1) H2).
Qed.

Lemma test_received : forall T e r ev cs i ifn, healthy T e -> runs (line T) e cs r ev -> Forall2 (realised T) T cs -> nth_error (used T) i = Some ifn -> listening ifn T -> received ifn ev = arrived i e.
Proof.
  intros T e r ev cs i ifn HE HR HC Hi HL. apply (received_delivered _ _ _ _ _ _ _ HR); [rewrite (test_interfaces _ _ HC); exact Hi|apply (test_rx _ _ _ HC); exact HL|].
  apply Forall_forall. intros m Hm. destruct (delivered_in _ _ _ Hm) as [rd [H1 H2]]. apply (hl_rx _ _ HE rd i m (served_in _ _ H1) H2).
Qed.

Lemma test_silent : forall T cs ev ifn, proper T -> Forall2 (realised T) T cs -> listening ifn T -> transmissions ifn cs = [] /\ no_echo ifn cs ev.
Proof.
  intros T cs ev ifn HT HC HL. pose proof (test_sends _ _ ifn HC) as K. rewrite (listening_sends _ _ HT HL) in K. assert (E : transmissions ifn cs = []) by (inversion K; reflexivity). split; [exact E|]. apply no_transmissions. exact E.
Qed.

(** All frames received as expected, and nothing missing: they pair off. *)
Lemma rxpath_pairs : forall es es' rcs, rxpath es es' rcs -> Forall (fun p => fst p = true) rcs -> waiting es' = [] ->
  exists W, Permutation (waiting es) W /\ Forall2 accepts W (map snd rcs).
Proof.
  intros es es' rcs H. induction H as [es|l c q b es' rcs Hd Ha Hl H IH|es b es' rcs Hm H IH]; intros HF HW.
  - rewrite HW. exists []. split; [constructor|constructor].
  - destruct (IH (Forall_inv_tail HF) HW) as [W [W1 W2]]. exists (c :: W). split; [|cbn [map snd]; constructor; auto]. rewrite waiting_mid, Hd. rewrite waiting_mid in W1. cbn [c_done set_done] in W1. rewrite <- W1. apply Permutation_sym, Permutation_middle.
  - apply Forall_inv in HF. discriminate HF.
Qed.

Lemma unexpected_none : forall ifn ev, unexpected ifn ev = [] -> Forall (fun p => fst p = true) (receptions ifn ev).
Proof.
  intros ifn ev H. unfold unexpected in H. apply map_eq_nil in H. apply Forall_forall. intros [ok b] Hp. destruct ok; [reflexivity|]. exfalso.
  assert (In (false, b) (filter (fun p => negb (fst p)) (receptions ifn ev))) by (apply filter_In; auto). rewrite H in H0. destruct H0.
Qed.

Lemma paired_off : forall ws e cs r ev ifn, runs ws e cs r ev -> no_echo ifn cs ev -> unexpected ifn ev = [] -> reported_missing ifn ev = [] ->
  exists W, Permutation (expectations ifn cs) W /\ Forall2 accepts W (received ifn ev).
Proof.
  intros ws e cs r ev ifn HR HE HU HM. destruct (run_rx _ _ _ _ _ _ HR HE) as [es' [H1 H2]]. destruct (run_ready _ _ _ _ _ HR) as [HC _].
  destruct (rxpath_pairs _ _ _ H1 (unexpected_none _ _ HU)) as [W [W1 W2]]; [rewrite HM in H2; symmetry in H2; apply map_eq_nil in H2; exact H2|].
  rewrite (waiting_fresh _ (fresh_expectations _ ifn HC)) in W1. exists W. auto.
Qed.

Lemma Forall2_perm : forall A B (R : A -> B -> Prop) l l', Forall2 R l l' -> forall k', Permutation l' k' -> exists k, Permutation l k /\ Forall2 R k k'.
Proof.
  intros A B R l l' H k' HP. revert l H. induction HP as [|y l' k' HP IH|y z l'|a b c H1 IH1 H2 IH2]; intros l H.
  - inversion H. exists []. auto.
  - inversion H as [|x y0 l0 l0' HX HL E1 E2]. subst. destruct (IH _ HL) as [k [K1 K2]]. exists (x :: k). split; [apply perm_skip; exact K1|constructor; auto].
  - inversion H as [|x y0 l0 l0' HX HL E1 E2]. subst. inversion HL as [|x2 y2 l2 l2' HX2 HL2 E1 E2]. subst. exists (x2 :: x :: l2). split; [apply perm_swap|constructor; [auto|constructor; auto]].
  - destruct (IH1 _ H) as [k [K1 K2]]. destruct (IH2 _ K2) as [j [J1 J2]]. exists j. split; [eapply Permutation_trans; eauto|exact J2].
Qed.

Lemma accepts_meets : forall V W B, Forall2 holding V W -> Forall2 accepts W B -> Forall (Forall is_byte) B -> Forall2 meets V B.
Proof.
  intros V W B H. revert B. induction H as [|ws c V W [H1 H2] HL IH]; intros B HA HB; inversion HA; subst; [constructor|]. constructor; [|apply IH; [auto|apply Forall_inv_tail in HB; exact HB]]. apply (holds_meets ws c); auto. apply Forall_inv in HB. exact HB.
Qed.

Lemma meets_accepts : forall V W B, Forall2 holding V W -> Forall2 meets V B -> Forall (Forall is_byte) B -> Forall2 accepts W B.
Proof.
  intros V W B H. revert B. induction H as [|ws c V W [H1 H2] HL IH]; intros B HA HB; inversion HA; subst; [constructor|]. constructor; [|apply IH; [auto|apply Forall_inv_tail in HB; exact HB]]. apply (holds_meets ws c); auto. apply Forall_inv in HB. exact HB.
Qed.

Lemma no_errors : forall ws e cs r ev, runs ws e cs r ev -> (r = 0 <-> forall ifn, In ifn (interfaces cs) -> unexpected ifn ev = [] /\ reported_missing ifn ev = []).
Proof.
  intros ws e cs r ev HR. rewrite (total_errors _ _ _ _ _ HR). set (g := fun ifn => (length (unexpected ifn ev) + length (reported_missing ifn ev))%nat). assert (E : Z.of_nat (sum (map g (interfaces cs))) = 0 <-> sum (map g (interfaces cs)) = 0%nat) by lia. rewrite E, sum_zero, Forall_map, Forall_forall. unfold g. split.
  - intros H ifn Hi. specialize (H ifn Hi). cbn beta in H. split; apply length_zero_iff_nil; lia.
  - intros H ifn Hi. destruct (H ifn Hi) as [-> ->]. reflexivity.
Qed.

Lemma test_verdict : forall T e r ev, proper T -> healthy T e -> argc_cmds (line T) e = Ret (r, ev) -> r = 0 -> all_satisfied T e.
Proof.
  intros T e r ev HT HE HA Hr i ifn Hi HL. destruct (test_run _ _ _ _ HT HE HA) as [cs [HR HC]]. destruct (test_silent _ _ ev ifn HT HC HL) as [_ HN].
  apply (no_errors _ _ _ _ _ HR) with (ifn := ifn) in Hr; [|rewrite (test_interfaces _ _ HC); eapply nth_error_In; exact Hi]. destruct Hr as [R1 R2]. destruct (paired_off _ _ _ _ _ _ HR HN R1 R2) as [W [W1 W2]].
  destruct (Forall2_perm _ _ _ _ _ (test_expects _ _ ifn HC) _ W1) as [V [V1 V2]]. exists V. split; [exact V1|]. rewrite (test_received _ _ _ _ _ _ _ HE HR HC Hi HL) in W2. eapply accepts_meets; eauto. eapply arrived_bytes; eauto.
Qed.

Lemma Forall2_flip : forall A B (R : A -> B -> Prop) l l', Forall2 R l l' -> Forall2 (fun y x => R x y) l' l.
Proof. intros A B R l l' H. induction H; constructor; auto. Qed.

Lemma test_unheard : forall T e r ev cs ifn, proper T -> runs (line T) e cs r ev -> Forall2 (realised T) T cs -> ~ listening ifn T -> unexpected ifn ev = [] /\ reported_missing ifn ev = [].
Proof.
  intros T e r ev cs ifn HT HR HC HL. assert (NL : forall c, In c (commands_on ifn cs) -> is_rx c = false). { intros c Hc. destruct (is_rx c) eqn:E; [|reflexivity]. destruct HL. apply (test_rx _ _ _ HC). exists c. auto. }
  pose proof (not_listening _ _ _ _ _ _ HR NL) as HN. unfold received in HN. apply map_eq_nil in HN. unfold unexpected. rewrite HN. split; [reflexivity|].
  assert (HE : no_echo ifn cs ev) by (intros b c Hb; unfold received in Hb; rewrite HN in Hb; destruct Hb).
  destruct (run_rx _ _ _ _ _ _ HR HE) as [es' [H1 H2]]. rewrite HN in H1. assert (E : expectations ifn cs = []).
  { unfold expectations. destruct (filter _ _) as [|c l] eqn:EF; [reflexivity|]. assert (In c (c :: l)) by (left; reflexivity). rewrite <- EF in H. apply filter_In in H. destruct H as [K1 K2]. rewrite (NL _ K1) in K2. discriminate. }
  rewrite E in H1. inversion H1. subst es'. rewrite H2. reflexivity.
Qed.

Lemma listening_dec : forall ifn T, listening ifn T \/ ~ listening ifn T.
Proof.
  intros ifn T. destruct (existsb (fun x => match x with Nothing i | Expect i _ => String.eqb i ifn | _ => false end) T) eqn:E.
  - left. apply existsb_exists in E. destruct E as [x [Hx E]]. destruct x as [i rep s|i s|i|n ws]; try discriminate; apply String.eqb_eq in E; subst i; [right; exists s; exact Hx|left; exact Hx].
  - right. intros [H|[s H]]; assert (K : existsb (fun x => match x with Nothing i | Expect i _ => String.eqb i ifn | _ => false end) T = true) by (apply existsb_exists; eexists; split; [exact H|apply String.eqb_refl]); congruence.
Qed.

Lemma test_passes : forall T e r ev, proper T -> healthy T e -> distinguishable T -> argc_cmds (line T) e = Ret (r, ev) -> all_satisfied T e -> r = 0.
Proof.
  intros T e r ev HT HE HD HA HS. destruct (test_run _ _ _ _ HT HE HA) as [cs [HR HC]]. apply (no_errors _ _ _ _ _ HR). intros ifn Hi. rewrite (test_interfaces _ _ HC) in Hi.
  destruct (listening_dec ifn T) as [HL|HL]; [|eapply test_unheard; eauto]. destruct (test_silent _ _ ev ifn HT HC HL) as [_ HN]. apply In_nth_error in Hi. destruct Hi as [i Hi]. destruct (HS i ifn Hi HL) as [V [V1 V2]].
  pose proof (test_expects _ _ ifn HC) as HX. destruct (Forall2_perm _ _ _ _ _ (Forall2_flip _ _ _ _ _ HX) _ V1) as [W [W1 W2]]. apply Forall2_flip in W2. pose proof (arrived_bytes T e i HE) as HB. pose proof (test_received _ _ _ _ _ _ _ HE HR HC Hi HL) as ER.
  apply (order_independent_on _ _ _ _ _ ifn W HR HN); auto; [|rewrite ER; eapply meets_accepts; eauto].
  rewrite ER. rewrite Forall_forall in HB. intros c d b b' Hc Hd Hb Hb' A1 A2 A3. destruct (Forall2_in_r _ _ _ _ _ HX c Hc) as [wc [C1 [C2 C3]]]. destruct (Forall2_in_r _ _ _ _ _ HX d Hd) as [wd [D1 [D2 D3]]].
  apply (holds_meets wd d b' D2 D3 (HB _ Hb')). apply (HD ifn wc wd b b' C1 D1 (HB _ Hb) (HB _ Hb')); [apply (holds_meets wc c b C2 C3 (HB _ Hb)); exact A1|apply (holds_meets wd d b D2 D3 (HB _ Hb)); exact A2|apply (holds_meets wc c b' C2 C3 (HB _ Hb')); exact A3].
Qed.

Lemma resolved_sayable : forall T s ws, proper T -> (forall v, s = Words v -> sayable v) -> In ws (resolved T s) -> sayable ws.
Proof.
  intros T s ws HT HS H. destruct s as [v|n]; cbn [resolved] in H; [destruct H as [<-|[]]; apply HS; reflexivity|]. destruct (meaning T n) as [v|] eqn:E; [|destruct H]. destruct H as [<-|[]].
  assert (K : exists m, In (Define m v) T).
  { clear -E. induction T as [|x T IH]; [discriminate|]. destruct x as [i rep s|i s|i|m w]; cbn [meaning] in E; try (destruct (IH E) as [m K]; exists m; right; exact K). destruct (String.eqb m n); [exists m; left; congruence|]. destruct (IH E) as [m' K]. exists m'. right. exact K. }
  destruct K as [m K]. apply (pr_frames _ HT _ _ K). left. reflexivity.
Qed.

Lemma expected_sayable : forall T ifn ws, proper T -> In ws (to_expect ifn T) -> sayable ws.
Proof.
  intros T ifn ws HT H. apply in_flat_map in H. destruct H as [x [Hx H]]. destruct x as [i rep s|i s|i|n v]; try destruct H. destruct (String.eqb i ifn); [|destruct H]. eapply resolved_sayable; eauto. intros v ->. apply (pr_frames _ HT _ _ Hx). left. reflexivity.
Qed.

Lemma strict_apart : forall T, proper T -> (forall ifn ws, In ws (to_expect ifn T) -> strict ws) -> distinguishable T.
Proof.
  intros T HT HS ifn ws ws' rx rx' H1 H2 Hr Hr' M1 M2 M3. pose proof (expected_sayable _ _ _ HT H1) as S1. pose proof (expected_sayable _ _ _ HT H2) as S2. destruct (sayable_frame _ S1) as [_ [_ [b [_ [_ [B1 _]]]]]]. destruct (sayable_frame _ S2) as [_ [_ [b' [_ [_ [B2 _]]]]]].
  apply (meets_strict ws rx b S1 (HS _ _ H1) B1 Hr) in M1. apply (meets_strict ws' rx b' S2 (HS _ _ H2) B2 Hr) in M2. apply (meets_strict ws rx' b S1 (HS _ _ H1) B1 Hr') in M3. apply (meets_strict ws' rx' b' S2 (HS _ _ H2) B2 Hr'). congruence.
Qed.

Lemma test_exact : forall T e r ev, proper T -> healthy T e -> (forall ifn ws, In ws (to_expect ifn T) -> strict ws) -> argc_cmds (line T) e = Ret (r, ev) -> (r = 0 <-> all_satisfied T e).
Proof. intros T e r ev HT HE HS HA. split; [eapply test_verdict; eauto|eapply test_passes; eauto; apply strict_apart; auto]. Qed.

(** *** Sent frames *)
Lemma sent_positive : forall T ifn ws n, proper T -> In (ws, n) (to_send ifn T) -> 0 < n.
Proof.
  intros T ifn ws n HT H. apply in_flat_map in H. destruct H as [x [Hx H]]. destruct x as [i rep s|i s|i|m v]; try destruct H. destruct (String.eqb i ifn); [|destruct H]. apply in_map_iff in H. destruct H as [v [E _]]. apply pair_inj in E. destruct E as [_ <-].
  destruct rep as [[[w k] n0]|]; cbn [copies]; [|lia]. destruct (pr_copies _ HT _ _ _ _ _ Hx) as [_ [_ K]]. lia.
Qed.

Lemma sent_frames : forall P C, Forall2 holding_times P C -> (forall ws n, In (ws, n) P -> 0 < n) ->
  exists bs, Forall2 (fun p b => spelled (map plain (fst p)) b) P bs /\ map frame_of C = bs /\
    flat_map (fun c => repeat (frame_of c, true) (Z.to_nat (times c))) C = flat_map (fun q => repeat (snd q, true) (Z.to_nat (snd (fst q)))) (combine P bs).
Proof.
  intros P C H. induction H as [|[ws n] c P C [[H1 H2] H3] HL IH]; intros HP; [exists []; split; [constructor|split; reflexivity]|]. destruct IH as [bs [I1 [I2 I3]]]; [intros v k Hv; apply (HP v k); right; exact Hv|].
  destruct (holds_spelled _ _ H1 H2) as [b [B1 [B2 _]]]. exists (b :: bs). cbn [fst snd] in *. split; [constructor; auto|]. assert (EF : frame_of c = b) by (unfold frame_of; rewrite B1; reflexivity). cbn [map combine flat_map fst snd]. split; [rewrite EF, I2; reflexivity|]. rewrite I3, EF. f_equal. unfold times. rewrite H3. specialize (HP ws n (or_introl eq_refl)). destruct (Z.eqb_spec n 0); [lia|reflexivity].
Qed.

Lemma Forall2_firstn : forall A B (R : A -> B -> Prop) l l' j, Forall2 R l l' -> Forall2 R (firstn j l) (firstn j l').
Proof. intros A B R l l' j H. revert j. induction H; intros [|j]; cbn [firstn]; constructor; auto. Qed.

Lemma test_sent : forall T e r ev i ifn, proper T -> healthy T e -> argc_cmds (line T) e = Ret (r, ev) -> nth_error (used T) i = Some ifn ->
  exists j bs, (j <= length (to_send ifn T))%nat /\ Forall2 (fun p b => spelled (map plain (fst p)) b) (firstn j (to_send ifn T)) bs /\
    sends ifn ev = flat_map (fun q => repeat (snd q, true) (Z.to_nat (snd (fst q)))) (combine (firstn j (to_send ifn T)) bs) /\ reported_tx ifn ev = bs /\
    ((length (to_send ifn T) <= writable i (served (e_rounds e)))%nat -> j = length (to_send ifn T)).
Proof.
  intros T e r ev i ifn HT HE HA Hi. destruct (test_run _ _ _ _ HT HE HA) as [cs [HR HC]]. pose proof (test_sends _ _ ifn HC) as HS. assert (EL : length (to_send ifn T) = length (transmissions ifn cs)) by (clear -HS; induction HS; [reflexivity|]; cbn [length]; congruence).
  assert (K : exists j, (j <= length (transmissions ifn cs))%nat /\ sends ifn ev = flat_map (fun c => repeat (frame_of c, true) (Z.to_nat (times c))) (firstn j (transmissions ifn cs)) /\
    reported_tx ifn ev = map frame_of (firstn j (transmissions ifn cs)) /\ ((length (transmissions ifn cs) <= writable i (served (e_rounds e)))%nat -> j = length (transmissions ifn cs))).
  { destruct (listening_dec ifn T) as [HL|HL].
    - destruct (test_silent _ _ ev ifn HT HC HL) as [_ HN]. apply (transmitted _ _ _ _ _ _ _ HR HN); [apply (hl_send _ _ HE)|rewrite (test_interfaces _ _ HC); exact Hi].
    - apply (transmit_only _ _ _ _ _ _ _ HR); [|apply (hl_send _ _ HE)|rewrite (test_interfaces _ _ HC); exact Hi]. intros c Hc. destruct (is_rx c) eqn:E; [|reflexivity]. destruct HL. apply (test_rx _ _ _ HC). exists c. auto. }
  destruct K as [j [J1 [J2 [J3 J4]]]]. destruct (sent_frames _ _ (Forall2_firstn _ _ _ _ _ j HS)) as [bs [B1 [B2 B3]]].
  { intros ws n Hin. apply (sent_positive T ifn ws n HT). rewrite <- (firstn_skipn j (to_send ifn T)). apply in_or_app. left. exact Hin. }
  exists j, bs. rewrite EL. split; [exact J1|]. split; [exact B1|]. split; [congruence|]. split; [congruence|]. exact J4.
Qed.

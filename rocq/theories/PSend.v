(** What is transmitted on one interface (C46, C47). *)

From Coq Require Import Permutation.
From Verif Require Import PTextIp PTextNum Frame Exec SpecExec PParse PMatch PCmd PPair PExec PRecv.

Definition txc (r : resource) : list cmd := filter is_tx (r_cmds r).

Definition finished (c : cmd) : cmd := set_done (set_repeat 0 c).

(** After [k] sends. *)
Definition after (k : Z) (l : list cmd) : list cmd :=
  match l with [] => [] | c :: q => set_repeat (u32 (c_repeat c - k)) c :: q end.

Definition prog (orig : list cmd) (j : nat) (k : Z) (cs : list cmd) : Prop :=
  (j <= length orig)%nat /\ 0 <= k /\ (k <> 0 -> exists c, nth_error orig j = Some c /\ k < times c) /\
  cs = map finished (firstn j orig) ++ after k (skipn j orig).

Definition fresh_tx (c : cmd) : Prop := is_tx c = true /\ c_done c = false /\ 0 <= c_repeat c < 2 ^ 32.

Definition sent_log (orig : list cmd) (j : nat) (k : Z) : list (list Z * bool) :=
  flat_map (fun c => repeat (frame_of c, true) (Z.to_nat (times c))) (firstn j orig) ++
  match nth_error orig j with Some c => repeat (frame_of c, true) (Z.to_nat k) | None => [] end.

Lemma times_pos : forall c, 0 <= c_repeat c < 2 ^ 32 -> 0 < times c <= 2 ^ 32 /\ u32 (c_repeat c - times c) = 0.
Proof.
  intros c H. unfold times, u32. change (2 ^ 32) with 4294967296 in *. destruct (Z.eqb_spec (c_repeat c) 0) as [->|Hn]; [split; [lia|reflexivity]|]. rewrite Z.sub_diag. split; [lia|reflexivity].
Qed.

Lemma u32_countdown : forall c k, 0 <= c_repeat c < 2 ^ 32 -> 0 <= k < times c ->
  u32 (u32 (c_repeat c - k) - 1) = u32 (c_repeat c - (k + 1)) /\ (u32 (c_repeat c - (k + 1)) = 0 <-> k + 1 = times c).
Proof.
  intros c k H Hk. unfold times, u32 in *. change (2 ^ 32) with 4294967296 in *. rewrite Zminus_mod_idemp_l. split; [f_equal; lia|].
  destruct (Z.eqb_spec (c_repeat c) 0) as [E|E].
  - rewrite E. split; intros K; lia.
  - rewrite (Z.mod_small (c_repeat c - (k + 1))) by lia. lia.
Qed.

Lemma set_repeat_self : forall c, 0 <= c_repeat c < 2 ^ 32 -> set_repeat (u32 (c_repeat c - 0)) c = c.
Proof. intros [ty nm ar fr bu ma dn rp] H. cbn [c_repeat] in *. unfold set_repeat, u32. cbn. rewrite Z.sub_0_r. rewrite Z.mod_small; [auto|]. change (2 ^ 32) with 4294967296 in H. lia. Qed.

Lemma after_zero : forall l, Forall fresh_tx l -> after 0 l = l.
Proof. intros [|c l] H; [auto|]. cbn [after]. rewrite set_repeat_self; [auto|]. apply (Forall_inv H). Qed.

Lemma skipn_nth : forall A (l : list A) j, skipn j l = match nth_error l j with Some x => x :: skipn (S j) l | None => [] end.
Proof. intros A. induction l as [|x l IH]; intros [|j]; auto. cbn [skipn nth_error]. apply IH. Qed.

Lemma firstn_snoc : forall A (l : list A) j x, nth_error l j = Some x -> firstn (S j) l = firstn j l ++ [x].
Proof. intros A. induction l as [|y l IH]; intros [|j] x H; try discriminate; cbn [nth_error] in H; [cbn; congruence|]. cbn [firstn app]. f_equal. apply IH. auto. Qed.

Lemma pending_finished : forall l, filter pending_tx (map finished l) = [].
Proof. induction l as [|c l IH]; [auto|]. cbn [map filter]. unfold pending_tx at 1. cbn [finished set_done c_done]. cbn [negb]. rewrite andb_false_r. auto. Qed.

Lemma pending_txc : forall r, filter pending_tx (r_cmds r) = filter pending_tx (txc r).
Proof.
  intros r. unfold txc. induction (r_cmds r) as [|c l IH]; [auto|]. cbn [filter]. destruct (pending_tx c) eqn:P.
  - assert (is_tx c = true) as -> by (unfold pending_tx in P; apply andb_prop in P; tauto). cbn [filter]. rewrite P, IH. auto.
  - destruct (is_tx c); [cbn [filter]; rewrite P|]; auto.
Qed.

Lemma has_tx_pending : forall r, has_tx r = match filter pending_tx (r_cmds r) with [] => false | _ => true end.
Proof.
  intros r. unfold has_tx. induction (r_cmds r) as [|c l IH]; [auto|]. cbn [existsb filter]. change (cmd_type_eqb (c_type c) CT_tx && negb (c_done c)) with (pending_tx c). destruct (pending_tx c); [auto|]. cbn [orb]. auto.
Qed.

Lemma prog_pending : forall orig j k cs, Forall fresh_tx orig -> prog orig j k cs ->
  filter pending_tx cs = after k (skipn j orig).
Proof.
  intros orig j k cs HF [H1 [H2 [H3 ->]]]. rewrite filter_app, pending_finished. cbn [app]. apply filter_all. intros x Hx.
  assert (HS : Forall fresh_tx (skipn j orig)) by (rewrite <- (firstn_skipn j orig) in HF; apply Forall_app in HF; tauto).
  destruct (skipn j orig) as [|c q]; [destruct Hx|]. cbn [after] in Hx. destruct Hx as [<-|Hx].
  - destruct (Forall_inv HS) as [A [B _]]. unfold pending_tx. cbn [set_repeat c_done]. change (is_tx (set_repeat _ c)) with (is_tx c). rewrite A, B. auto.
  - apply Forall_inv_tail in HS. rewrite Forall_forall in HS. destruct (HS _ Hx) as [A [B _]]. unfold pending_tx. rewrite A, B. auto.
Qed.

Lemma prog_no_pending : forall orig j k cs, Forall fresh_tx orig -> prog orig j k cs -> filter pending_tx cs = [] -> j = length orig /\ k = 0.
Proof.
  intros orig j k cs HF HP E. rewrite (prog_pending _ _ _ _ HF HP) in E. destruct HP as [H1 [H2 [H3 _]]]. rewrite skipn_nth in E. destruct (nth_error orig j) as [c|] eqn:Ej; [discriminate|].
  apply nth_error_None in Ej. split; [lia|]. destruct (Z.eq_dec k 0) as [|Hk]; [auto|]. destruct (H3 Hk) as [c [X _]]. apply nth_error_None in Ej. congruence.
Qed.

Lemma after_cons : forall orig j k c, nth_error orig j = Some c -> after k (skipn j orig) = set_repeat (u32 (c_repeat c - k)) c :: skipn (S j) orig.
Proof. intros orig j k c H. rewrite (skipn_nth _ orig j), H. auto. Qed.

Lemma filter_split_mid : forall A (p : A -> bool) cs l c r, cs = l ++ c :: r -> p c = true -> filter p cs = filter p l ++ c :: filter p r.
Proof. intros A p cs l c r -> H. rewrite filter_mid, H. auto. Qed.

Lemma sends_app : forall n a b, sends n (a ++ b) = sends n a ++ sends n b.
Proof. intros. unfold sends. apply flat_map_app. Qed.

Lemma reported_app : forall n a b, reported_tx n (a ++ b) = reported_tx n a ++ reported_tx n b.
Proof. intros. unfold reported_tx. apply flat_map_app. Qed.

Lemma mid_unique : forall A (p : A -> bool) l c r l' c' r', filter p l = [] -> filter p l' = [] -> p c = true -> p c' = true -> l ++ c :: r = l' ++ c' :: r' -> l = l' /\ c = c' /\ r = r'.
Proof.
  intros A p. induction l as [|x l IH]; intros c r [|x' l'] c' r' Hl Hl' Hc Hc' E; cbn [app filter] in *.
  - split; [auto|]. split; congruence.
  - exfalso. assert (c = x') by congruence. subst. rewrite Hc in Hl'. discriminate.
  - exfalso. assert (x = c') by congruence. subst. rewrite Hc' in Hl. discriminate.
  - assert (x = x') by congruence. subst x'. destruct (p x); [discriminate|]. destruct (IH c r l' c' r') as [-> [-> ->]]; auto. congruence.
Qed.

Lemma filter_filter_nil : forall A (p q : A -> bool) l, (forall x, p x = true -> q x = true) -> filter p l = [] -> filter p (filter q l) = [].
Proof.
  intros A p q l H. induction l as [|x l IH]; intros K; [auto|]. cbn [filter] in *. destruct (p x) eqn:P; [discriminate|]. destruct (q x); [cbn [filter]; rewrite P|]; auto.
Qed.

(** One send. *)
Lemma tx_step_prog : forall orig j k more r r' ev, Forall fresh_tx orig -> homog r -> prog orig j k (txc r) -> tx_step true more r r' ev ->
  exists c, nth_error orig j = Some c /\ sends (r_name r) ev = [(frame_of c, true)] /\
  ((more = true /\ k + 1 < times c /\ prog orig j (k + 1) (txc r') /\ reported_tx (r_name r) ev = []) \/
   (more = false /\ k + 1 = times c /\ prog orig (S j) 0 (txc r') /\ reported_tx (r_name r) ev = [frame_of c])).
Proof.
  intros orig j k more r r' ev HF HH HP [cs [HT ->]]. apply tx_one_spec in HT. destruct HT as [l [x [q [HE [Hl [Hx [-> [-> ->]]]]]]]].
  assert (HIx : is_tx x = true) by (unfold pending_tx in Hx; apply andb_prop in Hx; tauto).
  assert (HA : str_of (c_arg0 x) = r_name r) by (apply HH; rewrite HE; apply in_or_app; right; left; auto).
  assert (HTX : txc r = filter is_tx l ++ x :: filter is_tx q) by (unfold txc; apply filter_split_mid; auto).
  assert (HTX' : txc (MkRes (l ++ sent true x :: q) (r_err r)) = filter is_tx l ++ sent true x :: filter is_tx q).
  { unfold txc. cbn [r_cmds]. apply filter_split_mid; [auto|]. unfold sent. destruct (true && _); exact HIx. }
  pose proof (prog_pending _ _ _ _ HF HP) as HPend. destruct HP as [P1 [P2 [P3 P4]]].
  destruct (nth_error orig j) as [c|] eqn:Ej.
  2: { exfalso. rewrite skipn_nth, Ej in HPend. cbn [after] in HPend. rewrite HTX, filter_mid, Hx in HPend. destruct (filter pending_tx (filter is_tx l)); discriminate. }
  assert (HFc : fresh_tx c) by (rewrite Forall_forall in HF; apply HF; eapply nth_error_In; eauto). destruct HFc as [C1 [C2 C3]].
  assert (Hk : 0 <= k < times c). { destruct (times_pos c C3) as [T1 _]. destruct (Z.eq_dec k 0) as [->|Hk]; [lia|]. destruct (P3 Hk) as [c0 [X1 X2]]. assert (c0 = c) by congruence. subst. lia. }
  destruct (u32_countdown c k C3 Hk) as [U1 U2].
  rewrite (after_cons _ _ _ _ Ej) in P4. rewrite P4 in HTX.
  assert (HPc : pending_tx (set_repeat (u32 (c_repeat c - k)) c) = true) by (unfold pending_tx; cbn [set_repeat c_done]; change (is_tx (set_repeat _ c)) with (is_tx c); rewrite C1, C2; auto).
  assert (HPl : filter pending_tx (filter is_tx l) = []) by (apply filter_filter_nil; [intros y Hy; unfold pending_tx in Hy; apply andb_prop in Hy; tauto|auto]).
  destruct (mid_unique _ pending_tx _ _ _ _ _ _ (pending_finished (firstn j orig)) HPl HPc Hx HTX) as [M1 [M2 M3]].
  exists c. split; [auto|]. subst x. cbn [set_repeat c_repeat c_arg0] in *. rewrite U1 in *. unfold send_events. cbn [set_repeat c_repeat c_arg0 c_buf frame_of] in *. rewrite HA, U1.
  assert (HS : forall b tl, sends (r_name r) (EvSend (r_name r) b true :: tl) = (b, true) :: sends (r_name r) tl) by (intros; unfold sends; cbn [flat_map]; rewrite String.eqb_refl; auto).
  change (frame_of (set_repeat (u32 (c_repeat c - k)) c)) with (frame_of c). rewrite HTX', <- M1, <- M3. unfold sent. cbn [set_repeat c_repeat andb]. rewrite U1.
  destruct (Z.eqb_spec (u32 (c_repeat c - (k + 1))) 0) as [E0|E0].
  - split; [rewrite HS; auto|]. right. split; [rewrite E0; auto|]. split; [apply U2; auto|]. split.
    + assert (j < length orig)%nat by (apply nth_error_Some; congruence). split; [lia|]. split; [lia|]. split; [congruence|]. rewrite E0. rewrite (firstn_snoc _ _ _ _ Ej), map_app. cbn [map]. rewrite <- app_assoc. cbn [app]. f_equal.
      change (set_done (set_repeat 0 (set_repeat (u32 (c_repeat c - k)) c))) with (finished c). f_equal. symmetry. apply after_zero.
      rewrite <- (firstn_skipn (S j) orig) in HF. apply Forall_app in HF. tauto.
    + unfold reported_tx. cbn [flat_map]. rewrite String.eqb_refl. auto.
  - split; [rewrite HS; auto|]. left. assert (HU : 0 <= u32 (c_repeat c - (k + 1))) by (unfold u32; apply Z.mod_pos_bound; reflexivity). split; [apply Z.ltb_lt; lia|].
    assert (HK : k + 1 < times c) by (assert (k + 1 <> times c) by (intros X; apply E0, U2; auto); lia). split; [auto|]. split; [|auto].
    split; [lia|]. split; [lia|]. split; [intros _; exists c; auto|]. rewrite (after_cons _ _ _ _ Ej). auto.
Qed.

Lemma log_more : forall orig j k c, nth_error orig j = Some c -> 0 <= k -> sent_log orig j (k + 1) = sent_log orig j k ++ [(frame_of c, true)].
Proof.
  intros orig j k c H Hk. unfold sent_log. rewrite H, <- app_assoc. f_equal. replace (Z.to_nat (k + 1)) with (Z.to_nat k + 1)%nat by lia. rewrite repeat_app. auto.
Qed.

Lemma log_next : forall orig j k c, nth_error orig j = Some c -> 0 <= k -> k + 1 = times c -> sent_log orig (S j) 0 = sent_log orig j k ++ [(frame_of c, true)].
Proof.
  intros orig j k c H Hk Ht. rewrite <- (log_more _ _ _ _ H Hk). unfold sent_log at 1. rewrite (firstn_snoc _ _ _ _ H), flat_map_app. cbn [flat_map]. rewrite app_nil_r, <- Ht. unfold sent_log. rewrite H.
  destruct (nth_error orig (S j)); cbn [Z.to_nat repeat]; rewrite app_nil_r; auto.
Qed.

Lemma tx_prog_more : forall orig j k more w send r r' ev, (forall n, send n = true) -> Forall fresh_tx orig -> homog r -> prog orig j k (txc r) -> tx_part send more w r r' ev ->
  exists j' k', (j <= j')%nat /\ prog orig j' k' (txc r') /\ sent_log orig j' k' = sent_log orig j k ++ sends (r_name r) ev /\
  map frame_of (firstn j' orig) = map frame_of (firstn j orig) ++ reported_tx (r_name r) ev /\
  (more = false -> (k = 0 \/ w = true) -> k' = 0 /\ (w = true -> (j < length orig)%nat -> (j < j')%nat)).
Proof.
  intros orig j k more w send r r' ev HS HF HH HP [[-> [n [own [HT HO]]]]|[-> [-> HC]]].
  - rewrite HS in HT. assert (HK : 0 <= k) by apply HP. destruct (tx_step_prog _ _ _ _ _ _ _ HF HH HP HT) as [c [E1 [E2 [[M1 [M2 [M3 M4]]]|[M1 [M2 [M3 M4]]]]]]].
    + exists j, (k + 1). split; [lia|]. split; [auto|]. rewrite E2, M4, app_nil_r. split; [apply log_more; auto|]. split; [auto|]. intros ->. specialize (HO M1). discriminate.
    + exists (S j), 0. split; [lia|]. split; [auto|]. rewrite E2, M4. split; [apply log_next; auto|]. split; [rewrite (firstn_snoc _ _ _ _ E1), map_app; auto|]. intros _ _. split; [auto|lia].
  - exists j, k. split; [lia|]. split; [auto|]. cbn. rewrite !app_nil_r. split; [auto|]. split; [auto|]. intros _ HKW. destruct HC as [->|HC].
    + split; [destruct HKW; [auto|discriminate]|discriminate].
    + rewrite pending_txc in HC. destruct (prog_no_pending _ _ _ _ HF HP HC) as [-> ->]. split; [auto|lia].
Qed.

Lemma txs_prog : forall send w r r' ev, txs send w r r' ev -> forall orig j k, (forall n, send n = true) -> Forall fresh_tx orig -> homog r -> prog orig j k (txc r) -> (k = 0 \/ w = true) ->
  exists j', (j <= j')%nat /\ prog orig j' 0 (txc r') /\ sent_log orig j' 0 = sent_log orig j k ++ sends (r_name r) ev /\
  map frame_of (firstn j' orig) = map frame_of (firstn j orig) ++ reported_tx (r_name r) ev /\ (w = true -> (j < length orig)%nat -> (j < j')%nat).
Proof.
  intros send w r r' ev H. induction H as [r r' ev H|r r1 r' e1 e2 H H1 IH]; intros orig j k HS HF HH HP HK.
  - destruct (tx_prog_more _ _ _ _ _ _ _ _ _ HS HF HH HP H) as [j' [k' [A1 [A2 [A3 [A4 A5]]]]]]. destruct (A5 eq_refl HK) as [-> B]. exists j'. auto.
  - destruct (tx_prog_more _ _ _ _ _ _ _ _ _ HS HF HH HP H) as [j1 [k1 [A1 [A2 [A3 [A4 A5]]]]]].
    destruct (path_local _ _ _ (tx_part_path _ _ _ _ _ _ H) HH) as [L1 L2]. pose proof (evolves_name _ _ L1) as LN.
    assert (HK1 : k1 = 0 \/ w = true). { destruct w; [auto|]. left. destruct HK as [->|]; [|discriminate]. destruct H as [[X _]|[-> [-> _]]]; [discriminate|]. cbn in A3. rewrite app_nil_r in A3.
      destruct A2 as [_ [A2 [A6 A7]]]. destruct (Z.eq_dec k1 0) as [|Hk1]; [auto|]. exfalso. destruct (A6 Hk1) as [c [X1 X2]].
      assert (HL := f_equal (@length _) A3). unfold sent_log in HL. rewrite X1 in HL. rewrite !app_length, repeat_length in HL.
      assert (HL2 : (length (flat_map (fun c => repeat (frame_of c, true) (Z.to_nat (times c))) (firstn j orig)) <= length (flat_map (fun c => repeat (frame_of c, true) (Z.to_nat (times c))) (firstn j1 orig)))%nat).
      { replace (firstn j orig) with (firstn j (firstn j1 orig)) by (rewrite firstn_firstn; f_equal; lia). rewrite <- (firstn_skipn j (firstn j1 orig)) at 2. rewrite flat_map_app, app_length. lia. }
      destruct (nth_error orig j); cbn [Z.to_nat repeat length] in HL; lia. }
    destruct (IH orig j1 k1 HS HF (evolves_homog _ _ L1 HH) A2 HK1) as [j' [B1 [B2 [B3 [B4 B5]]]]]. rewrite LN in *. exists j'. split; [lia|]. split; [auto|].
    rewrite sends_app, reported_app. split; [rewrite B3, A3, app_assoc; auto|]. split; [rewrite B4, A4, app_assoc; auto|].
    intros Hw Hj. destruct (Nat.lt_ge_cases j1 (length orig)) as [X|X]; [specialize (B5 Hw X); lia|lia].
Qed.

Lemma sends_rx : forall n b r r' ev, rx_step b r r' ev -> sends n ev = [] /\ reported_tx n ev = [].
Proof. intros n b r r' ev [hit [cs [_ [_ ->]]]]. destruct hit; auto. Qed.

Lemma round_prog : forall i rd r r' ev orig j, round_step i rd r r' ev -> (forall n, rd_send rd n = true) -> Forall fresh_tx orig -> homog r -> Forall (fun c => traffic c = true) (r_cmds r) ->
  (forall p, In p (receptions (r_name r) ev) -> quiet_tx r (snd p)) -> prog orig j 0 (txc r) ->
  exists j', (j <= j')%nat /\ prog orig j' 0 (txc r') /\ sent_log orig j' 0 = sent_log orig j 0 ++ sends (r_name r) ev /\
  map frame_of (firstn j' orig) = map frame_of (firstn j orig) ++ reported_tx (r_name r) ev /\ (rd_wr rd i = true -> (j < length orig)%nat -> (j < j')%nat).
Proof.
  intros i rd r r' ev orig j [r1 [ev1 [ev2 [A [B ->]]]]] HS HF HH HT HQ HP.
  destruct (path_local _ _ _ (rx_part_path _ _ _ _ _ A) HH) as [L1 L2]. pose proof (evolves_name _ _ L1) as LN.
  assert (HX : txc r1 = txc r /\ sends (r_name r) ev1 = [] /\ reported_tx (r_name r) ev1 = []).
  { destruct A as [[_ [m [b [_ [_ A]]]]]|[-> [-> _]]]; [|auto]. destruct (sends_rx (r_name r) _ _ _ _ A) as [S1 S2]. split; [|auto]. destruct (rx_step_ex _ _ _ _ A HH HT) as [hit [_ [X _]]]; [|exact X].
    rewrite receptions_app in HQ. destruct (rx_step_receptions _ _ _ _ A HH) as [hit X]. apply (HQ (hit, b)). apply in_or_app. left. rewrite X. left. auto. }
  destruct HX as [X1 [X2 X3]]. rewrite <- X1 in HP. destruct (txs_prog _ _ _ _ _ B orig j 0 HS HF (evolves_homog _ _ L1 HH) HP ltac:(auto)) as [j' [C1 [C2 [C3 [C4 C5]]]]]. rewrite LN in *.
  exists j'. split; [auto|]. split; [auto|]. rewrite sends_app, reported_app, X2, X3. cbn [app]. split; [auto|]. split; [auto|]. intros Hw Hj. apply C5; [|auto]. rewrite Hw, andb_true_r.
  rewrite has_tx_pending, pending_txc, <- X1, (prog_pending _ _ _ _ HF HP), skipn_nth. destruct (nth_error orig j) eqn:E; [auto|]. apply nth_error_None in E. lia.
Qed.

Lemma rounds_prog : forall i rds r r' ev, rounds i rds r r' ev -> forall orig j, all_sent rds -> Forall fresh_tx orig -> homog r -> Forall (fun c => traffic c = true) (r_cmds r) ->
  (forall p, In p (receptions (r_name r) ev) -> quiet_tx r (snd p)) -> prog orig j 0 (txc r) ->
  exists j', (j <= j')%nat /\ prog orig j' 0 (txc r') /\ sent_log orig j' 0 = sent_log orig j 0 ++ sends (r_name r) ev /\
  map frame_of (firstn j' orig) = map frame_of (firstn j orig) ++ reported_tx (r_name r) ev /\ ((length orig <= j + writable i rds)%nat -> j' = length orig).
Proof.
  intros i rds r r' ev H. induction H as [r|rd rds r r1 r' e1 e2 H H1 IH]; intros orig j HS HF HH HT HQ HP.
  - exists j. split; [lia|]. split; [auto|]. cbn. rewrite !app_nil_r. split; [auto|]. split; [auto|]. intros X. destruct HP as [HP _]. unfold writable in X. cbn in X. lia.
  - assert (HPA : path r r1 e1). { destruct H as [r2 [f1 [f2 [A [B ->]]]]]. eapply path_app; [eapply rx_part_path; eauto|eapply txs_path; eauto]. }
    destruct (path_local _ _ _ HPA HH) as [L1 L2]. pose proof (evolves_name _ _ L1) as LN. rewrite receptions_app in HQ.
    destruct (round_prog _ _ _ _ _ orig j H ltac:(intros n; apply HS; left; auto) HF HH HT ltac:(intros p Hp; apply HQ; apply in_or_app; auto) HP) as [j1 [A1 [A2 [A3 [A4 A5]]]]].
    destruct (IH orig j1 ltac:(intros x n Hx; apply HS; right; auto) HF (evolves_homog _ _ L1 HH) (evolves_traffic _ _ L1 HT) ltac:(intros p Hp; rewrite LN in Hp; eapply evolves_quiet; [eauto|]; apply HQ; apply in_or_app; auto) A2) as [j' [B1 [B2 [B3 [B4 B5]]]]].
    rewrite LN in *. exists j'. split; [lia|]. split; [auto|]. rewrite sends_app, reported_app. split; [rewrite B3, A3, app_assoc; auto|]. split; [rewrite B4, A4, app_assoc; auto|].
    intros Hl. unfold writable in *. cbn [filter] in Hl. destruct (rd_wr rd i) eqn:Ew.
    + cbn [length] in Hl. destruct (Nat.lt_ge_cases j (length orig)) as [X|X]; [specialize (A5 eq_refl X); apply B5; lia|]. destruct B2 as [B2 _]. lia.
    + apply B5. lia.
Qed.

(** C46 *)
Lemma transmitted : forall ws e cs r ev ifn i, runs ws e cs r ev -> no_echo ifn cs ev -> all_sent (e_rounds e) -> nth_error (interfaces cs) i = Some ifn ->
  exists j, (j <= length (transmissions ifn cs))%nat /\
  sends ifn ev = flat_map (fun c => repeat (frame_of c, true) (Z.to_nat (times c))) (firstn j (transmissions ifn cs)) /\
  reported_tx ifn ev = map frame_of (firstn j (transmissions ifn cs)) /\
  ((length (transmissions ifn cs) <= writable i (served (e_rounds e)))%nat -> j = length (transmissions ifn cs)).
Proof.
  intros ws e cs r ev ifn i HR HE HS X. destruct (run_ready _ _ _ _ _ HR) as [HC [HL _]]. destruct (run_struct _ _ _ _ _ HR) as [n [rs [rs' [HG [Hn [Hn2 [HI _]]]]]]].
  rewrite <- (sends_on ifn ev), <- (reported_on ifn ev). destruct (HI _ _ X) as [r' [ev' [HR' [B E]]]]. pose proof (commands_name _ _ _ _ HG X) as HM. fold (iface_state cs ifn) in HM.
  assert (HH : homog (iface_state cs ifn)). { pose proof (grouped_homog _ _ HG) as K. rewrite Forall_forall in K. apply K. eapply nth_error_In. eapply grouped_nth; eauto. }
  assert (HT : Forall (fun c => traffic c = true) (r_cmds (iface_state cs ifn))). { apply Forall_forall. intros c Hc. cbn [iface_state r_cmds] in Hc. unfold commands_on in Hc. apply filter_In in Hc. destruct Hc as [_ Hc]. apply andb_prop in Hc. tauto. }
  assert (ER : receptions ifn ev = receptions ifn ev'). { rewrite <- receptions_on, E, receptions_app, final_receptions, app_nil_r. auto. }
  assert (HSV : all_sent (firstn n (served (e_rounds e)))).
  { intros rd k Hrd. apply HS. assert (K : In rd (served (e_rounds e))) by (rewrite <- (firstn_skipn n (served (e_rounds e))); apply in_or_app; auto). clear -K. revert K. induction (e_rounds e) as [|x l IH]; intros K; [destruct K|]. cbn [served] in K. destruct (_ || _); [destruct K|]. destruct K as [->|K]; [left; auto|right; auto]. }
  set (orig := transmissions ifn cs).
  assert (HF : Forall fresh_tx orig). { apply Forall_forall. intros c Hc. unfold orig, transmissions, commands_on in Hc. apply filter_In in Hc. destruct Hc as [Hc1 Hc2]. apply filter_In in Hc1. destruct Hc1 as [Hc1 _]. rewrite Forall_forall in HC. destruct (HC c Hc1) as [Y1 Y2 Y3 Y4 Y5 Y6 Y7]. split; auto. }
  assert (HP0 : prog orig 0 0 (txc (iface_state cs ifn))). { split; [lia|]. split; [lia|]. split; [congruence|]. cbn [firstn map app skipn]. rewrite after_zero by auto. auto. }
  destruct (rounds_prog _ _ _ _ _ B orig 0 HSV HF HH HT) as [j [A1 [A2 [A3 [A4 A5]]]]]; [|auto|].
  { intros p Hp c Hc HTX HA. rewrite HM, <- ER in Hp. apply (HE (snd p) c); [apply in_map; auto| |auto]. unfold transmissions. apply filter_In. split; auto. }
  rewrite HM in *. exists j. split; [apply A2|]. assert (HSF : sends ifn (final r') = [] /\ reported_tx ifn (final r') = []).
  { unfold final. clear. induction (filter missing (r_cmds r')) as [|c l [I1 I2]]; [auto|]. cbn. auto. }
  destruct HSF as [SF1 SF2]. rewrite E, sends_app, reported_app, SF1, SF2, !app_nil_r. unfold sent_log in A3. cbn [firstn flat_map app Z.to_nat repeat map] in A3, A4.
  split; [|split].
  - destruct (nth_error orig j), (nth_error orig 0); cbn [app] in A3; rewrite ?app_nil_r in A3; auto.
  - symmetry. exact A4.
  - intros HW. destruct (Nat.eq_dec n (length (served (e_rounds e)))) as [En|En].
    + apply A5. rewrite En, firstn_all. lia.
    + specialize (Hn2 ltac:(lia)). assert (HA : active r' = false). { destruct (active r') eqn:EA; [|auto]. assert (existsb active rs' = true) by (apply existsb_exists; exists r'; split; [eapply nth_error_In; eauto|auto]). congruence. }
      unfold active in HA. apply orb_false_iff in HA. destruct HA as [_ HA]. rewrite has_tx_pending, pending_txc in HA. destruct (filter pending_tx (txc r')) eqn:EP; [|discriminate]. apply (prog_no_pending _ _ _ _ HF A2 EP).
Qed.

(** ** Whatever the outcome of the sends *)

Definition todo (r : resource) : list cmd := filter pending_tx (r_cmds r).

Lemma queue_head : forall q s r, queue q s r -> forall c c' t, q = c :: t -> frame_of c' = frame_of c -> queue (c' :: t) s r.
Proof.
  intros q s r H. induction H as [q|c q ok s r H IH|c q s r H IH]; intros d d' t E HF; [constructor| |]; assert (d = c) by congruence; assert (t = q) by congruence; subst; rewrite <- HF; [apply queue_try; eauto|apply queue_done; auto].
Qed.

Lemma path_queue : forall r r' ev, path r r' ev -> homog r -> Forall (fun c => traffic c = true) (r_cmds r) ->
  (forall p, In p (receptions (r_name r) ev) -> quiet_tx r (snd p)) -> queue (todo r) (sends (r_name r) ev) (reported_tx (r_name r) ev).
Proof.
  intros r r' ev H. induction H as [r|r r1 r' e1 e2 H H1 IH]; intros HH HT HQ; [constructor|].
  destruct (estep_local _ _ _ HH H) as [L1 L2]. pose proof (evolves_name _ _ L1) as LN. rewrite receptions_app in HQ.
  assert (IH' : queue (todo r1) (sends (r_name r) e2) (reported_tx (r_name r) e2)).
  { rewrite LN in IH. apply IH; [eapply evolves_homog; eauto|eapply evolves_traffic; eauto|]. intros p Hp. eapply evolves_quiet; [eauto|]. apply HQ. apply in_or_app. auto. }
  rewrite sends_app, reported_app. destruct H as [[b A]|[ok [more A]]].
  - destruct (sends_rx (r_name r) _ _ _ _ A) as [-> ->]. cbn [app]. destruct (rx_step_ex _ _ _ _ A HH HT) as [hit [_ [X _]]].
    { destruct (rx_step_receptions _ _ _ _ A HH) as [hit X]. apply (HQ (hit, b)). apply in_or_app. left. rewrite X. left. auto. }
    unfold todo in *. rewrite pending_txc in *. unfold txc in *. rewrite X in IH'. auto.
  - destruct A as [cs [HT1 ->]]. apply tx_one_spec in HT1. destruct HT1 as [l [c [q [HE [Hl [Hc [-> [_ ->]]]]]]]]. unfold todo in *. cbn [r_cmds] in *. rewrite HE, filter_mid, Hl, Hc. cbn [app]. rewrite filter_mid, Hl in IH'. cbn [app] in IH'.
    assert (HA : str_of (c_arg0 c) = r_name r) by (apply HH; rewrite HE; apply in_or_app; right; left; auto). unfold send_events. rewrite HA.
    assert (HS : forall tl, sends (r_name r) (EvSend (r_name r) (frame_of c) ok :: tl) = (frame_of c, ok) :: sends (r_name r) tl) by (intros; unfold sends; cbn [flat_map]; rewrite String.eqb_refl; auto).
    rewrite HS. unfold sent in IH'. cbn [set_repeat c_repeat] in IH'. destruct (ok && (u32 (c_repeat c - 1) =? 0)) eqn:E.
    + assert (ok = true) by (apply andb_prop in E; tauto). subst ok. change (sends (r_name r) [EvTx (r_name r) (frame_of c) (c_name c)]) with (@nil (list Z * bool)). unfold reported_tx at 1. cbn [flat_map]. rewrite String.eqb_refl. cbn [app].
      apply queue_done. unfold pending_tx in IH' at 1. cbn [set_done c_done negb] in IH'. rewrite andb_false_r in IH'. auto.
    + cbn [app flat_map]. change (sends (r_name r) []) with (@nil (list Z * bool)). change (reported_tx (r_name r) [EvSend (r_name r) (frame_of c) ok]) with (@nil (list Z)). cbn [app]. apply queue_try.
      assert (HP : pending_tx (set_repeat (u32 (c_repeat c - 1)) c) = true) by exact Hc. rewrite HP in IH'. eapply queue_head; [exact IH'|reflexivity|auto].
Qed.

(** C46, C47 *)
Lemma transmit_queue : forall ws e cs r ev ifn, runs ws e cs r ev -> no_echo ifn cs ev -> queue (transmissions ifn cs) (sends ifn ev) (reported_tx ifn ev).
Proof.
  intros ws e cs r ev ifn HR HE. destruct (run_ready _ _ _ _ _ HR) as [HC [HL _]]. destruct (run_struct _ _ _ _ _ HR) as [n [rs [rs' [HG [Hn [Hn2 [HI [HO _]]]]]]]].
  rewrite <- (sends_on ifn ev), <- (reported_on ifn ev). destruct (in_interfaces cs ifn) as [X|[i X]].
  { rewrite HO by (apply no_commands_not_if; [apply ready_fits; auto|auto]). constructor. }
  destruct (HI _ _ X) as [r' [ev' [HR' [B E]]]]. pose proof (commands_name _ _ _ _ HG X) as HM. fold (iface_state cs ifn) in HM.
  assert (HH : homog (iface_state cs ifn)). { pose proof (grouped_homog _ _ HG) as K. rewrite Forall_forall in K. apply K. eapply nth_error_In. eapply grouped_nth; eauto. }
  assert (HT : Forall (fun c => traffic c = true) (r_cmds (iface_state cs ifn))). { apply Forall_forall. intros c Hc. cbn [iface_state r_cmds] in Hc. unfold commands_on in Hc. apply filter_In in Hc. destruct Hc as [_ Hc]. apply andb_prop in Hc. tauto. }
  assert (ER : receptions ifn ev = receptions ifn ev'). { rewrite <- receptions_on, E, receptions_app, final_receptions, app_nil_r. auto. }
  assert (HSF : sends ifn (final r') = [] /\ reported_tx ifn (final r') = []).
  { unfold final. clear. induction (filter missing (r_cmds r')) as [|c l [I1 I2]]; [auto|]. cbn. auto. }
  destruct HSF as [SF1 SF2]. rewrite E, sends_app, reported_app, SF1, SF2, !app_nil_r.
  pose proof (path_queue _ _ _ (rounds_path _ _ _ _ _ B) HH HT) as Q. rewrite HM in Q. replace (transmissions ifn cs) with (todo (iface_state cs ifn)).
  - apply Q. intros p Hp c Hc HTX HA. rewrite <- ER in Hp. apply (HE (snd p) c); [apply in_map; auto| |auto]. unfold transmissions. apply filter_In. split; auto.
  - unfold todo, transmissions. cbn [iface_state r_cmds]. apply filter_ext_in. intros c Hc. unfold pending_tx. unfold commands_on in Hc. apply filter_In in Hc. destruct Hc as [Hc _]. rewrite Forall_forall in HC. rewrite (y_done _ (HC c Hc)). apply andb_true_r.
Qed.

Lemma queue_reported : forall q s r, queue q s r -> exists k, r = map frame_of (firstn k q) /\ forall b, In b r -> In (b, true) s.
Proof.
  intros q s r H. induction H as [q|c q ok s r H [k [I1 I2]]|c q s r H [k [I1 I2]]].
  - exists 0%nat. split; [auto|]. intros b [].
  - exists k. split; [auto|]. intros b Hb. right. auto.
  - exists (S k). split; [cbn [firstn map]; congruence|]. intros b [<-|Hb]; [left; auto|right; auto].
Qed.
